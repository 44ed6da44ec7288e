(** What the kernel's helpers do, and what programs expect of the wrappers.

    kernel/trace/bpf_trace.c (bpf_probe_read_*_common, bpf_probe_read_str),
    mm/maccess.c (copy_from_*_nofault, strncpy_from_*_nofault),
    net/core/filter.c (bpf_skb_load_bytes, bpf_skb_store_bytes),
    kernel/bpf/helpers.c (bpf_get_current_comm, bpf_get_current_pid_tgid,
    bpf_get_current_uid_gid, bpf_strncmp). *)
From Verif Require Import Base HelpModel.
Import ListNotations.
Local Open Scope Z_scope.

(** What can be read at each address of user and of kernel memory, and the
    first address that is not user memory. *)
Record memory := { user : Z -> option Z; kern : Z -> option Z; limit : Z }.
Definition seen (m : memory) (s : space) (a : Z) : Z -> option Z :=
  match s with
  | UserSpace => user m
  | KernelSpace => kern m
  | AnySpace => if a <? limit m then user m else kern m
  end.
Fixpoint bytes_at (f : Z -> option Z) (a : Z) (n : nat) : option (list Z) :=
  match n with
  | O => Some []
  | S n => match f a, bytes_at f (a + 1) n with Some b, Some l => Some (b :: l) | _, _ => None end
  end.
Definition EFAULT : Z := 14.

(** Copies all bytes, or none and clears the buffer. *)
Definition kernel_probe (m : memory) (s : space) (size a : Z) : answer :=
  match bytes_at (seen m s a) a (Z.to_nat size) with
  | Some l => (0, l)
  | None => (- EFAULT, repeat 0 (Z.to_nat size))
  end.

(** The characters up to a terminator or a limit, and whether the terminator
    was seen. *)
Fixpoint chars_at (f : Z -> option Z) (a : Z) (n : nat) : option (list Z * bool) :=
  match n with
  | O => Some ([], false)
  | S n =>
      match f a with
      | None => None
      | Some b => if b =? 0 then Some ([], true)
                  else match chars_at f (a + 1) n with Some (l, e) => Some (b :: l, e) | None => None end
      end
  end.
(** strncpy_from_user_nofault returns 0 for an empty string,
    strncpy_from_kernel_nofault returns 1; otherwise the length with the
    terminator; a string that does not fit is cut and terminated. *)
Definition kernel_probe_str (m : memory) (s : space) (size a : Z) : answer :=
  if size =? 0 then (0, []) else
  match chars_at (seen m s a) a (Z.to_nat size) with
  | None => (- EFAULT, repeat 0 (Z.to_nat size))
  | Some (l, true) =>
      let user := match s with UserSpace => true | KernelSpace => false | AnySpace => a <? limit m end in
      ((if user && (match l with [] => true | _ => false end) then 0 else Z.of_nat (length l) + 1), l ++ [0])
  | Some (l, false) => (size, firstn (Z.to_nat size - 1) l ++ [0])
  end.
Definition kernel_raw (m : memory) : raw := {| probe := kernel_probe m; probe_str := kernel_probe_str m |}.

(** A C string in memory; part of one. *)
Definition string_at (f : Z -> option Z) (a : Z) (s : list Z) : Prop :=
  (forall i b, nth_error s i = Some b -> f (a + Z.of_nat i) = Some b /\ b <> 0) /\ f (a + Z.of_nat (length s)) = Some 0.
Definition chars_of (f : Z -> option Z) (a : Z) (s : list Z) : Prop :=
  forall i b, nth_error s i = Some b -> f (a + Z.of_nat i) = Some b /\ b <> 0.

(** The current task. *)
Definition task_word (low high : Z) : Z := high * 2 ^ 32 + low.
(** strscpy_pad into a buffer of the size given. *)
Definition kernel_comm (comm : list Z) (size : Z) : answer :=
  let l := firstn (Z.to_nat size - 1) comm in (0, l ++ repeat 0 (Z.to_nat size - length l)).

(** How the kernel prints: the arguments it gets, with the terminated format.
    bpf_trace_vprintk wants whole words, at most 12
    (MAX_BPRINTF_VARARGS). *)
Definition printed (p : print) : option (list Z * list Z) :=
  match p with
  | TracePrintk fmt n args => if (n =? Z.of_nat (length fmt)) && (Z.of_nat (length args) <=? 3) then Some (fmt, args) else None
  | TraceVprintk fmt n data len =>
      if (n =? Z.of_nat (length fmt)) && (len mod 8 =? 0) && (len <=? 96) && (len / 8 <=? Z.of_nat (length data))
      then Some (fmt, firstn (Z.to_nat (len / 8)) data) else None
  end.

(** strncmp of lib/string.c. *)
Fixpoint kernel_strncmp_n (n : nat) (s1 s2 : list Z) : Z :=
  match n with
  | O => 0
  | S n =>
      let c1 := hd 0 s1 in let c2 := hd 0 s2 in
      if negb (c1 =? c2) then (if c1 <? c2 then -1 else 1)
      else if c1 =? 0 then 0 else kernel_strncmp_n n (tl s1) (tl s2)
  end.
Definition kernel_strncmp (s1 : list Z) (n : Z) (s2 : list Z) : Z := kernel_strncmp_n (Z.to_nat n) s1 s2.
Fixpoint upto_nul (l : list Z) : list Z := match l with [] => [] | b :: l => if b =? 0 then [] else b :: upto_nul l end.
Fixpoint dictionary (a b : list Z) : comparison :=
  match a, b with
  | [], [] => Eq
  | [], _ => Lt
  | _, [] => Gt
  | x :: a, y :: b => match x ?= y with Eq => dictionary a b | c => c end
  end.

(** Packets: linear in memory here. *)
Definition INT_MAX : Z := 2 ^ 31 - 1.
Definition kernel_load_bytes (pkt : list Z) (offset size : Z) : answer :=
  if INT_MAX <? offset then (- EFAULT, repeat 0 (Z.to_nat size))
  else if offset + size <=? Z.of_nat (length pkt) then (0, slice (Z.to_nat offset) (Z.to_nat size) pkt)
  else (- EFAULT, repeat 0 (Z.to_nat size)).
(** BPF_F_RECOMPUTE_CSUM and BPF_F_INVALIDATE_HASH. *)
Definition flags_known (flags : Z) : bool := (0 <=? flags) && (flags <=? 3).
Definition kernel_store_bytes (pkt : list Z) (offset : Z) (v : list Z) (flags : Z) : Z * list Z :=
  if negb (flags_known flags) then (-22, pkt)
  else if INT_MAX <? offset then (- EFAULT, pkt)
  else if offset + Z.of_nat (length v) <=? Z.of_nat (length pkt) then (0, splice (Z.to_nat offset) v pkt)
  else (- EFAULT, pkt).
Definition kernel_skb (pkt : list Z) : skb :=
  {| skb_len := Z.of_nat (length pkt); load_bytes_raw := kernel_load_bytes pkt; store_bytes_raw := kernel_store_bytes pkt |}.
Definition packet_ok (pkt : list Z) : Prop := Z.of_nat (length pkt) <= INT_MAX.
