(** The helpers through which eBPF programs read and write memory and packets.

    Sources: ebpf/aya-ebpf/src/helpers.rs, lib.rs 61-86 and 138-178,
    programs/sk_buff.rs.  The raw helpers are given by functions: what the
    kernel returned (a [c_long], 64 bits) and what it left in the buffer.  The
    value of a Rust type [T] is its bytes; reading it when the kernel wrote
    fewer than [size_of::<T>()] bytes is the error [Undefined]. *)
From Verif Require Import Base.
Import ListNotations.
Local Open Scope Z_scope.

Inductive error := Helper (e : Z) | Undefined.

(** What a raw helper did: the value returned and the bytes written from the
    start of the buffer on. *)
Definition answer : Type := Z * list Z.
Inductive space := AnySpace | UserSpace | KernelSpace.
(** The raw helpers, given a space, a size and a source address. *)
Record raw := { probe : space -> Z -> Z -> answer; probe_str : space -> Z -> Z -> answer }.

(** The buffer after the kernel wrote into it. *)
Definition written (new old : list Z) : list Z := new ++ skipn (length new) old.

(** bpf_probe_read, bpf_probe_read_user and bpf_probe_read_kernel
    (helpers.rs 88-98, 150-160, 211-221). *)
Definition value_of (size : Z) (l : list Z) : res error (list Z) :=
  if Z.of_nat (length l) =? size then Ok l else Err Undefined.
Definition probe_read (k : raw) (s : space) (size src : Z) : res error (list Z) :=
  let '(ret, out) := probe k s (u32 size) src in
  match s with
  | AnySpace => if 0 <=? ret then value_of size out else Err (Helper (i32 ret))
  | UserSpace | KernelSpace => if ret =? 0 then value_of size out else Err (Helper (i32 ret))
  end.
(** bpf_probe_read_buf, _user_buf and _kernel_buf (helpers.rs 122-126,
    182-187, 243-248). *)
Definition probe_read_buf (k : raw) (s : space) (src : Z) (dst : list Z) : res error unit * list Z :=
  let '(ret, out) := probe k s (u32 (Z.of_nat (length dst))) src in
  ((if ret =? 0 then Ok tt else Err (Helper (i32 ret))), written out dst).

(** check_bounds_signed (lib.rs 154-178): three instructions. *)
Inductive insn := IfLess (over : nat) | IfGreater (over : nat) | SetOne.
Fixpoint run (value lower upper : Z) (fuel : nat) (is : list insn) (i : Z) : Z :=
  match fuel with
  | O => i
  | S fuel =>
      match is with
      | [] => i
      | IfLess over :: is => run value lower upper fuel (if value <? lower then skipn over is else is) i
      | IfGreater over :: is => run value lower upper fuel (if upper <? value then skipn over is else is) i
      | SetOne :: is => run value lower upper fuel is 1
      end
  end.
Definition check_bounds_signed (value lower upper : Z) : bool :=
  run value lower upper 3 [IfLess 2; IfGreater 1; SetOne] 0 =? 1.

(** read_str_bytes (helpers.rs 415-430). *)
Definition read_str_bytes (len : Z) (dest : list Z) : res error (list Z) :=
  if negb (check_bounds_signed len 0 (i64 (Z.of_nat (length dest)))) then Err (Helper (-1)) else
  if len <? 0 then Err (Helper (-1)) else
  let len := Z.max 0 (len - 1) in
  if len <=? Z.of_nat (length dest) then Ok (firstn (Z.to_nat len) dest) else Err (Helper (-1)).
(** bpf_probe_read_user_str_bytes and _kernel_str_bytes (helpers.rs 407-413,
    553-566). *)
Definition probe_read_str_bytes (k : raw) (s : space) (src : Z) (dest : list Z) : res error (list Z) * list Z :=
  let '(len, out) := probe_str k s (u32 (Z.of_nat (length dest))) src in
  let dest := written out dest in
  (read_str_bytes len dest, dest).
(** bpf_probe_read_str, _user_str and _kernel_str (helpers.rs 281-288, 316-323,
    458-469). *)
Definition probe_read_str (k : raw) (s : space) (src : Z) (dest : list Z) : res error Z * list Z :=
  let '(len, out) := probe_str k s (u32 (Z.of_nat (length dest))) src in
  ((if len <? 0 then Err (Helper (-1)) else Ok (Z.min len (Z.of_nat (length dest)))), written out dest).

(** bpf_get_current_comm (helpers.rs 617-623), given the raw helper. *)
Definition TASK_COMM_LEN : nat := 16.
Definition get_current_comm (raw : Z -> answer) : res error (list Z) :=
  let comm := repeat 0 TASK_COMM_LEN in
  let '(ret, out) := raw (u32 (Z.of_nat (length comm))) in
  if ret =? 0 then Ok (written out comm) else Err (Helper (i32 ret)).

(** EbpfContext::pid, tgid, uid, gid (lib.rs 71-85). *)
Definition pid (pid_tgid : Z) : Z := u32 pid_tgid.
Definition tgid (pid_tgid : Z) : Z := u32 (Z.shiftr pid_tgid 32).
Definition uid (uid_gid : Z) : Z := u32 uid_gid.
Definition gid (uid_gid : Z) : Z := u32 (Z.shiftr uid_gid 32).

(** bpf_f_adj_room_encap_l2 (lib.rs 147-149). *)
Definition adj_room_encap_l2 (len : Z) : Z := u64 (Z.shiftl (Z.land len 255) 56).

(** PrintkArg::from (helpers.rs 749-789): signed types through [i64]. *)
Definition printk_arg (signed : bool) (x : Z) : Z := if signed then u64 (i64 x) else u64 x.
(** The two helpers bpf_printk can call. *)
Inductive print :=
| TracePrintk (fmt : list Z) (fmt_size : Z) (args : list Z)
| TraceVprintk (fmt : list Z) (fmt_size : Z) (data : list Z) (data_len : Z).
(** bpf_printk_impl (helpers.rs 798-826); [fmt] is the C string with its
    terminator (713-723). *)
Definition printk (fmt : list Z) (args : list Z) : print :=
  let fmt_size := u32 (Z.of_nat (length fmt)) in
  match args with
  | [] => TracePrintk fmt fmt_size []
  | [a] => TracePrintk fmt fmt_size [a]
  | [a; b] => TracePrintk fmt fmt_size [a; b]
  | [a; b; c] => TracePrintk fmt fmt_size [a; b; c]
  | _ => TraceVprintk fmt fmt_size args (u32 (Z.of_nat (length args) * 8))
  end.

(** bpf_strncmp (helpers.rs 838-846): [.cmp(&0)] of what the raw helper
    returned. *)
Definition strncmp (raw : list Z -> Z -> list Z -> Z) (s1 s2 : list Z) : comparison :=
  raw s1 (u32 (Z.of_nat (length s1))) s2 ?= 0.

(** Packets: the raw helpers of an [sk_buff], given offset and size. *)
Record skb := {
  skb_len : Z;
  load_bytes_raw : Z -> Z -> answer;
  (* offset, bytes, flags: what was returned and the packet afterwards *)
  store_bytes_raw : Z -> list Z -> Z -> Z * list Z
}.
(** SkBuff::load (sk_buff.rs 69-84); errors are a [c_long] here. *)
Definition load (b : skb) (offset size : Z) : res error (list Z) :=
  let '(ret, out) := load_bytes_raw b (u32 offset) (u32 size) in
  if ret =? 0 then value_of size out else Err (Helper ret).
(** SkBuff::load_bytes (sk_buff.rs 96-110); [usize] has 64 bits. *)
Definition load_bytes (b : skb) (offset : Z) (dst : list Z) : res error Z * list Z :=
  let len := skb_len b in
  if len <? offset then (Err (Helper (-1)), dst) else
  let len := Z.min (len - offset) (Z.of_nat (length dst)) in
  if 2 ^ 32 <=? len then (Err (Helper (-1)), dst) else
  let '(ret, out) := load_bytes_raw b (u32 offset) len in
  ((if ret =? 0 then Ok len else Err (Helper ret)), written out dst).
(** SkBuff::store (sk_buff.rs 113-124): the result and the packet. *)
Definition store (b : skb) (offset : Z) (v : list Z) (flags : Z) : res error unit * list Z :=
  let '(ret, pkt) := store_bytes_raw b (u32 offset) v flags in
  ((if ret =? 0 then Ok tt else Err (Helper ret)), pkt).
