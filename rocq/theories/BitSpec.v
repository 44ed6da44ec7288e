(** What a bit field of a C structure is, for both byte orders, and the
    declarations of the kernel headers.  Nothing here refers to the model of
    the accessors. *)
From Coq Require Import String.
From Verif Require Import Base Text.
Open Scope Z_scope.

(** The number a unit holds in the byte order of the target. *)
Definition number (be : bool) (s : list Z) : Z :=
  if be then le_dec (rev s) else le_dec s.

(** How far a field lies above the lowest bit of that number.  C compilers
    give out the bits of a unit from the lowest on a little-endian target and
    from the highest on a big-endian one. *)
Definition above (be : bool) (len o w : nat) : nat :=
  if be then (8 * len - o - w)%nat else o.

(** The value of the field of [w] bits declared after [o] others. *)
Definition value (be : bool) (s : list Z) (o w : nat) : Z :=
  (number be s / 2 ^ Z.of_nat (above be (length s) o w))
    mod 2 ^ Z.of_nat w.

(** [s'] is [s] with [v] in that field and every other bit as it was. *)
Definition replaced (be : bool) (s : list Z) (o w : nat) (v : Z)
    (s' : list Z) : Prop :=
  length s' = length s /\ bytes_ok s' = true /\
  number be s' = number be s
    + (v mod 2 ^ Z.of_nat w - value be s o w)
      * 2 ^ Z.of_nat (above be (length s) o w).

(** A field lies in a unit of [len] bytes, and fits a [u64]. *)
Definition inside (len o w : nat) : Prop := (o + w <= 8 * len /\ w <= 64)%nat.

(** Two fields share no bit. *)
Definition apart (o w o' w' : nat) : Prop := (o + w <= o' \/ o' + w' <= o)%nat.

(** The bytes at [p] are [s]. *)
Definition holds (m : Z -> Z) (p : Z) (s : list Z) : Prop :=
  forall i, (i < length s)%nat -> m (p + Z.of_nat i) = nth i s 0.

(** The offsets of declarations [type name : width]; an empty name is padding. *)
Fixpoint laid_out (o : nat) (l : list (list Z * nat))
  : list (list Z * (nat * nat)) :=
  match l with
  | [] => []
  | (n, w) :: r =>
      match n with
      | [] => laid_out (o + w) r
      | _ => (n, (o, w)) :: laid_out (o + w) r
      end
  end.

(** include/uapi/linux/bpf.h, [struct bpf_insn]. *)
Definition insn_decl : list (list Z * nat) :=
  [ (txt "dst_reg", 4%nat); (txt "src_reg", 4%nat) ].

(** include/uapi/linux/bpf.h, [struct bpf_prog_info]. *)
Definition info_decl : list (list Z * nat) :=
  [ (txt "gpl_compatible", 1%nat); ([], 31%nat) ].

(** include/uapi/linux/perf_event.h, [struct perf_event_attr]. *)
Definition attr_decl : list (list Z * nat) :=
  [ (txt "disabled", 1%nat); (txt "inherit", 1%nat); (txt "pinned", 1%nat);
    (txt "exclusive", 1%nat); (txt "exclude_user", 1%nat);
    (txt "exclude_kernel", 1%nat); (txt "exclude_hv", 1%nat);
    (txt "exclude_idle", 1%nat); (txt "mmap", 1%nat); (txt "comm", 1%nat);
    (txt "freq", 1%nat); (txt "inherit_stat", 1%nat);
    (txt "enable_on_exec", 1%nat); (txt "task", 1%nat);
    (txt "watermark", 1%nat); (txt "precise_ip", 2%nat);
    (txt "mmap_data", 1%nat); (txt "sample_id_all", 1%nat);
    (txt "exclude_host", 1%nat); (txt "exclude_guest", 1%nat);
    (txt "exclude_callchain_kernel", 1%nat);
    (txt "exclude_callchain_user", 1%nat); (txt "mmap2", 1%nat);
    (txt "comm_exec", 1%nat); (txt "use_clockid", 1%nat);
    (txt "context_switch", 1%nat); (txt "write_backward", 1%nat);
    (txt "namespaces", 1%nat); (txt "ksymbol", 1%nat);
    (txt "bpf_event", 1%nat); (txt "aux_output", 1%nat);
    (txt "cgroup", 1%nat); (txt "text_poke", 1%nat); (txt "build_id", 1%nat);
    (txt "inherit_thread", 1%nat); (txt "remove_on_exec", 1%nat);
    (txt "sigtrap", 1%nat); (txt "__reserved_1", 26%nat) ].

(** include/uapi/linux/perf_event.h, [struct perf_event_mmap_page]. *)
Definition caps_decl : list (list Z * nat) :=
  [ (txt "cap_bit0", 1%nat); (txt "cap_bit0_is_deprecated", 1%nat);
    (txt "cap_user_rdpmc", 1%nat); (txt "cap_user_time", 1%nat);
    (txt "cap_user_time_zero", 1%nat); (txt "cap_user_time_short", 1%nat);
    (txt "cap_____res", 58%nat) ].

(** The sizes in bytes and the declarations of the four units. *)
Definition decls : list (nat * list (list Z * nat)) :=
  [ (1%nat, insn_decl); (4%nat, info_decl);
    (8%nat, attr_decl); (8%nat, caps_decl) ].

(** No two of the fields share a bit. *)
Fixpoint separate (l : list (nat * nat)) : Prop :=
  match l with
  | [] => True
  | (o, w) :: r =>
      Forall (fun ow => apart o w (fst ow) (snd ow)) r /\ separate r
  end.

(** The number a unit of [len] bytes holds when each field has its value and
    all other bits are zero. *)
Fixpoint total (be : bool) (len : nat) (l : list (nat * nat * Z)) : Z :=
  match l with
  | [] => 0
  | (o, w, v) :: r =>
      (v mod 2 ^ Z.of_nat w) * 2 ^ Z.of_nat (above be len o w)
      + total be len r
  end.
