(** Model of ring buffers as programs use them:
    /repo/ebpf/aya-ebpf/src/maps/ring_buf.rs and btf_maps/ring_buf.rs.

    Simplifications: pointers are numbers, 0 is null; types are given by their
    size and alignment; flags of [submit] and [discard] only concern wake-ups
    and are passed on. *)
From Verif Require Import Base.
Local Open Scope Z_scope.

(** The helpers: bpf_ringbuf_reserve, bpf_ringbuf_submit, bpf_ringbuf_discard,
    bpf_ringbuf_output. *)
Record ring (S : Type) := {
  g_reserve : Z -> Z -> S -> Z * S;
  g_submit : Z -> Z -> S -> S;
  g_discard : Z -> Z -> S -> S;
  g_output : list Z -> Z -> S -> Z * S
}.
Arguments g_reserve {S}. Arguments g_submit {S}. Arguments g_discard {S}. Arguments g_output {S}.

(** What a method gives: it does not return, no entry, an entry, nothing,
    success, an error. *)
Inductive eresult := EPanic | ENone | EEntry (ptr : Z) | EUnit | EOk | EErr (e : Z).

(** maps/ring_buf.rs 53-57 and 96-98 [from_raw]. *)
Definition from_raw (ptr : Z) : eresult := if ptr =? 0 then ENone else EEntry ptr.

(** maps/ring_buf.rs 146-150, btf_maps/ring_buf.rs 32-35. *)
Definition reserve_bytes {S} (H : ring S) (size flags : Z) (s : S) : eresult * S :=
  let (ptr, s) := g_reserve H (u64 size) flags s in (from_raw ptr, s).

(** maps/ring_buf.rs 172-182 [reserve], btf_maps/ring_buf.rs 57-91: [T] has
    [size] and [align]; without generic_const_exprs. *)
Definition reserve_typed {S} (H : ring S) (size align flags : Z) (s : S) : eresult * S :=
  if 8 mod align =? 0 then let (ptr, s) := g_reserve H (u64 size) flags s in (from_raw ptr, s) else (EPanic, s).

(** maps/ring_buf.rs 60-69 and 101-110. *)
Definition submit {S} (H : ring S) (ptr flags : Z) (s : S) : eresult * S := (EUnit, g_submit H ptr flags s).
Definition discard {S} (H : ring S) (ptr flags : Z) (s : S) : eresult * S := (EUnit, g_discard H ptr flags s).

(** maps/ring_buf.rs 199-210, btf_maps/ring_buf.rs 116-127. *)
Definition output {S} (H : ring S) (data : list Z) (align flags : Z) (s : S) : eresult * S :=
  if 8 mod align =? 0
  then let (ret, s) := g_output H data flags s in ((if ret <? 0 then EErr (i32 ret) else EOk), s)
  else (EPanic, s).

(** What a program does; a store into an entry is one through the reference the
    entry holds. *)
Inductive ecall :=
| EReserveBytes (size flags : Z)
| EReserve (size align flags : Z)
| EWrite (ptr : Z) (off : nat) (b : Z)
| ESubmit (ptr flags : Z)
| EDiscard (ptr flags : Z)
| EOutput (data : list Z) (align flags : Z).
