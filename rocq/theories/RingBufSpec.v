(** What a ring buffer reader is supposed to deliver, stated on the log of
    what the eBPF side did (no reference to positions, masks or memory). *)
From Verif Require Import Base RingBufModel.
Local Open Scope Z_scope.

Definition is_committed (e : rentry) : bool :=
  match r_status e with Committed => true | _ => false end.
Definition is_reserved (e : rentry) : bool :=
  match r_status e with Reserved => true | _ => false end.

(** Payloads of the submitted records of a log. *)
Definition payloads (l : list rentry) : list (list Z) := map r_content (filter is_committed l).

(** The part of a log in front of the first record still being written. *)
Fixpoint settled (l : list rentry) : list rentry :=
  match l with
  | [] => []
  | e :: r => if is_reserved e then [] else e :: settled r
  end.

(** Ring sizes the kernel accepts and for which the flag bits lie outside the
    length mask. *)
Definition ring_size_ok (size : Z) : Prop := exists e, 3 <= e <= 30 /\ size = 2 ^ e.
