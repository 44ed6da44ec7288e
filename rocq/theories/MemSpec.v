(** What memset, memcpy and memmove are to do: the C standard, 7.24.2 and
    7.24.6.1. *)
From Verif Require Import Base MemModel.
Local Open Scope Z_scope.

(** An object of [n] bytes at [p]. *)
Definition object (p : Z) (n : nat) : Prop := 0 <= p < 2 ^ 64 /\ p + Z.of_nat n <= 2 ^ 64.
Definition within (p : Z) (n : nat) (a : Z) : Prop := p <= a < p + Z.of_nat n.
Definition apart (p q : Z) (n : nat) : Prop := p + Z.of_nat n <= q \/ q + Z.of_nat n <= p.

(** [n] bytes at [dest] are what was at [src], the rest is as it was. *)
Definition moved (m m' : mem) (dest src : Z) (n : nat) : Prop :=
  (forall i, 0 <= i < Z.of_nat n -> m' (dest + i) = m (src + i)) /\
  (forall a, ~ within dest n a -> m' a = m a).
Definition filled (m m' : mem) (s c : Z) (n : nat) : Prop :=
  (forall a, within s n a -> m' a = c mod 256) /\
  (forall a, ~ within s n a -> m' a = m a).

Definition read_of (l : list access) : list Z := flat_map (fun x => match x with Read a => [a] | Write _ => [] end) l.
Definition written_of (l : list access) : list Z := flat_map (fun x => match x with Read _ => [] | Write a => [a] end) l.
Definition addresses (p : Z) (n : nat) : list Z := map (fun i => p + Z.of_nat i) (seq 0 n).
(** Every byte of the source is read once, every byte of the destination is
    written once, nothing else is touched. *)
Definition touches (l : list access) (dest : Z) (src : option Z) (n : nat) : Prop :=
  Permutation (written_of l) (addresses dest n) /\
  match src with
  | Some src => Permutation (read_of l) (addresses src n)
  | None => read_of l = []
  end.
