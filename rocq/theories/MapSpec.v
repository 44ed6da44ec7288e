(** What iteration and per-CPU values are expected to do. *)
From Verif Require Import Base MapModel.
Local Open Scope Z_scope.

(** * A map that does not change *)

(** The kernel hands keys out in some fixed order, each after the one before
    it; a key it does not know starts from the beginning (kernel/bpf/hashtab.c
    [htab_map_get_next_key]). *)
Fixpoint after_key {K} (eqb : K -> K -> bool) (k : K) (l : list K) : option (option K) :=
  match l with
  | [] => None
  | x :: l => if eqb k x then Some (match l with [] => None | y :: _ => Some y end) else after_key eqb k l
  end.
Definition next_of {K} (eqb : K -> K -> bool) (l : list K) (k : option K) : option K :=
  let first := match l with [] => None | x :: _ => Some x end in
  match k with
  | None => first
  | Some k => match after_key eqb k l with Some n => n | None => first end
  end.

(** * Objects *)

(** The kernel returns the smallest id above the given one ([bpf_obj_get_next_id]). *)
Fixpoint next_id_of (l : list Z) (id : Z) : option Z :=
  match l with
  | [] => None
  | x :: l => if id <? x then Some x else next_id_of l id
  end.
Fixpoint ascending (from : Z) (l : list Z) : Prop :=
  match l with
  | [] => True
  | x :: l => from < x /\ ascending x l
  end.

(** * Per-CPU values *)

(** A per-CPU element in the kernel ([bpf_percpu_hash_update],
    [bpf_percpu_hash_copy]): the buffer has one slot per possible CPU, each
    the value size rounded up to 8 bytes. *)
Definition slot_size (size : Z) : Z := 8 * ((size + 7) / 8).
Definition kernel_takes (size nr : nat) (mem : list Z) : list (list Z) :=
  map (fun cpu => slice (cpu * Z.to_nat (slot_size (Z.of_nat size))) size mem) (seq 0 nr).

(** What the kernel writes: each CPU's value, then whatever fills its slot. *)
Definition kernel_gives (values pads : list (list Z)) : list Z := concat (map (fun vp => fst vp ++ snd vp) (combine values pads)).
