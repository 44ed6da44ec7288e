(** The memory functions every eBPF program is linked with.

    Source: ebpf/aya-ebpf/src/lib.rs 94-136 (memset, memcpy, memmove,
    copy_forward, copy_backward).  The compiler emits calls to these for
    assignments and copies of larger values.

    An address is a number below 2^64, the pointer width of the target being
    64 bits, and memory is a function from addresses to bytes.  [usize]
    arithmetic wraps around.  [ptr.add] is undefined behaviour when it leaves
    the object; here the address wraps around instead, and the theorems ask
    for buffers that do not.  The accesses made are recorded, the first one
    first. *)
From Verif Require Import Base.
Local Open Scope Z_scope.

Definition mem := Z -> Z.
Inductive access := Read (a : Z) | Write (a : Z).

Definition store (m : mem) (a v : Z) : mem := fun x => if x =? a then v else m x.
(** [p.add(i)] (lib.rs 102, 126, 133). *)
Definition add (p i : Z) : Z := u64 (p + i).

(** [*dest.add(i) = *src.add(i)] for the listed [i] in turn (lib.rs 126, 133). *)
Fixpoint copy_at (dest src : Z) (is : list nat) (m : mem) : mem * list access :=
  match is with
  | [] => (m, [])
  | i :: is =>
      let s := add src (Z.of_nat i) in
      let d := add dest (Z.of_nat i) in
      let '(m', l) := copy_at dest src is (store m d (m s)) in
      (m', Read s :: Write d :: l)
  end.
(** copy_forward (lib.rs 124-128): [0..n]. *)
Definition copy_forward (dest src : Z) (n : nat) (m : mem) : mem * list access := copy_at dest src (seq 0 n) m.
(** copy_backward (lib.rs 131-135): [(0..n).rev()]. *)
Definition copy_backward (dest src : Z) (n : nat) (m : mem) : mem * list access := copy_at dest src (rev (seq 0 n)) m.

(** memset (lib.rs 98-104). *)
Fixpoint set_at (s b : Z) (is : list nat) (m : mem) : mem * list access :=
  match is with
  | [] => (m, [])
  | i :: is =>
      let d := add s (Z.of_nat i) in
      let '(m', l) := set_at s b is (store m d b) in
      (m', Write d :: l)
  end.
Definition memset (s c : Z) (n : nat) (m : mem) : mem * list access := set_at s (u8 c) (seq 0 n) m.

(** memcpy (lib.rs 107-109). *)
Definition memcpy (dest src : Z) (n : nat) (m : mem) : mem * list access := copy_forward dest src n m.

(** memmove (lib.rs 112-121). *)
Definition memmove (dest src : Z) (n : nat) (m : mem) : mem * list access :=
  let delta := u64 (dest - src) in
  if Z.of_nat n <=? delta then copy_forward dest src n m else copy_backward dest src n m.
