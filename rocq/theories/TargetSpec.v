(** What the function an extension replaces should be. *)
From Coq Require Import String.
From Verif Require Import Base ProgModel BtfTypes BtfModel BtfProofs TargetModel InfoSpec.
Import ListNotations.
Local Open Scope Z_scope.

(** The program behind [fd] was loaded with BTF object number [n]. *)
Definition has_btf (k : kernel) (fd n : Z) : Prop :=
  n <> 0 /\ exists b, k_info k fd = Some b /\ (132 <= length b)%nat /\ k_field b 128 4 = Some n.
(** It was loaded without BTF, or by a kernel that knows no BTF. *)
Definition has_no_btf (k : kernel) (fd : Z) : Prop :=
  exists b, k_info k fd = Some b /\ (k_field b 128 4 = Some 0 /\ (132 <= length b)%nat \/ (length b <= 128)%nat).
(** Type [i] is a function of that name. *)
Definition func_at (b : btf) (name : list Z) (i : nat) : Prop :=
  exists h, nth_error (b_types b) i = Some (TFunc h) /\ type_name b (TFunc h) = Ok name.
(** Type [i] is the first such. *)
Definition first_func (b : btf) (name : list Z) (i : nat) : Prop := func_at b name i /\ forall j, (j < i)%nat -> ~ func_at b name j.
(** Every function has a name, as the kernel's verifier of BTF demands. *)
Definition funcs_named (b : btf) : Prop := forall i h, nth_error (b_types b) i = Some (TFunc h) -> exists n, type_name b (TFunc h) = Ok n.
(** BTF in the layout [Btf::to_bytes] writes, of a size the kernel takes
    (BTF_MAX_SIZE is 16 MiB). *)
Definition small_btf (b : btf) : Prop := btf_ok b /\ funcs_named b /\ Z.of_nat (length (btf_to_bytes b)) <= 16 * 2 ^ 20.
