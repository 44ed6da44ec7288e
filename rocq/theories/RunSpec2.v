(** The programs of a loaded object behave as its file says. *)
From Verif Require Import Base Insn PatchModel LinkModel ObjModel WholeModel WholeSpec LoaderModel LoaderSpec ParseModel ParseSpec RunSpec.
Local Open Scope Z_scope.

(** [o2] is the object with its instructions adapted to the kernel (C96). *)
Definition code_behaves (M : machine) (k : LoaderModel.kernel) (o2 : pobj) (e : ebpf) : Prop :=
  let o := code_of_object o2 in
  let maps := map told (map fst (e_maps e)) in
  well_formed o (is_code o) maps -> kernel_known o -> NoDup (map (fun p => (pg_index p, pg_addr p)) (p_progs o2)) -> separate o (is_code o) -> one_map o maps ->
  forall x, In x (e_progs e) -> Z.of_nat (length (f_ins (ld_fun x))) < 2 ^ 31 ->
    (forall f g, entry_of o (ld_prog x) f -> g = f \/ needs o (is_code o) f g -> tidy o (is_code o) g) ->
    exists f, entry_of o (ld_prog x) f /\ behaves M o (is_code o) maps (k_probe k) f (f_ins (ld_fun x)).

(** The same for a file (C97): what is asked of the code is [compiled]. *)
Definition file_behaves (M : machine) (k : LoaderModel.kernel) (o2 : pobj) (e : ebpf) : Prop :=
  let o := code_of_object o2 in
  let maps := map told (map fst (e_maps e)) in
  compiled o -> kernel_known o -> separate o (is_code o) -> one_map o maps ->
  forall x, In x (e_progs e) -> Z.of_nat (length (f_ins (ld_fun x))) < 2 ^ 31 ->
    (forall f g, entry_of o (ld_prog x) f -> g = f \/ needs o (is_code o) f g -> tidy o (is_code o) g) ->
    exists f, entry_of o (ld_prog x) f /\ behaves M o (is_code o) maps (k_probe k) f (f_ins (ld_fun x)).
