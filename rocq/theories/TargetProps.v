(** Property C88: an extension replaces the function named, in the program
    given. *)
From Coq Require Import String.
From Verif Require Import Base Text ProgModel BtfTypes BtfModel BtfProofs LayoutModel LayoutDecls InfoModel InfoSpec InfoProofs TargetModel TargetSpec TargetProofs.
Import ListNotations.
Local Open Scope Z_scope.

(** The BTF is read whole, whatever its size, with one call or two. *)
Theorem C88_bytes : forall fuel data buf, Z.of_nat (length data) < 2 ^ 32 -> Z.of_nat (length buf) < 2 ^ 32 -> (2 <= fuel)%nat ->
  read_loop fuel data buf = Some (data, if (length data <=? length buf)%nat then 1%nat else 2%nat).
Proof. exact loop_reads. Qed.
Print Assumptions C88_bytes.

(** The number found is that of the first function of the name in the BTF of
    the program, and it is found if there is one. *)
Theorem C88_found : forall fuel k fd func n bfd b i, (2 <= fuel)%nat -> has_btf k fd n -> k_btf k n = Some (bfd, btf_to_bytes b) -> small_btf b -> first_func b func i ->
  get_btf_info fuel k fd func = Ok (bfd, Z.of_nat i).
Proof. exact target_found. Qed.
Print Assumptions C88_found.
Theorem C88_right : forall fuel k fd func n bfd b fd' i, (2 <= fuel)%nat -> has_btf k fd n -> k_btf k n = Some (bfd, btf_to_bytes b) -> small_btf b -> get_btf_info fuel k fd func = Ok (fd', i) ->
  fd' = bfd /\ 0 <= i /\ first_func b func (Z.to_nat i).
Proof. exact target_right. Qed.
Print Assumptions C88_right.
Theorem C88_first : forall b name i, func_at b name i -> funcs_named b -> exists j, (j <= i)%nat /\ first_func b name j.
Proof. exact first_exists. Qed.
Print Assumptions C88_first.
(** No such function, no BTF: an error, and nothing is changed or asked. *)
Theorem C88_missing : forall fuel k fd func n bfd b, (2 <= fuel)%nat -> has_btf k fd n -> k_btf k n = Some (bfd, btf_to_bytes b) -> small_btf b -> (forall i, ~ func_at b func i) ->
  exists e, get_btf_info fuel k fd func = Err (TBtf e).
Proof. exact target_missing. Qed.
Print Assumptions C88_missing.
Theorem C88_no_btf : forall fuel k fd func, has_no_btf k fd -> get_btf_info fuel k fd func = Err TNoBtf.
Proof. exact no_btf. Qed.
Print Assumptions C88_no_btf.
Theorem C88_nothing : forall fuel k l running fd func d e, get_btf_info fuel k fd func = Err e ->
  ext_load fuel k l running fd func d = (Err (perr_of e), d, []) /\ ext_attach_to fuel k fd func d = Err (perr_of e).
Proof. exact load_nothing. Qed.
Print Assumptions C88_nothing.

(** The load asks for it, and attaching replaces it. *)
Theorem C88_load : forall fuel k l running fd func n bfd b i d q, (2 <= fuel)%nat -> has_btf k fd n -> k_btf k n = Some (bfd, btf_to_bytes b) -> small_btf b -> first_func b func i ->
  In q (snd (ext_load fuel k l running fd func d)) -> q_type q = 28 /\ q_target q = fd /\ q_btf_id q = Z.of_nat i /\ q_attach q = 0.
Proof. exact load_target. Qed.
Print Assumptions C88_load.
Theorem C88_attach : forall fuel k l running fd func n bfd b i d d' qs link, (2 <= fuel)%nat -> has_btf k fd n -> k_btf k n = Some (bfd, btf_to_bytes b) -> small_btf b -> first_func b func i ->
  ext_load fuel k l running fd func d = (Ok tt, d', qs) -> exists g, d_fd d' = Some g /\ attach_req link KExtension SNone d' = Ok (ALinkCreate g (WFd fd) 0 0 (Some (Z.of_nat i))).
Proof. exact load_attach. Qed.
Print Assumptions C88_attach.
Theorem C88_attach_to : forall fuel k fd func n bfd b i d g, (2 <= fuel)%nat -> has_btf k fd n -> k_btf k n = Some (bfd, btf_to_bytes b) -> small_btf b -> first_func b func i -> d_fd d = Some g ->
  ext_attach_to fuel k fd func d = Ok (ALinkCreate g (WFd fd) 0 0 (Some (Z.of_nat i))).
Proof. exact attach_other. Qed.
Print Assumptions C88_attach_to.
(** It is the load of C76 to C79 with what was found. *)
Theorem C88_same_load : forall fuel k l running fd func d, (forall b, get_btf_info fuel k fd func <> Err b) ->
  exists bfd i, ext_load fuel k l running fd func d = load l running KExtension (TProgram fd func (Some (bfd, fun n t => if str_eqb n func && (t =? 12) then Some i else None))) d.
Proof. exact load_as_before. Qed.
Print Assumptions C88_same_load.

(** BTF with an [int] and the functions [f], [g] and [f] again; program 7 has
    it, program 8 has none. *)
Definition sample_btf : btf :=
  {| b_hdr := {| bh_magic := 60319; bh_version := 1; bh_flags := 0; bh_hdr_len := 24; bh_type_off := 0; bh_type_len := 52; bh_str_off := 52; bh_str_len := 9 |};
     b_strings := [0] ++ txt "int" ++ [0] ++ txt "f" ++ [0] ++ txt "g" ++ [0];
     b_types := [TUnknown; TInt {| h_name := 1; h_info := 16777216; h_third := 4 |} 32; TFunc {| h_name := 5; h_info := 201326592; h_third := 1 |};
       TFunc {| h_name := 7; h_info := 201326592; h_third := 1 |}; TFunc {| h_name := 5; h_info := 201326592; h_third := 1 |}] |}.
Definition sample_kernel : kernel :=
  {| k_info := fun fd => if fd =? 7 then Some (repeat 0 128 ++ [9; 0; 0; 0] ++ repeat 0 100) else if fd =? 8 then Some (repeat 0 232) else None;
     k_btf := fun n => if n =? 9 then Some (20, btf_to_bytes sample_btf) else None |}.
Example target_example : has_btf sample_kernel 7 9 /\ has_no_btf sample_kernel 8 /\ first_func sample_btf (txt "f") 2 /\ funcs_named sample_btf /\
  btf_parse (btf_to_bytes sample_btf) = Ok sample_btf /\ Z.of_nat (length (btf_to_bytes sample_btf)) <= 16 * 2 ^ 20 /\
  get_btf_info 2 sample_kernel 7 (txt "g") = Ok (20, 3) /\ get_btf_info 2 sample_kernel 8 (txt "g") = Err TNoBtf /\ get_btf_info 2 sample_kernel 7 (txt "h") = Err (TBtf BUnknownBtfTypeName).
Proof.
  split. { split; [discriminate|]. eexists. split; [reflexivity|]. split; [apply Nat.leb_le; reflexivity|vm_compute; reflexivity]. }
  split. { eexists. split; [reflexivity|]. left. split; [vm_compute; reflexivity|apply Nat.leb_le; reflexivity]. }
  split. { split; [eexists; split; vm_compute; reflexivity|]. intros [|[|j]] L (h & N & T); [discriminate N|discriminate N|lia]. }
  split. { intros [|[|[|[|[|i]]]]] h N; try discriminate N; try (cbn [nth_error sample_btf b_types] in N; apply some_inj in N; rewrite <- N; eexists; vm_compute; reflexivity). destruct i; discriminate N. }
  split; [vm_compute; reflexivity|]. split; [vm_compute; discriminate|]. split; [vm_compute; reflexivity|]. split; vm_compute; reflexivity.
Qed.
Lemma sample_small : small_btf sample_btf.
Proof.
  split; [|split; [exact (proj1 (proj2 (proj2 (proj2 target_example))))|vm_compute; discriminate]].
  split; [vm_compute; intuition discriminate|]. do 4 (split; [vm_compute; reflexivity|]). eexists. split; [reflexivity|]. split; [|vm_compute; reflexivity].
  repeat (apply Forall_cons; [vm_compute; intuition discriminate|]). apply Forall_nil.
Qed.
