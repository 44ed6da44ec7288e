(** Claims about the kernel modules of the test machine. *)
From Coq Require Import String.
From Verif Require Import Base Text TextParse TextSplit LogModel KmodModel KmodSpec KmodProofs KmodProofs2.
Local Open Scope Z_scope.

(** * C108: a module is found by its aliases *)

(** modules.alias has a line for each alias of each module, in the order of the
    walk; depmod fails exactly when a module cannot be read. *)
Theorem C108_depmod : forall V tree out, depmod V tree = (out, None) <-> exists l, listed V tree l /\ out = flat_map alias_line l.
Proof. intros V tree out. split; [exact (depmod_sound V tree out)|]. intros (l & L & ->). exact (depmod_complete V tree l L). Qed.
Print Assumptions C108_depmod.

(** The first module that has the alias is given to the kernel, decompressed, when
    it is the only one of its name below "kernel" (aliases and names that fit into
    a line). *)
Theorem C108_loads_partial : forall V im tree sorted l a m e c d, listed V tree l -> Forall plain l -> first_with a l m ->
  In e sorted -> module_file e m c -> below_kernel e m -> (forall e', In e' sorted -> below_kernel e' m -> e' = e) -> contents_of V e c d -> is_elf d ->
  try_main V im (Some (fst (depmod V tree))) sorted a = if im d =? 0 then Ok d else if im d =? 17 then Err (EExists d) else Err (ELoad d (im d)).
Proof. intros V im tree sorted l a m e c d L P. exact (loads V im tree sorted l L P a m e c d). Qed.
Print Assumptions C108_loads_partial.
(** Nothing else is ever loaded. *)
Theorem C108_only : forall V im tree sorted l a d, listed V tree l -> Forall plain l -> try_main V im (Some (fst (depmod V tree))) sorted a = Ok d ->
  exists m e, first_with a l m /\ In e sorted /\ e_file e = true /\ below_kernel e m /\ is_elf d /\ im d = 0 /\
    (forall c, module_file e m c -> contents_of V e c d).
Proof. intros V im tree sorted l a d L P. exact (loads_only V im tree sorted l L P a d). Qed.
Print Assumptions C108_only.
(** What is no alias is not found. *)
Theorem C108_unknown : forall V im tree sorted l a, listed V tree l -> Forall plain l -> (forall m, ~ first_with a l m) ->
  try_main V im (Some (fst (depmod V tree))) sorted a = Err EAliasNotFound.
Proof. intros V im tree sorted l a L P. exact (not_an_alias V im tree sorted l L P a). Qed.
Print Assumptions C108_unknown.
Theorem C108_first : forall a l m n, first_with a l m -> first_with a l n -> n = m.
Proof. intros a l m n H. exact (first_one a l m H n). Qed.
Print Assumptions C108_first.

(** It makes no difference when the last line of the file has no line feed. *)
Theorem C108_last_line : forall l x a, Forall plain l -> plain x ->
  resolve_alias (Some (flat_map alias_line l ++ txt "alias " ++ fst x ++ txt " " ++ snd x)) a = resolve_alias (Some (flat_map alias_line (l ++ [x]))) a.
Proof. exact last_line. Qed.
Print Assumptions C108_last_line.

(** Other lines do not matter. *)
Theorem C108_other_lines : forall l x rest a, Forall plain l -> other_text x ->
  resolve_alias (Some (flat_map alias_line l ++ x ++ [10] ++ rest)) a = resolve_alias (Some (flat_map alias_line l ++ rest)) a.
Proof. exact other_line. Qed.
Print Assumptions C108_other_lines.
Example C108_ex_other : other_text (txt "# Aliases extracted from modules themselves.").
Proof.
  split; [vm_compute; reflexivity|]. split; [vm_compute; intuition discriminate|]. split; [|intros r E; discriminate E].
  intros p E. apply (f_equal (@rev Z)) in E. rewrite rev_app_distr in E. vm_compute in E. discriminate E.
Qed.

(** When quiet the exit status is always that of success, else that of the
    outcome. *)
Theorem C108_quiet : forall V im file sorted name, modprobe V im file sorted true name = true /\
  (modprobe V im file sorted false name = true <-> exists d, try_main V im file sorted name = Ok d).
Proof.
  intros V im file sorted name. split; [reflexivity|]. unfold modprobe. destruct (try_main V im file sorted name) as [d|e].
  - split; eauto.
  - split; [discriminate|]. intros (d & X). discriminate X.
Qed.
Print Assumptions C108_quiet.

(** A machine: files are stored as they are, and a module is four bytes followed by
    its .modinfo section. *)
Definition some_env : env := {| v_unpack := fun _ d => Some d; v_sections := fun d => Some [(Some (txt ".text"), None); (Some (txt ".modinfo"), Some (skipn 4 d))] |}.
Definition some_module (info : str) : str := [127; 69; 76; 70] ++ info.
Definition ingress : entry :=
  {| e_path := [txt "kernel"; txt "net"; txt "sch_ingress.ko.zst"]; e_file := true; e_data := some_module (txt "license=GPL" ++ [0] ++ txt "alias=net-sch-ingress" ++ [0]) |}.
Definition odd : entry := {| e_path := [txt "kernel"; txt "odd.ko"]; e_file := true; e_data := some_module (txt "alias=" ++ [0]) |}.
Definition extra : entry := {| e_path := [txt "updates"; txt "extra.ko.xz"]; e_file := true; e_data := some_module (txt "alias=fs-extra" ++ [0]) |}.
Definition folder : entry := {| e_path := [txt "kernel"]; e_file := false; e_data := [] |}.

Example C108_some : depmod some_env [folder; ingress; extra] = (txt "alias net-sch-ingress sch_ingress" ++ [10] ++ txt "alias fs-extra extra" ++ [10], None) /\
  try_main some_env (fun _ => 0) (Some (fst (depmod some_env [folder; ingress; extra]))) [folder; ingress; extra] (txt "net-sch-ingress") = Ok (e_data ingress).
Proof. vm_compute. auto. Qed.
Lemma ingress_listed : listed some_env [ingress] [(txt "net-sch-ingress", txt "sch_ingress")].
Proof.
  destruct (proj1 (C108_depmod some_env [ingress] (txt "alias net-sch-ingress sch_ingress" ++ [10]))) as (l & L & _); [vm_compute; reflexivity|].
  replace [(txt "net-sch-ingress", txt "sch_ingress")] with l; [exact L|].
  inversion L as [|e t l' F H|e t l' F No N H|e m c al t l' (F & dirs & P) No (contents & secs & d & C & S & M & U & A) H]; subst.
  - discriminate F.
  - destruct (N (txt "sch_ingress") CZstd). split; [reflexivity|]. exists [txt "kernel"; txt "net"]. reflexivity.
  - inversion H; subst. change (e_path ingress) with ([txt "kernel"; txt "net"] ++ [file_name_of (txt "sch_ingress") CZstd]) in P.
    apply app_inj_tail in P as [_ P].
    assert (Some (txt "sch_ingress", CZstd) = Some (m, c)) as Q.
    { rewrite <- (proj2 (module_of_iff (file_name_of (txt "sch_ingress") CZstd) m c) P). reflexivity. }
    apply some_inj in Q. apply pair_equal_spec in Q as [<- <-].
    unfold contents_of in C. apply some_inj in C. subst contents. apply some_inj in S. subst secs.
    apply find_modinfo_iff in M. apply ok_inj in M. apply some_inj in M. subst d. apply aliases_iff in A. subst al. vm_compute. reflexivity.
Qed.
Example C108_some_plain : Forall plain [(txt "net-sch-ingress", txt "sch_ingress")] /\ below_kernel ingress (txt "sch_ingress") /\ module_file ingress (txt "sch_ingress") CZstd /\
  is_elf (e_data ingress) /\ first_with (txt "net-sch-ingress") [(txt "net-sch-ingress", txt "sch_ingress")] (txt "sch_ingress").
Proof.
  split; [constructor; [|constructor]; split; [split; [discriminate|cbn; lia]|split; [discriminate|split; [cbn; lia|split; [cbn; lia|]]]]|].
  - intros p E. apply (f_equal (@rev Z)) in E. rewrite rev_app_distr in E. vm_compute in E. discriminate E.
  - split; [exists [txt "net"], (txt ".zst"); reflexivity|]. split; [split; [reflexivity|exists [txt "kernel"; txt "net"]; reflexivity]|].
    split; [exists (txt "license=GPL" ++ [0] ++ txt "alias=net-sch-ingress" ++ [0]); reflexivity|constructor].
Qed.

(** Refuted: the name of a module, which the documentation allows, is not found
    unless it is an alias as well. *)
Theorem C108_name_refuted : exists V tree m e, tree = [e] /\ module_file e m CZstd /\ below_kernel e m /\ snd (depmod V tree) = None /\
  try_main V (fun _ => 0) (Some (fst (depmod V tree))) tree m = Err EAliasNotFound.
Proof.
  exists some_env, [ingress], (txt "sch_ingress"), ingress. split; [reflexivity|]. split; [split; [reflexivity|exists [txt "kernel"; txt "net"]; reflexivity]|].
  split; [exists [txt "net"], (txt ".zst"); reflexivity|]. vm_compute. auto.
Qed.
Print Assumptions C108_name_refuted.
(** Refuted: one module with an empty alias hides all modules after it. *)
Theorem C108_empty_refuted : exists V e other a d, snd (depmod V [other; e]) = None /\
  try_main V (fun _ => 0) (Some (fst (depmod V [e]))) [other; e] a = Ok d /\
  try_main V (fun _ => 0) (Some (fst (depmod V [other; e]))) [other; e] a = Err EEmptyField.
Proof. exists some_env, ingress, odd, (txt "net-sch-ingress"), (e_data ingress). vm_compute. auto. Qed.
Print Assumptions C108_empty_refuted.
(** Refuted: aliases of modules outside "kernel" are listed, but the modules are
    not found. *)
Theorem C108_outside_refuted : exists V e a m, module_file e m CXz /\ snd (depmod V [e]) = None /\
  resolve_alias (Some (fst (depmod V [e]))) a = Ok m /\ try_main V (fun _ => 0) (Some (fst (depmod V [e]))) [e] a = Err EModuleNotFound.
Proof.
  exists some_env, extra, (txt "fs-extra"), (txt "extra"). split; [split; [reflexivity|exists [txt "updates"]; reflexivity]|]. vm_compute. auto.
Qed.
Print Assumptions C108_outside_refuted.
(** Refuted: modules in the directory named after the release of the kernel are
    never looked for, though documented; the directory is always /lib/modules. *)
Theorem C108_release_refuted : (forall stat r d, sane_stat stat -> resolve_modules_dir stat r = Ok d -> d = [txt "lib"; txt "modules"]) /\
  exists stat r, sane_stat stat /\ stat ([txt "lib"; txt "modules"] ++ [r]) = Some true /\ resolve_modules_dir stat (Some r) = Ok [txt "lib"; txt "modules"].
Proof.
  split; [intros stat r d S H; exact (proj1 (dir_is_first stat r d S H))|].
  exists (fun _ => Some true), (txt "6.1.0"). split; [intros d x _; reflexivity|]. split; reflexivity.
Qed.
Print Assumptions C108_release_refuted.
