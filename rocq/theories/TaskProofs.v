(** Proofs about the other commands of xtask, C117. *)
From Coq Require Import String.
From Verif Require Import Base Text BuildModel TaskModel TaskSpec.
Local Open Scope Z_scope.

(** * Architectures *)

Lemma called_iff : forall a n r c, called a n r c ->
  n = show_arch a /\ c = target a.
Proof.
  intros a n r c H. unfold called in H. cbn [In table] in H.
  repeat (destruct H as [H|H]; [injection H as <- <- <- <-; split; reflexivity|]). contradiction.
Qed.
Lemma called_some : forall a, exists r, called a (show_arch a) r (target a).
Proof. intros []; eexists; unfold called, table; cbn [In show_arch target]; tauto. Qed.
Lemma show_inj : forall a b, show_arch a = show_arch b -> a = b.
Proof. intros [] [] H; try reflexivity; discriminate H. Qed.
Lemma root_iff : forall a o s, root_of (show_arch a) o s <-> s = sysroot a o.
Proof.
  intros a o s. unfold root_of. split.
  - intros H. destruct a; cbn [In] in H;
      repeat (destruct H as [H|H]; [first [discriminate H | injection H as <-; reflexivity]|]); contradiction.
  - intros ->. destruct a; cbn [In show_arch sysroot]; tauto.
Qed.
Lemma supported_all : forall a, In a supported.
Proof. intros []; cbn; tauto. Qed.
Lemma supported_once : NoDup supported.
Proof. unfold supported. repeat (constructor; [cbn; intuition discriminate|]). constructor. Qed.
Lemma parse_iff : forall s a, parse_arch s = Some a <-> s = show_arch a.
Proof.
  intros s a. split.
  - unfold parse_arch. destruct (find _ parse_table) as [[n b]|] eqn:F; [|discriminate].
    intros E. injection E as ->. apply find_some in F as [I0 E]. cbn in E. destruct (str_dec s n) as [->|]; [|discriminate E].
    unfold parse_table in I0. cbn [In] in I0. repeat (destruct I0 as [I0|I0]; [injection I0 as <- <-; reflexivity|]). contradiction.
  - intros ->. destruct a; vm_compute; reflexivity.
Qed.

Lemma roots_default : forall a n r c, called a n r c ->
  root_of n default_roots (sysroot a default_roots) /\
  In (n, sysroot a default_roots)
    [(txt "aarch64", txt "/usr/aarch64-linux-gnu/include"); (txt "armv7", txt "/usr/arm-linux-gnueabi/include");
     (txt "loongarch64", txt "/usr/loongarch64-linux-gnu/include"); (txt "mips", txt "/usr/mips-linux-gnu/include");
     (txt "mips64", txt "/usr/mips64-linux-gnuabi64/include"); (txt "powerpc64", txt "/usr/powerpc64le-linux-gnu/include");
     (txt "riscv64", txt "/usr/riscv64-linux-gnu/include"); (txt "s390x", txt "/usr/s390x-linux-gnu/include");
     (txt "x86_64", txt "/usr/include/x86_64-linux-gnu")].
Proof.
  intros a n r c H. destruct (called_iff a n r c H) as [-> _]. split; [now apply root_iff|].
  destruct a; cbn [In]; tauto.
Qed.

(** * Running steps *)

Lemma run_ops_in : forall W xs w, In w (fst (run_ops W xs)) -> exists x, In x xs /\ In w (fst (run_op W x)).
Proof.
  intros W xs w. induction xs as [|x xs IH]; cbn; [contradiction|].
  destruct (run_op W x) as [ws ok] eqn:R. destruct ok.
  - destruct (run_ops W xs) as [ws' ok]. cbn in *. intros H. apply in_app_or in H as [H|H].
    + exists x. split; [now left|]. now rewrite R.
    + destruct (IH H) as (y & J & K). exists y. split; [now right|exact K].
  - cbn. intros H. exists x. split; [now left|]. now rewrite R.
Qed.
Lemma run_ops_ok : forall W xs, snd (run_ops W xs) = true <-> Forall (fun x => snd (run_op W x) = true) xs.
Proof.
  intros W xs. induction xs as [|x xs IH]; cbn; [split; [constructor|reflexivity]|].
  destruct (run_op W x) as [ws ok] eqn:R. destruct ok.
  - destruct (run_ops W xs) as [ws' ok]. cbn in *. rewrite IH. split; intros H.
    + constructor; [now rewrite R|exact H].
    + now inversion_clear H.
  - cbn. split; [discriminate|]. intros H. inversion_clear H as [|? ? H1 _]. now rewrite R in H1.
Qed.
Lemma run_ops_all : forall W xs x w, snd (run_ops W xs) = true -> In x xs -> In w (fst (run_op W x)) ->
  In w (fst (run_ops W xs)).
Proof.
  intros W xs x w. induction xs as [|y xs IH]; cbn; [contradiction|].
  destruct (run_op W y) as [ws ok] eqn:R. destruct ok; [|discriminate].
  destruct (run_ops W xs) as [ws' ok]. cbn in *. intros E [->|J] H; apply in_or_app.
  - left. now rewrite R in H.
  - right. now apply IH.
Qed.

(** * Generating *)

Lemma aya_in : forall W o f t, In (f, t) (fst (run_ops W (aya_ops o))) -> aya_made W o f t.
Proof.
  intros W o f t H. apply run_ops_in in H as (x & J & H). unfold aya_ops in J. apply in_app_or in J as [J|J].
  - destruct J as [<-|[]]. cbn [run_op] in H. destruct (w_bindgen W Internal) as [b|] eqn:B; [|contradiction].
    cbn [write_outs] in H. destruct (w_write W _); [|contradiction]. destruct H as [H|[]]. injection H as <- <-.
    now apply made_internal.
  - destruct J as [<-|J]; [contradiction|]. apply in_map_iff in J as (a & <- & _).
    cbn [run_op] in H. destruct (w_bindgen W (User (target a) (sysroot a o))) as [b|] eqn:B; [|contradiction].
    cbn [write_outs] in H. destruct (w_write W _); [|contradiction]. destruct H as [H|[]]. injection H as <- <-.
    destruct (called_some a) as [r C]. apply (made_user W o a (show_arch a) r (target a) (sysroot a o)); [exact C|now apply root_iff|exact B].
Qed.
Lemma bpf_path : forall a f, bpf_dir a ++ txt "/" ++ f = bpf_file (show_arch a) f.
Proof. intros a f. unfold bpf_dir, bpf_file. now rewrite <- app_assoc. Qed.
Lemma bpf_in : forall W o f t, In (f, t) (fst (run_ops W (bpf_ops o))) -> bpf_made W o f t.
Proof.
  intros W o f t H. apply run_ops_in in H as (x & [<-|J] & H); [contradiction|].
  apply in_map_iff in J as (a & <- & _). cbn [run_op] in H.
  destruct (w_bindgen W (Bpf (target a) (sysroot a o))) as [b|] eqn:B; [|contradiction].
  destruct (w_dir W (bpf_dir a)); [|contradiction].
  destruct (called_some a) as [r C]. assert (Q : root_of (show_arch a) o (sysroot a o)) by now apply root_iff.
  cbn [write_outs] in H. destruct (w_write W (bpf_dir a ++ txt "/bindings.rs")); [|contradiction].
  destruct (w_write W (bpf_dir a ++ txt "/helpers.rs")).
  - destruct H as [H|[H|[]]]; apply pair_equal_spec in H as [<- <-].
    + change (bpf_dir a ++ txt "/bindings.rs") with (bpf_dir a ++ txt "/" ++ txt "bindings.rs"). rewrite bpf_path.
      exact (made_bindings W o a _ _ _ _ b C Q B).
    + change (bpf_dir a ++ txt "/helpers.rs") with (bpf_dir a ++ txt "/" ++ txt "helpers.rs"). rewrite bpf_path.
      exact (made_helpers W o a _ _ _ _ b C Q B).
  - destruct H as [H|[]]; apply pair_equal_spec in H as [<- <-].
    change (bpf_dir a ++ txt "/bindings.rs") with (bpf_dir a ++ txt "/" ++ txt "bindings.rs"). rewrite bpf_path.
    exact (made_bindings W o a _ _ _ _ b C Q B).
Qed.

Lemma aya_ok : forall W o, snd (run_ops W (aya_ops o)) = true <-> aya_works W o.
Proof.
  intros W o. rewrite run_ops_ok. unfold aya_ops, aya_works. rewrite Forall_app. split.
  - intros [I0 U]. pose proof (Forall_inv I0) as I1. pose proof (Forall_inv U) as D. pose proof (Forall_inv_tail U) as U'. cbn [run_op snd] in D.
    split; [exact D|]. cbn [run_op] in I1. destruct (w_bindgen W Internal) eqn:B; [|discriminate I1].
    split; [discriminate|]. cbn [write_outs] in I1. split; [destruct (w_write W _) eqn:E in I1; [exact E|discriminate I1]|].
    intros a n r c s C Q. destruct (called_iff _ _ _ _ C) as [-> ->]. apply root_iff in Q. subst s.
    rewrite Forall_forall in U'. specialize (U' _ (in_map _ _ _ (supported_all a))). cbn [run_op] in U'.
    destruct (w_bindgen W (User (target a) (sysroot a o))); [|discriminate U']. split; [discriminate|].
    cbn [write_outs] in U'. destruct (w_write W _) eqn:E in U'; [exact E|discriminate U'].
  - intros (D & B & E & U). split.
    + constructor; [|constructor]. cbn [run_op]. destruct (w_bindgen W Internal); [|contradiction].
      cbn [write_outs]. change (generated ++ txt "/btf_internal_bindings.rs") with (txt "aya-obj/src/generated/btf_internal_bindings.rs").
      rewrite E. reflexivity.
    + constructor; [exact D|]. apply Forall_forall. intros x J. apply in_map_iff in J as (a & <- & _).
      destruct (called_some a) as [r C]. destruct (U a _ _ _ (sysroot a o) C) as [U1 U2]; [now apply root_iff|].
      cbn [run_op]. destruct (w_bindgen W (User (target a) (sysroot a o))); [|contradiction].
      cbn [write_outs]. change (generated ++ txt "/linux_bindings_" ++ show_arch a ++ txt ".rs") with (user_file (show_arch a)).
      rewrite U2. reflexivity.
Qed.
Lemma bpf_ok : forall W o, snd (run_ops W (bpf_ops o)) = true <-> bpf_works W o.
Proof.
  intros W o. rewrite run_ops_ok. unfold bpf_ops, bpf_works. split.
  - intros U. pose proof (Forall_inv U) as D. pose proof (Forall_inv_tail U) as U'. split; [exact D|].
    intros a n r c s C Q. destruct (called_iff _ _ _ _ C) as [-> ->]. apply root_iff in Q. subst s.
    rewrite Forall_forall in U'. specialize (U' _ (in_map _ _ _ (supported_all a))). cbn [run_op] in U'.
    destruct (w_bindgen W (Bpf (target a) (sysroot a o))); [|discriminate U']. split; [discriminate|].
    destruct (w_dir W (bpf_dir a)) eqn:E; [|discriminate U']. split; [exact E|].
    cbn [write_outs] in U'.
    change (bpf_dir a ++ txt "/bindings.rs") with (bpf_dir a ++ txt "/" ++ txt "bindings.rs") in U'.
    change (bpf_dir a ++ txt "/helpers.rs") with (bpf_dir a ++ txt "/" ++ txt "helpers.rs") in U'.
    rewrite !bpf_path in U'.
    destruct (w_write W (bpf_file (show_arch a) (txt "bindings.rs"))); [|discriminate U'].
    destruct (w_write W (bpf_file (show_arch a) (txt "helpers.rs"))); [|discriminate U']. split; reflexivity.
  - intros (D & U). constructor; [exact D|]. apply Forall_forall. intros x J. apply in_map_iff in J as (a & <- & _).
    destruct (called_some a) as [r C]. destruct (U a _ _ _ (sysroot a o) C) as (U1 & U2 & U3 & U4); [now apply root_iff|].
    cbn [run_op]. destruct (w_bindgen W (Bpf (target a) (sysroot a o))); [|contradiction].
    change (w_dir W (bpf_dir a) = true) in U2. rewrite U2. cbn [write_outs].
    change (bpf_dir a ++ txt "/bindings.rs") with (bpf_dir a ++ txt "/" ++ txt "bindings.rs").
    change (bpf_dir a ++ txt "/helpers.rs") with (bpf_dir a ++ txt "/" ++ txt "helpers.rs").
    rewrite !bpf_path, U3, U4. reflexivity.
Qed.

Lemma aya_all : forall W o f t, snd (run_ops W (aya_ops o)) = true -> aya_made W o f t -> In (f, t) (fst (run_ops W (aya_ops o))).
Proof.
  intros W o f t K H. pose proof (proj1 (aya_ok W o) K) as (D & B & E & U). destruct H as [t G|a n r c s t C Q G].
  - apply (run_ops_all W _ (Gen Internal None [(generated ++ txt "/btf_internal_bindings.rs", Whole)])); [exact K|now left|].
    cbn [run_op]. rewrite G. cbn [write_outs].
    change (generated ++ txt "/btf_internal_bindings.rs") with (txt "aya-obj/src/generated/btf_internal_bindings.rs").
    rewrite E. now left.
  - destruct (U a n r c s C Q) as [_ U2]. destruct (called_iff _ _ _ _ C) as [-> ->]. apply root_iff in Q. subst s.
    eapply run_ops_all; [exact K|right; right; apply (in_map _ _ a), supported_all|].
    cbn [run_op]. rewrite G. cbn [write_outs].
    change (generated ++ txt "/linux_bindings_" ++ show_arch a ++ txt ".rs") with (user_file (show_arch a)).
    rewrite U2. now left.
Qed.
Lemma bpf_all : forall W o f t, snd (run_ops W (bpf_ops o)) = true -> bpf_made W o f t -> In (f, t) (fst (run_ops W (bpf_ops o))).
Proof.
  intros W o f t K H. pose proof (proj1 (bpf_ok W o) K) as (D & U).
  destruct H as [a n r c s t C Q G|a n r c s t C Q G];
    destruct (U a n r c s C Q) as (_ & U2 & U3 & U4); destruct (called_iff _ _ _ _ C) as [-> ->]; apply root_iff in Q; subst s;
    (eapply run_ops_all; [exact K|right; apply (in_map _ _ a), supported_all|]);
    cbn [run_op]; rewrite G; change (w_dir W (bpf_dir a) = true) in U2; rewrite U2; cbn [write_outs];
    change (bpf_dir a ++ txt "/bindings.rs") with (bpf_dir a ++ txt "/" ++ txt "bindings.rs");
    change (bpf_dir a ++ txt "/helpers.rs") with (bpf_dir a ++ txt "/" ++ txt "helpers.rs");
    rewrite !bpf_path, U3, U4; [now left|right; now left].
Qed.

Lemma codegen_ok : forall W o c, snd (codegen W o c) = true <-> works W o c.
Proof.
  intros W o c. unfold works. rewrite <- aya_ok, <- bpf_ok. destruct c as [[]|]; cbn [codegen].
  - split; [intros H; split; [auto|now intros []]|intros [H _]; apply H; discriminate].
  - split; [intros H; split; [now intros []|auto]|intros [_ H]; apply H; discriminate].
  - destruct (run_ops W (aya_ops o)) as [ws [|]].
    + destruct (run_ops W (bpf_ops o)) as [ws' ok]. cbn. split; [intros H; split; auto|intros [_ H]; apply H; discriminate].
    + cbn. split; [discriminate|]. intros [H _]. apply H. discriminate.
Qed.
Lemma codegen_sound : forall W o c f t, In (f, t) (fst (codegen W o c)) -> made W o c f t.
Proof.
  intros W o c f t. unfold made. destruct c as [[]|]; cbn [codegen].
  - intros H. left. split; [discriminate|now apply aya_in].
  - intros H. right. split; [discriminate|now apply bpf_in].
  - pose proof (aya_in W o f t) as A. pose proof (bpf_in W o f t) as B.
    destruct (run_ops W (aya_ops o)) as [ws [|]].
    + destruct (run_ops W (bpf_ops o)) as [ws' ok]. cbn in *. intros H. apply in_app_or in H as [H|H].
      * left. split; [discriminate|auto].
      * right. split; [discriminate|auto].
    + cbn in *. intros H. left. split; [discriminate|auto].
Qed.
Lemma codegen_all : forall W o c f t, snd (codegen W o c) = true -> made W o c f t -> In (f, t) (fst (codegen W o c)).
Proof.
  intros W o c f t. unfold made. destruct c as [[]|]; cbn [codegen].
  - intros K [[_ H]|[H _]]; [now apply aya_all|now destruct H].
  - intros K [[H _]|[_ H]]; [now destruct H|now apply bpf_all].
  - pose proof (aya_all W o f t) as A. pose proof (bpf_all W o f t) as B.
    destruct (run_ops W (aya_ops o)) as [ws [|]]; [|discriminate].
    destruct (run_ops W (bpf_ops o)) as [ws' ok]. cbn in *. intros K [[_ H]|[_ H]]; apply in_or_app; [left|right]; auto.
Qed.

(** * Uses of the files *)

Lemma user_used : forall a n r c, called a n r c ->
  exists m, user_module r = Some m /\ txt "aya-obj/src/generated/" ++ m ++ txt ".rs" = user_file n.
Proof.
  intros a n r c H. unfold called in H. cbn [In table] in H.
  repeat (destruct H as [H|H]; [injection H as <- <- <- <-; eexists; split; [vm_compute; reflexivity|reflexivity]|]). contradiction.
Qed.
Lemma bpf_used : forall a n r c, called a n r c -> bindings_dir r = Some n.
Proof.
  intros a n r c H. unfold called in H. cbn [In table] in H.
  repeat (destruct H as [H|H]; [injection H as <- <- <- <-; vm_compute; reflexivity|]). contradiction.
Qed.
Lemma user_only : forall r m, user_module r = Some m -> exists a n c, called a n r c.
Proof.
  intros r m. unfold user_module. destruct (str_dec r (txt "arm")) as [->|_].
  - intros _. exists ARMv7. do 2 eexists. unfold called, table. cbn [In]. right. left. reflexivity.
  - destruct (existsb _ _) eqn:E; [|discriminate]. intros _. apply existsb_exists in E as (x & J & E).
    destruct (str_dec r x) as [<-|]; [|discriminate E]. unfold called, table. cbn [In] in J |- *.
    repeat (destruct J as [<-|J]; [do 3 eexists; repeat (first [left; reflexivity | right])|]). contradiction.
Qed.

(** * Linting *)

Lemma exec_succeeds : forall run c, exec run c = true <-> succeeds run c.
Proof.
  intros run c. unfold exec, succeeds. destruct (run c) as [z|]; [|split; discriminate].
  rewrite Z.eqb_eq. split; [now intros ->|now intros [= ->]].
Qed.
Lemma exec_all_ok : forall run cs, snd (exec_all run cs) = true <-> Forall (succeeds run) cs.
Proof.
  intros run cs. induction cs as [|c cs IH]; cbn; [split; [constructor|reflexivity]|].
  pose proof (exec_succeeds run c) as X. destruct (exec run c).
  - destruct (exec_all run cs) as [ds ok]. cbn in *. rewrite IH. split; intros H; [constructor; [now apply X|exact H]|now inversion H].
  - cbn. split; [discriminate|]. intros H. inversion_clear H as [|? ? H1 _]. now apply X.
Qed.
(** The commands started are those up to the first that fails. *)
Lemma exec_all_started : forall run cs, exists rest, cs = fst (exec_all run cs) ++ rest /\
  (snd (exec_all run cs) = false -> exists ds c, fst (exec_all run cs) = ds ++ [c] /\ Forall (succeeds run) ds /\ ~ succeeds run c).
Proof.
  intros run cs. induction cs as [|c cs (rest & E & F)]; cbn; [exists []; split; [reflexivity|discriminate]|].
  pose proof (exec_succeeds run c) as X. destruct (exec run c).
  - destruct (exec_all run cs) as [ds ok]. cbn in *. exists rest. split; [now rewrite E at 1|].
    intros K. destruct (F K) as (es & d & -> & G & H). exists (c :: es), d. split; [reflexivity|]. split; [|exact H].
    constructor; [now apply X|exact G].
  - exists cs. split; [reflexivity|]. intros _. exists [], c. split; [reflexivity|]. split; [constructor|]. intros H. apply X in H. discriminate H.
Qed.

Lemma lint_archs_all : forall a n r c, called a n r c -> In r lint_archs.
Proof.
  intros a n r c H. unfold called in H. cbn [In table] in H.
  repeat (destruct H as [H|H]; [injection H as <- <- <- <-; unfold lint_archs; cbn [In]; tauto|]). contradiction.
Qed.
Lemma in_plan : forall args r x, In r lint_archs -> In x (map (bpf_lint r) lint_targets ++ [bpf_doc args r]) -> In x (lint_plan args).
Proof. intros args r x H J. right. right. apply in_flat_map. exists r. split; assumption. Qed.

Lemma no_dashes : forall l : list str, forallb (fun x => if str_dec x (txt "--") then false else true) l = true -> ~ In (txt "--") l.
Proof. intros l H J. rewrite forallb_forall in H. specialize (H _ J). now destruct (str_dec (txt "--") (txt "--")). Qed.
Lemma lint_covers : forall args a n r c p t, called a n r c -> In p bpf_members -> p <> txt "aya-ebpf-cty" ->
  In t [txt "bpfeb-unknown-none"; txt "bpfel-unknown-none"] ->
  exists x, In x (lint_plan args) /\ lints x p r t.
Proof.
  intros args a n r c p t C P N T. exists (bpf_lint r t). split.
  - apply (in_plan args r); [eapply lint_archs_all; exact C|]. apply in_or_app. left. now apply in_map.
  - unfold lints. cbn [bpf_lint c_args c_env]. split; [exists [txt "+nightly"; txt "hack"]; eexists; reflexivity|].
    split; [exists [txt "+nightly"; txt "hack"; txt "clippy"]; eexists; reflexivity|].
    split; [|right; left; reflexivity].
    assert (T' : t <> txt "--") by (destruct T as [<-|[<-|[]]]; discriminate).
    assert (X : forall pre post, package_args = pre ++ [txt "--package"; p] ++ post ->
      forallb (fun x => if str_dec x (txt "--") then false else true) pre = true ->
      forallb (fun x => if str_dec x (txt "--") then false else true) post = true ->
      exists x y z, ([txt "+nightly"; txt "hack"; txt "clippy"; txt "--target"; t; txt "-Zbuild-std=core"; txt "--feature-powerset"] ++
         package_args ++ [txt "--"; txt "--deny"; txt "warnings"]) = x ++ [txt "--package"; p] ++ y ++ [txt "--"] ++ z /\
         has_sub [txt "--deny"; txt "warnings"] z /\ ~ In (txt "--") x /\ ~ In (txt "--") y).
    { intros pre post E F1 F2. exists ([txt "+nightly"; txt "hack"; txt "clippy"; txt "--target"; t; txt "-Zbuild-std=core"; txt "--feature-powerset"] ++ pre), post, [txt "--deny"; txt "warnings"].
      split; [rewrite E, <- !app_assoc; reflexivity|]. split; [exists [], []; reflexivity|]. split; [|now apply no_dashes].
      intros J. apply in_app_or in J as [J|J]; [|now apply (no_dashes pre F1)].
      cbn [In] in J. repeat (destruct J as [J|J]; [first [discriminate J | now apply T'] |]). contradiction. }
    unfold bpf_members in P. cbn [map In] in P. destruct P as [<-|[<-|[<-|[<-|[<-|[]]]]]]; try (now destruct N);
      first [ apply (X [] (flat_map (fun p => [txt "--package"; p]) (skipn 1 ebpf_packages))); vm_compute; reflexivity
            | apply (X (flat_map (fun p => [txt "--package"; p]) (firstn 1 ebpf_packages)) (flat_map (fun p => [txt "--package"; p]) (skipn 2 ebpf_packages))); vm_compute; reflexivity
            | apply (X (flat_map (fun p => [txt "--package"; p]) (firstn 2 ebpf_packages)) (flat_map (fun p => [txt "--package"; p]) (skipn 3 ebpf_packages))); vm_compute; reflexivity
            | apply (X (flat_map (fun p => [txt "--package"; p]) (firstn 3 ebpf_packages)) []); vm_compute; reflexivity ].
Qed.
Lemma doc_covers : forall args a n r c p, called a n r c -> In p bpf_members -> p <> txt "aya-ebpf-cty" ->
  exists x, In x (lint_plan args) /\ doc_tests x p r.
Proof.
  intros args a n r c p C P N. exists (bpf_doc args r). split.
  - apply (in_plan args r); [eapply lint_archs_all; exact C|]. apply in_or_app. right. now left.
  - unfold doc_tests. cbn [bpf_doc c_args c_env]. split; [exists [txt "+nightly"; txt "hack"]; eexists; reflexivity|].
    split; [|right; left; reflexivity].
    assert (X : has_sub [txt "--package"; p] package_args).
    { unfold bpf_members in P. cbn [map In] in P. destruct P as [<-|[<-|[<-|[<-|[<-|[]]]]]]; try (now destruct N); unfold has_sub.
      - exists []. eexists. reflexivity.
      - exists (firstn 2 package_args). eexists. reflexivity.
      - exists (firstn 4 package_args). eexists. reflexivity.
      - exists (firstn 6 package_args), []. reflexivity. }
    destruct X as (x & y & E). rewrite E.
    exists ([txt "+nightly"; txt "hack"; txt "test"; txt "--doc"; txt "--feature-powerset"] ++ args ++ x), y. now rewrite <- !app_assoc.
Qed.
(** aya-ebpf-cty is linted for no BPF target. *)
Lemma cty_missed : forall x a t, In x (lint_plan []) -> ~ lints x (txt "aya-ebpf-cty") a t.
Proof.
  intros x a t J (_ & _ & (u & v & w & E & _) & _).
  assert (K : In (txt "aya-ebpf-cty") (c_args x)) by (rewrite E; apply in_or_app; right; right; now left).
  assert (F : forallb (fun c => if in_dec str_dec (txt "aya-ebpf-cty") (c_args c) then false else true) (lint_plan []) = true)
    by (vm_compute; reflexivity).
  rewrite forallb_forall in F. specialize (F x J). now destruct (in_dec str_dec (txt "aya-ebpf-cty") (c_args x)).
Qed.

(** * Documentation and the start *)

Lemma crate_replace : forall s, crate_name s (replace_dash s).
Proof.
  induction s as [|c s IH]; cbn; [constructor|]. destruct (c =? 45) eqn:E.
  - apply Z.eqb_eq in E. subst c. now constructor.
  - constructor; [now apply Z.eqb_neq|exact IH].
Qed.

Lemma docs_linked : forall p d, In (p, d) doc_packages ->
  has_sub [txt "--package"; p] doc_args /\
  exists c, crate_name p c /\
    In (txt "<li><a href=" ++ [34] ++ c ++ txt "/index.html" ++ [34] ++ txt ">Aya " ++ d ++ txt "</a></li>" ++ [10]) doc_links.
Proof.
  intros p d H. split.
  - unfold doc_packages in H. cbn [In] in H. unfold has_sub.
    destruct H as [H|[H|[H|[H|[]]]]]; injection H as <- <-.
    + exists (firstn 4 doc_args). eexists. reflexivity.
    + exists (firstn 6 doc_args). eexists. reflexivity.
    + exists (firstn 8 doc_args). eexists. reflexivity.
    + exists (firstn 10 doc_args), []. reflexivity.
  - exists (replace_dash p). split; [apply crate_replace|]. apply (in_map doc_link _ (p, d) H).
Qed.
Lemma docs_only : forall l, In l doc_links -> exists p d c, In (p, d) doc_packages /\ crate_name p c /\
  l = txt "<li><a href=" ++ [34] ++ c ++ txt "/index.html" ++ [34] ++ txt ">Aya " ++ d ++ txt "</a></li>" ++ [10].
Proof.
  intros l H. apply in_map_iff in H as ([p d] & <- & H). exists p, d, (replace_dash p).
  split; [exact H|]. split; [apply crate_replace|reflexivity].
Qed.

Lemma prepare_reached : forall status update, snd (prepare status update) = true <->
  exists out, status = Some (0, out) /\ (current out \/ update = Some 0).
Proof.
  intros status update. unfold prepare, current.
  assert (U : match update with Some z => z =? 0 | None => false end = true <-> update = Some 0).
  { destruct update as [z|]; [|split; discriminate]. rewrite Z.eqb_eq. split; [now intros ->|now intros [= ->]]. }
  destruct status as [[code out]|]; [|split; [discriminate|intros (o & H & _); discriminate H]].
  destruct (code =? 0) eqn:E.
  - apply Z.eqb_eq in E. subst code. destruct out as [|c out].
    + cbn. rewrite U. split; [intros ->; exists []; auto|]. intros (o & H & [[r R]|H']); [|exact H']. subst o. discriminate H.
    + destruct (c =? 32) eqn:F; cbn.
      * apply Z.eqb_eq in F. subst c. split; [|reflexivity]. intros _. exists (32 :: out). split; [reflexivity|]. left. now exists out.
      * rewrite U. split; [intros ->; exists (c :: out); auto|]. intros (o & H & [[r R]|H']); [|exact H'].
        subst o. injection H as -> _. discriminate F.
  - cbn. split; [discriminate|]. intros (o & H & _). injection H as -> _. discriminate E.
Qed.
Lemma prepare_updates : forall status update, fst (prepare status update) = true <->
  exists out, status = Some (0, out) /\ ~ current out.
Proof.
  intros status update. unfold prepare, current. destruct status as [[code out]|]; [|split; [discriminate|intros (o & H & _); discriminate H]].
  destruct (code =? 0) eqn:E.
  - apply Z.eqb_eq in E. subst code. destruct out as [|c out].
    + cbn. split; [|reflexivity]. intros _. exists []. split; [reflexivity|]. intros [r R]. discriminate R.
    + destruct (c =? 32) eqn:F; cbn.
      * apply Z.eqb_eq in F. subst c. split; [discriminate|]. intros (o & H & N). injection H as <-. destruct N. now exists out.
      * split; [|reflexivity]. intros _. exists (c :: out). split; [reflexivity|]. intros [r R]. injection R as -> _. discriminate F.
  - cbn. split; [discriminate|]. intros (o & H & _). injection H as -> _. discriminate E.
Qed.

Lemma names_committed : forall n, In n committed_names <-> exists a r c, called a n r c.
Proof.
  intros n. split.
  - intros H. unfold committed_names in H. cbn [map In] in H. unfold called, table. cbn [In].
    repeat (destruct H as [<-|H]; [do 3 eexists; repeat (first [left; reflexivity | right])|]). contradiction.
  - intros (a & r & c & H). unfold called in H. cbn [In table] in H. unfold committed_names. cbn [map In].
    repeat (destruct H as [H|H]; [injection H as <- <- <- <-; tauto|]). contradiction.
Qed.
Lemma table_total : forall a, exists n r c, called a n r c.
Proof. intros a. destruct (called_some a) as [r H]. eauto. Qed.
Lemma documented : forall p, In p site_packages <-> exists d, In (p, d) doc_packages.
Proof.
  intros p. split.
  - intros H. unfold site_packages in H. cbn [map In] in H. unfold doc_packages. cbn [In].
    repeat (destruct H as [<-|H]; [eexists; repeat (first [left; reflexivity | right])|]). contradiction.
  - intros (d & H). unfold doc_packages in H. cbn [In] in H. unfold site_packages. cbn [map In].
    repeat (destruct H as [H|H]; [injection H as <- <-; tauto|]). contradiction.
Qed.
Lemma parse_called : forall s a, parse_arch s = Some a <-> exists r c, called a s r c.
Proof.
  intros s a. rewrite parse_iff. split.
  - intros ->. destruct (called_some a) as [r H]. eauto.
  - intros (r & c & H). now apply called_iff in H.
Qed.
Lemma show_called : forall a, exists r c, called a (show_arch a) r c.
Proof. intros a. destruct (called_some a) as [r H]. eauto. Qed.
Lemma host_covers : forall args, exists x y, In x (lint_plan args) /\ In y (lint_plan args) /\
  lints_host args x /\ tests_host args y.
Proof.
  intros args. exists (host_lint args), (host_doc args). split; [now left|]. split; [right; now left|]. split.
  - exists [txt "+nightly"; txt "hack"], [txt "--all-targets"; txt "--feature-powerset"], [txt "--deny"; txt "warnings"; txt "-C"; txt "panic=abort"; txt "-Zpanic_abort_tests"].
    split; [cbn [host_lint c_args]; reflexivity|]. split; [now left|]. split; [right; now left|].
    exists []. eexists. reflexivity.
  - split; [|split; [now left|right; now left]].
    exists [txt "+nightly"; txt "hack"], []. cbn [host_doc c_args]. rewrite app_nil_r. reflexivity.
Qed.
