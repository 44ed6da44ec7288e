From Coq Require Import String.
From Verif Require Import Base Text TextSplit LogModel BuildModel BuildSpec BuildProofs BuildProofs2 BuildProofs3.
Local Open Scope Z_scope.

Lemma lines_ok M l t s nightly out endian arch x s' : not_skipped M -> set_up M t nightly out endian arch -> build_ebpf M l t s = (x, s') ->
  exists ls, s_lines s' = s_lines s ++ ls /\ Forall (fun x => directive_of x <> DOther) ls /\ In (txt "AYA_BUILD_SKIP") (envs ls) /\
    (exists done rest, l = done ++ rest /\ changed ls = map p_root done /\ (x = Ok tt -> rest = [])) /\
    (x <> Err EJson -> m_rustup M <> None -> exists new, s_runs s' = s_runs s ++ new /\ warnings ls = flat_map (fun y => told (snd (fst y))) new).
Proof.
  intros NS SU H. rewrite (ebpf_all _ _ _ _ _ _ _ _ NS SU) in H. apply build_all_went in H. apply went_lines in H as (ls & A & B & (done & rest & C & D & F) & G).
  destruct (start_runs M s) as [S1 _]. rewrite S1 in G. unfold start in A. destruct (m_rustup M) as [r|]; cbn [s_lines say] in A.
  - eexists. split; [rewrite A, <- app_assoc; reflexivity|]. split; [constructor; [vm_compute; discriminate|exact B]|]. split; [left; reflexivity|].
    split; [exists done, rest; split; [exact C|]; split; [exact D|exact F]|]. intros NJ _. exact (G NJ).
  - eexists. split; [rewrite A, <- !app_assoc; reflexivity|]. split; [constructor; [vm_compute; discriminate|constructor; [vm_compute; discriminate|exact B]]|]. split; [left; reflexivity|].
    split; [exists done, rest; split; [exact C|]; split; [exact D|exact F]|]. intros _ N. now destruct N.
Qed.

(** * One line each *)

Lemma one_line_app a b : one_line a -> one_line b -> one_line (a ++ b).
Proof. intros A B I. apply in_app_or in I as [I|I]; contradiction. Qed.
Lemma one_line_warning l : one_line l -> one_line (warning l).
Proof. intros H. apply one_line_app; [|exact H]. vm_compute. intros I. repeat (destruct I as [I|I]; [discriminate I|]). exact I. Qed.
Lemma one_line_warnings l : Forall one_line l -> Forall one_line (map warning l).
Proof. induction 1; constructor; [now apply one_line_warning|assumption]. Qed.

Lemma relay_one_line l : (forall m, In m l -> forall t, m = MText t -> one_line t) -> Forall one_line (fst (relay l)).
Proof.
  induction l as [|m l IH]; intros H; [constructor|]. cbn [relay]. assert (Forall one_line (fst (relay l))) as K by (apply IH; intros a I; apply H; now right).
  destruct (relay l) as [ls x]. cbn [fst] in K.
  destruct m as [t [e|]|[t|]|y| |]; cbn [fst app]; try exact K; try constructor.
  - apply Forall_app. split; [|exact K]. apply one_line_warnings. destruct (split_at_spec 10 t) as [_ F]. eapply Forall_impl; [|exact F].
    intros a FA I. rewrite Forall_forall in FA. now destruct (FA _ I).
  - apply one_line_warning. intros [].
  - exact K.
  - apply one_line_warning. exact (H _ (or_introl eq_refl) y eq_refl).
  - exact K.
Qed.

Lemma build_one_lines M prefix nightly target arch out p s x s' : lines_of_cargo M -> one_line (p_root p) -> Forall one_line (s_lines s) ->
  build_one M prefix nightly target arch out p s = (x, s') -> Forall one_line (s_lines s').
Proof.
  intros [L1 L2] RO FS. unfold build_one. cbn zeta. cbn [s_files say]. set (c := cargo _ _ _ _ _ _ _).
  assert (Forall one_line (s_lines (say [txt "cargo:rerun-if-changed=" ++ p_root p] s))) as F0.
  { cbn [s_lines say]. apply Forall_app. split; [exact FS|]. constructor; [|constructor]. apply one_line_app; [|exact RO].
    vm_compute. intros I. repeat (destruct I as [I|I]; [discriminate I|]). exact I. }
  pose proof (L1 c (s_files s)) as R1. pose proof (L2 c (s_files s)) as R2. destruct (m_cargo M c (s_files s)) as [r f]. cbn [fst] in R1, R2.
  destruct (negb (r_spawned r)); [intros H; apply pair_equal_spec in H as [_ <-]; exact F0|].
  pose proof (relay_one_line _ R1) as F1. destruct (relay (r_messages r)) as [ls [es|e]]; cbn [fst] in F1.
  - assert (Forall one_line (map warning (r_stderr r))) as F2 by (apply one_line_warnings, Forall_forall; exact R2).
    destruct (negb (r_success r)); [|destruct (copy_all _ _ _)]; intros H; apply pair_equal_spec in H as [_ <-]; cbn [s_lines say]; apply Forall_app; (split; [|exact F2]); apply Forall_app; (split; [exact F0|exact F1]).
  - intros H. apply pair_equal_spec in H as [_ <-]. cbn [s_lines say]. apply Forall_app. split; [exact F0|exact F1].
Qed.

Lemma build_all_lines M prefix nightly target arch out l s x s' : lines_of_cargo M -> Forall (fun p => one_line (p_root p)) l -> Forall one_line (s_lines s) ->
  build_all M prefix nightly target arch out l s = (x, s') -> Forall one_line (s_lines s').
Proof.
  intros LC RO. revert s. induction RO as [|p l R _ IH]; intros s FS H; cbn [build_all] in H.
  - apply pair_equal_spec in H as [_ <-]. exact FS.
  - destruct (build_one M prefix nightly target arch out p s) as [y s1] eqn:E. pose proof (build_one_lines _ _ _ _ _ _ _ _ _ _ LC R FS E) as F1.
    destruct y as [u|e]; [exact (IH _ F1 H)|]. apply pair_equal_spec in H as [_ <-]. exact F1.
Qed.

Lemma ebpf_lines M l t s nightly out endian arch x s' : not_skipped M -> set_up M t nightly out endian arch -> lines_of_cargo M -> Forall (fun p => one_line (p_root p)) l ->
  Forall one_line (s_lines s) -> build_ebpf M l t s = (x, s') -> Forall one_line (s_lines s').
Proof.
  intros NS SU LC RO FS H. rewrite (ebpf_all _ _ _ _ _ _ _ _ NS SU) in H. apply (build_all_lines _ _ _ _ _ _ _ _ _ _ LC RO) in H; [exact H|].
  assert (forall y, In y [txt "cargo:rerun-if-env-changed=AYA_BUILD_SKIP"; warning (txt "rustup not found")] -> one_line y) as K.
  { intros y [<- |[<- |[]]]; vm_compute; intros I; repeat (destruct I as [I|I]; [discriminate I|]); exact I. }
  unfold start. destruct (m_rustup M); cbn [s_lines say]; repeat (apply Forall_app; split); try exact FS; constructor; try constructor; apply K; [now left|now left|right; now left].
Qed.

Lemma outcome_ok M l t s nightly out endian arch x s' : not_skipped M -> set_up M t nightly out endian arch -> build_ebpf M l t s = (x, s') ->
  exists new, s_runs s' = s_runs s ++ new /\ outcome out x new (s_files s').
Proof.
  intros NS SU H. rewrite (ebpf_all _ _ _ _ _ _ _ _ NS SU) in H. apply build_all_went in H. apply went_failed in H as (new & A & B). exists new.
  destruct (start_runs M s) as [S1 _]. rewrite S1 in A. split; assumption.
Qed.

(** * A machine *)

Definition demo (bin : list Z) : machine :=
  {| m_env := fun n => match find (fun x => str_eqb n (fst x))
       [(txt "OUT_DIR", txt "/out"); (txt "CARGO_CFG_TARGET_ENDIAN", txt "little"); (txt "CARGO_CFG_TARGET_ARCH", txt "riscv64gc")] with Some x => Some (snd x) | None => None end;
     m_rustup := None; m_nightly := fun _ => Some true;
     m_cargo := fun c f =>
       match read_command (c_args c) with
       | Some {| q_dir := Some dir; q_package := Some p |} =>
           ({| r_spawned := true; r_messages := [MCompiler (Some (txt "warning: unused")); MArtifact (txt "lib") None; MArtifact bin (Some (dir ++ 47 :: txt "prog")); MOther]; r_stderr := [txt "Finished"]; r_success := true |},
            put (dir ++ 47 :: txt "prog") (NFile p) (put (txt "/out" ++ txt "/aya-build") NDir f))
       | _ => ({| r_spawned := true; r_messages := []; r_stderr := []; r_success := true |}, put (txt "/out" ++ txt "/aya-build") NDir f)
       end |}.

Lemma demo_not_skipped bin : not_skipped (demo bin).
Proof. intros v H. vm_compute in H. discriminate H. Qed.
Lemma demo_set_up bin t : set_up (demo bin) t true (txt "/out") (txt "little") (txt "riscv64gc").
Proof. constructor; try reflexivity. now right. Qed.
Lemma demo_tidy bin : tidy (demo bin) (txt "/out").
Proof.
  intros c q dir f [t A] D B. unfold asks in A. cbn [m_rustup demo] in A. destruct A as [_ A]. destruct B as [b ->].
  cbn [m_cargo demo]. rewrite A. destruct q as [qp q2 q3 q4 q5 q6 q7 q8 qd]. cbn [q_dir] in D. subst qd.
  destruct qp as [p|]; cbn [fst snd r_spawned reported r_messages flat_map app].
  - split; [|split].
    + intros x NE. unfold put in NE. destruct (str_eqb x _) eqn:E1 in NE; [apply str_eqb_eq in E1; left; exists (txt "prog"); exact E1|].
      destruct (str_eqb x _) eqn:E2 in NE; [apply str_eqb_eq in E2; right; right; right; exact E2|]. now destruct NE.
    + intros x e [X|[]]. injection X as <- <-. split; [exists (txt "prog"); reflexivity|]. exists p. apply put_same.
    + intros _. rewrite put_other; [apply put_same|]. intros X. rewrite <- !app_assoc in X. apply app_inv_head in X. apply (f_equal (@length Z)) in X. rewrite app_length in X. vm_compute in X. discriminate X.
  - split; [|split].
    + intros x NE. unfold put in NE. destruct (str_eqb x _) eqn:E2 in NE; [apply str_eqb_eq in E2; right; right; right; exact E2|]. now destruct NE.
    + intros x e [].
    + intros _. apply put_same.
Qed.
Lemma demo_cases bin c f : (exists p dir, r_messages (fst (m_cargo (demo bin) c f)) = [MCompiler (Some (txt "warning: unused")); MArtifact (txt "lib") None; MArtifact bin (Some (dir ++ 47 :: txt "prog")); MOther] /\ p = dir) \/
  r_messages (fst (m_cargo (demo bin) c f)) = [].
Proof.
  cbn [m_cargo demo]. destruct (read_command (c_args c)) as [[[p|] q2 q3 q4 q5 q6 q7 q8 [d|]]|]; try (right; reflexivity). left. exists d, d. split; reflexivity.
Qed.
Lemma demo_spawned bin c f : r_spawned (fst (m_cargo (demo bin) c f)) = true /\ r_success (fst (m_cargo (demo bin) c f)) = true.
Proof. cbn [m_cargo demo]. destruct (read_command (c_args c)) as [[[p|] q2 q3 q4 q5 q6 q7 q8 [d|]]|]; split; reflexivity. Qed.
Lemma demo_works bin : name_ok bin -> bin <> txt "aya-build" -> works (demo bin).
Proof.
  intros N A c f. destruct (demo_spawned bin c f) as [S1 S2]. split; [exact S1|]. split; [exact S2|]. unfold reported.
  destruct (demo_cases bin c f) as [(p & d & -> & _)| ->].
  - split; [intros [X|[X|[X|[X|[]]]]]; discriminate X|]. intros n e [X|[]]. injection X as <- <-. split; assumption.
  - split; [intros []|]. intros n e [].
Qed.
Lemma demo_lines bin : lines_of_cargo (demo bin).
Proof.
  split.
  - intros c f m I l ->. destruct (demo_cases bin c f) as [(p & d & E & _)|E]; rewrite E in I; [|contradiction]. destruct I as [X|[X|[X|[X|[]]]]]; discriminate X.
  - intros c f l I. cbn [m_cargo demo] in I. destruct (read_command (c_args c)) as [[[p|] q2 q3 q4 q5 q6 q7 q8 [d|]]|]; cbn [fst r_stderr] in I; try contradiction.
    destruct I as [<- |[]]. vm_compute. intros I. repeat (destruct I as [I|I]; [discriminate I|]). exact I.
Qed.

Definition pack (n : list Z) : package := {| p_name := n; p_root := txt "../" ++ n; p_no_default := false; p_features := [txt "a"; txt "b"] |}.
Lemma same_name_refuted : exists M l t out s', not_skipped M /\ set_up M t true out (txt "little") (txt "riscv64gc") /\ tidy M out /\ works M /\ NoDup (map p_name l) /\
  build_ebpf M l t nothing = (Ok tt, s') /\ exists y n e, In y (s_runs s') /\ In (n, e) (reported (snd (fst y))) /\ s_files s' (out ++ 47 :: n) <> snd y e.
Proof.
  exists (demo (txt "prog")), [pack (txt "first"); pack (txt "second")], Nightly, (txt "/out"). eexists.
  split; [apply demo_not_skipped|]. split; [apply demo_set_up|]. split; [apply demo_tidy|].
  split; [apply demo_works; [vm_compute; intros I; repeat (destruct I as [I|I]; [discriminate I|]); exact I|discriminate]|].
  split; [constructor; [intros [X|[]]; discriminate X|constructor; [intros []|constructor]]|].
  split; [vm_compute; reflexivity|]. cbn [s_runs]. eexists _, _, _. split; [left; reflexivity|]. cbn [fst snd]. split; [vm_compute; left; reflexivity|]. vm_compute. discriminate.
Qed.
Lemma aya_build_refuted : exists M l t out s', not_skipped M /\ set_up M t true out (txt "little") (txt "riscv64gc") /\ tidy M out /\
  (forall c f, r_spawned (fst (m_cargo M c f)) = true /\ r_success (fst (m_cargo M c f)) = true /\ ~ In MInvalid (r_messages (fst (m_cargo M c f))) /\
    forall n e, In (n, e) (reported (fst (m_cargo M c f))) -> name_ok n) /\ no_dirs out (s_files nothing) /\
  build_ebpf M l t nothing = (Err (ECopy (txt "/out/aya-build/target/first/prog") (txt "/out/aya-build")), s').
Proof.
  exists (demo (txt "aya-build")), [pack (txt "first")], Nightly, (txt "/out"). eexists.
  split; [apply demo_not_skipped|]. split; [apply demo_set_up|]. split; [apply demo_tidy|]. split; [|split; [discriminate|vm_compute; reflexivity]].
  intros c f. destruct (demo_spawned (txt "aya-build") c f) as [S1 S2]. split; [exact S1|]. split; [exact S2|]. unfold reported.
  destruct (demo_cases (txt "aya-build") c f) as [(p & d & E & _)|E]; rewrite E.
  - split; [intros [X|[X|[X|[X|[]]]]]; discriminate X|]. intros n e [X|[]]. apply pair_equal_spec in X as [<- _]. vm_compute; intros I; repeat (destruct I as [I|I]; [discriminate I|]); exact I.
  - split; [intros []|]. intros n e [].
Qed.

(** * The architecture *)

Lemma cfg_directive a : directive_of (cfg_line a) = DCfg (the_cfg a).
Proof. reflexivity. Qed.

Lemma emit_set E v : E (txt "CARGO_CFG_BPF_TARGET_ARCH") = Some v -> cfgs (fst (emit_cfg E)) = [] /\ snd (emit_cfg E) = Ok tt.
Proof. intros H. unfold emit_cfg. rewrite H. split; reflexivity. Qed.
Lemma emit_user E h a : E (txt "CARGO_CFG_BPF_TARGET_ARCH") = None -> E (txt "HOST") = Some h -> utf8 h = true -> E (txt "AYA_BPF_TARGET_ARCH") = Some a -> utf8 a = true ->
  cfgs (fst (emit_cfg E)) = [the_cfg a] /\ snd (emit_cfg E) = Ok tt.
Proof. intros H1 H2 H3 H4 H5. unfold emit_cfg. rewrite H1, H2, H3, H4, H5. split; reflexivity. Qed.
Lemma emit_host E h a r b : E (txt "CARGO_CFG_BPF_TARGET_ARCH") = None -> E (txt "HOST") = Some h -> utf8 h = true -> E (txt "AYA_BPF_TARGET_ARCH") = None ->
  h = a \/ h = a ++ 45 :: r -> ~ In 45 a -> same_arch a b -> cfgs (fst (emit_cfg E)) = [the_cfg b] /\ snd (emit_cfg E) = Ok tt.
Proof.
  intros H1 H2 H3 H4 HH NI SA. unfold emit_cfg. rewrite H1, H2, H3, H4. cbn [negb fst snd].
  assert (host_arch h = a) as ->.
  { assert (Forall (fun c => (45 =? c) = false) a) as F by (apply Forall_forall; intros c I; apply Z.eqb_neq; intros <-; contradiction).
    unfold host_arch, split_at. destruct HH as [-> | ->]; [now rewrite split_by_none|]. rewrite split_by_app by (first [exact F|reflexivity]). reflexivity. }
  rewrite (fixup_same _ _ SA). split; reflexivity.
Qed.
Lemma emit_always E : envs (fst (emit_cfg E)) = [txt "CARGO_CFG_BPF_TARGET_ARCH"; txt "AYA_BPF_TARGET_ARCH"; txt "HOST"] /\
  match snd (emit_cfg E) with
  | Ok _ => exists c, checks (fst (emit_cfg E)) = [c] /\ quoted c = bpf_archs
  | Err _ => cfgs (fst (emit_cfg E)) = [] /\ E (txt "CARGO_CFG_BPF_TARGET_ARCH") = None /\
      (E (txt "HOST") = None \/ (exists h, E (txt "HOST") = Some h /\ utf8 h = false) \/ exists a, E (txt "AYA_BPF_TARGET_ARCH") = Some a /\ utf8 a = false)
  end.
Proof.
  assert (forall a l, checks (cfg_line a :: l) = checks l) as CC by reflexivity.
  assert (exists c, checks [check_cfg] = [c] /\ quoted c = bpf_archs) as CK by (eexists; vm_compute; split; reflexivity).
  unfold emit_cfg. destruct (E (txt "CARGO_CFG_BPF_TARGET_ARCH")) as [v|] eqn:E1; [split; [reflexivity|exact CK]|].
  destruct (E (txt "HOST")) as [h|] eqn:E2; [|split; [reflexivity|]; split; [reflexivity|]; split; [reflexivity|now left]].
  destruct (utf8 h) eqn:U; cbn [negb]; [|split; [reflexivity|]; split; [reflexivity|]; split; [reflexivity|right; left; eauto]].
  destruct (E (txt "AYA_BPF_TARGET_ARCH")) as [a|] eqn:E3.
  - destruct (utf8 a) eqn:U2; [split; [reflexivity|exact CK]|]. split; [reflexivity|]. split; [reflexivity|]. split; [reflexivity|right; right; eauto].
  - split; [reflexivity|exact CK].
Qed.

(** Every architecture of the list has its bindings, registers and characters,
    and no other has any. *)
Lemma known_tables a : In a bpf_archs <-> (bindings_dir a <> None /\ regs_struct a <> None /\ c_char_signed a <> None).
Proof.
  split.
  - intros I. unfold bpf_archs, abi_char_signed in I. cbn [map fst] in I. repeat (destruct I as [<- |I]; [vm_compute; repeat split; discriminate|]). destruct I.
  - intros (_ & _ & C). unfold c_char_signed in C.
    assert (forall l, existsb (str_eqb a) l = true -> In a l) as EX by (intros l H; apply existsb_exists in H as (y & I & Y); apply str_eqb_eq in Y; now subst y).
    unfold bpf_archs, abi_char_signed. cbn [map fst].
    destruct (existsb _ _) eqn:X1 in C; [apply EX in X1; cbn [In] in *; tauto|]. destruct (existsb _ _) eqn:X2 in C; [apply EX in X2; cbn [In] in *; tauto|]. now destruct C.
Qed.
Lemma regs_right a r : In (a, r) kernel_regs -> regs_struct a = Some r.
Proof. intros I. unfold kernel_regs in I. repeat (destruct I as [I|I]; [injection I as <- <-; vm_compute; reflexivity|]). destruct I. Qed.
Lemma chars_right a b : In (a, b) abi_char_signed -> a <> txt "mips" -> c_char_signed a = Some b.
Proof. intros I N. unfold abi_char_signed in I. repeat (destruct I as [I|I]; [injection I as <- <-; first [vm_compute; reflexivity|now destruct N]|]). destruct I. Qed.
Lemma mips_refuted : exists b, In (txt "mips", b) abi_char_signed /\ c_char_signed (txt "mips") = Some (negb b).
Proof. exists true. split; [vm_compute; tauto|reflexivity]. Qed.
Lemma hosts_right h a : In (h, a) rust_arch -> In h named_alike -> same_arch h a /\ In a bpf_archs.
Proof.
  assert (forallb (fun x => negb (existsb (str_eqb (fst x)) named_alike) || (str_eqb (target_arch_fixup (fst x)) (snd x) && existsb (str_eqb (snd x)) bpf_archs)) rust_arch = true) as C by (vm_compute; reflexivity).
  intros I N. rewrite forallb_forall in C. specialize (C _ I). cbn [fst snd] in C.
  assert (existsb (str_eqb h) named_alike = true) as X by (apply existsb_exists; exists h; split; [exact N|apply str_eqb_refl]). rewrite X in C. cbn [negb orb] in C.
  apply andb_prop in C as [C1 C2]. apply str_eqb_eq in C1. apply existsb_exists in C2 as (y & Y1 & Y2). apply str_eqb_eq in Y2. subst y. split; [|exact Y1].
  unfold target_arch_fixup in C1. unfold same_arch. destruct (starts_with (txt "riscv64") h) eqn:S.
  - left. apply starts_with_iff in S as [r S]. split; [now exists r|now rewrite <- C1].
  - right. split; [|now rewrite <- C1]. intros r ->. rewrite starts_with_app in S. discriminate S.
Qed.
Lemma hosts_refuted : other_hosts <> [] /\ forall h a, In (h, a) other_hosts -> In a bpf_archs /\ exists b, same_arch h b /\ ~ In b bpf_archs.
Proof.
  split; [vm_compute; discriminate|]. intros h a I.
  assert (forallb (fun x => existsb (str_eqb (snd x)) bpf_archs && negb (existsb (str_eqb (fst x)) bpf_archs) && negb (starts_with (txt "riscv64") (fst x))) other_hosts = true) as C by (vm_compute; reflexivity).
  rewrite forallb_forall in C. specialize (C _ I). cbn [fst snd] in C. apply andb_prop in C as [C C3]. apply andb_prop in C as [C1 C2].
  split; [apply existsb_exists in C1 as (y & Y1 & Y2); apply str_eqb_eq in Y2; now subst y|].
  exists h. split; [right; split; [|reflexivity]|].
  - intros r ->. rewrite starts_with_app in C3. discriminate C3.
  - intros J. assert (existsb (str_eqb h) bpf_archs = true) as X by (apply existsb_exists; exists h; split; [exact J|apply str_eqb_refl]). rewrite X in C2. discriminate C2.
Qed.
Lemma dirs_right a d : In (a, d) arch_dirs <-> bindings_dir a = Some d.
Proof.
  split.
  - intros I. unfold arch_dirs in I. repeat (destruct I as [I|I]; [injection I as <- <-; vm_compute; reflexivity|]). destruct I.
  - intros H. unfold bindings_dir in H. destruct (str_eqb a (txt "arm")) eqn:E1; [apply str_eqb_eq in E1; apply some_inj in H; subst a d; right; now left|].
    destruct (existsb _ _) eqn:X in H; [|discriminate H]. apply some_inj in H. subst d. apply existsb_exists in X as (y & I & Y). apply str_eqb_eq in Y. subst y. unfold arch_dirs.
    cbn [In] in I. repeat (destruct I as [<- |I]; [vm_compute; tauto|]). destruct I.
Qed.
