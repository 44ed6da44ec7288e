From Coq Require Import String.
From Verif Require Import Base Text TextSplit LogModel BuildModel BuildSpec.
Local Open Scope Z_scope.

Lemma forall2_len {A B} (R : A -> B -> Prop) a b : Forall2 R a b -> length a = length b.
Proof. induction 1; cbn; congruence. Qed.

(** * Skipping *)

Lemma lower_true v : str_eqb (map lower v) (txt "true") = true <-> Forall2 (fun c d => c = d \/ c + 32 = d) v (txt "true").
Proof.
  assert (forall t, Forall (fun d => 97 <= d <= 122) t -> forall v, map lower v = t <-> Forall2 (fun c d => c = d \/ c + 32 = d) v t) as G.
  { intros t HT. induction HT as [|d t D _ IH]; intros [|c w].
    - split; [constructor|reflexivity].
    - split; [discriminate|intros X; inversion X].
    - split; [discriminate|intros X; inversion X].
    - assert (lower c = d <-> (c = d \/ c + 32 = d)) as L.
      { unfold lower. destruct (Z.leb_spec 65 c), (Z.leb_spec c 90); cbn [andb]; lia. }
      cbn [map]. split.
      + intros X. injection X as X1 X2. constructor; [now apply L|now apply IH].
      + intros X. inversion X as [|? ? ? ? X1 X2]; subst. f_equal; [now apply L|now apply IH]. }
  rewrite str_eqb_eq. apply G. change (txt "true") with [116; 114; 117; 101]. repeat (apply Forall_cons; [lia|]). apply Forall_nil.
Qed.

Lemma skip_iff v : str_eqb v (txt "1") || str_eqb (map lower v) (txt "true") = true <-> skips v.
Proof. unfold skips. rewrite orb_true_iff, lower_true, str_eqb_eq. reflexivity. Qed.

Lemma skipped M l t s v : m_env M (txt "AYA_BUILD_SKIP") = Some v -> skips v ->
  exists s', build_ebpf M l t s = (Ok tt, s') /\ s_runs s' = s_runs s /\ s_files s' = s_files s.
Proof.
  intros E S. unfold build_ebpf. rewrite E. apply skip_iff in S. rewrite S. eexists. split; [reflexivity|]. split; reflexivity.
Qed.

(** * Set up *)

Definition start (M : machine) (s : state) : state :=
  let s := say [txt "cargo:rerun-if-env-changed=AYA_BUILD_SKIP"] s in
  match m_rustup M with Some _ => s | None => say [warning (txt "rustup not found")] s end.
Definition prefix_of (M : machine) (t : toolchain) : list (list Z) := match m_rustup M with Some r => [r; txt "run"; toolchain_str t] | None => [] end.
Definition bpf_target (endian : list Z) : list Z := if str_eqb endian (txt "big") then txt "bpfeb-unknown-none" else txt "bpfel-unknown-none".

Lemma not_skipped_eq M : not_skipped M ->
  match m_env M (txt "AYA_BUILD_SKIP") with Some v => str_eqb v (txt "1") || str_eqb (map lower v) (txt "true") | None => false end = false.
Proof.
  intros H. unfold not_skipped in H. destruct (m_env M (txt "AYA_BUILD_SKIP")) as [v|]; [|reflexivity].
  destruct (str_eqb v (txt "1") || str_eqb (map lower v) (txt "true")) eqn:E; [|reflexivity]. destruct (H v eq_refl). now apply skip_iff.
Qed.

Lemma ebpf_all M l t s nightly out endian arch : not_skipped M -> set_up M t nightly out endian arch ->
  build_ebpf M l t s = build_all M (prefix_of M t) nightly (bpf_target endian) (target_arch_fixup arch) out l (start M s).
Proof.
  intros NS [E1 E2 E3 E4 E5 E6]. unfold build_ebpf. rewrite (not_skipped_eq _ NS), E1, E2, E4, E5.
  unfold start, prefix_of, toolchain_str, bpf_target.
  destruct E3 as [-> | ->]; cbn [negb]; destruct (m_rustup M) as [r|]; cbn beta iota in E6; rewrite E6; reflexivity.
Qed.

(** Otherwise nothing is run. *)
Lemma set_up_or M l t s : not_skipped M -> (exists nightly out endian arch, set_up M t nightly out endian arch) \/
  (exists e s', build_ebpf M l t s = (Err e, s') /\ s_runs s' = s_runs s /\ s_files s' = s_files s /\
    (e = ENoOutDir /\ m_env M (txt "OUT_DIR") = None \/ e = ENoEndian /\ m_env M (txt "CARGO_CFG_TARGET_ENDIAN") = None \/
     (exists v, e = EEndian v /\ m_env M (txt "CARGO_CFG_TARGET_ENDIAN") = Some v /\ v <> txt "big" /\ v <> txt "little") \/
     e = ENoArch /\ m_env M (txt "CARGO_CFG_TARGET_ARCH") = None \/
     (exists a, e = EArchText /\ m_env M (txt "CARGO_CFG_TARGET_ARCH") = Some a /\ utf8 a = false) \/ e = ENoVersion)).
Proof.
  intros NS. unfold build_ebpf. rewrite (not_skipped_eq _ NS).
  destruct (m_env M (txt "OUT_DIR")) as [out|] eqn:E1; [|right; eexists _, _; split; [reflexivity|]; split; [reflexivity|]; split; [reflexivity|]; left; split; reflexivity].
  destruct (m_env M (txt "CARGO_CFG_TARGET_ENDIAN")) as [endian|] eqn:E2; [|right; eexists _, _; split; [reflexivity|]; split; [reflexivity|]; split; [reflexivity|]; right; left; split; reflexivity].
  destruct (str_eqb endian (txt "big")) eqn:B; [|destruct (str_eqb endian (txt "little")) eqn:L].
  3: { right. eexists _, _. split; [reflexivity|]. split; [reflexivity|]. split; [reflexivity|]. do 2 right. left. exists endian. split; [reflexivity|]. split; [reflexivity|].
       split; now apply str_eqb_neq. }
  all: assert (endian = txt "big" \/ endian = txt "little") as EO by (first [left; now apply str_eqb_eq|right; now apply str_eqb_eq]).
  all: destruct (m_env M (txt "CARGO_CFG_TARGET_ARCH")) as [arch|] eqn:E4;
    [|right; eexists _, _; split; [reflexivity|]; split; [reflexivity|]; split; [reflexivity|]; do 3 right; left; split; reflexivity].
  all: destruct (utf8 arch) eqn:E5; cbn [negb];
    [|right; eexists _, _; split; [reflexivity|]; split; [reflexivity|]; split; [reflexivity|]; do 4 right; left; exists arch; repeat split; exact E5].
  all: match goal with |- context[m_nightly ?m ?p] => destruct (m_nightly m p) as [nightly|] eqn:E6 end;
    [left; exists nightly, out, endian, arch; constructor; first [assumption|destruct (m_rustup M); exact E6]|
     right; eexists _, _; split; [reflexivity|]; destruct (m_rustup M); (split; [reflexivity|]; split; [reflexivity|]; do 5 right; reflexivity)].
Qed.

(** * Commands *)

Lemma features_commas l : Forall plain_feature l -> features (commas l) = l.
Proof.
  intros H. unfold features. set (p := fun c => (c =? 44) || (c =? 32)).
  assert (forall f, plain_feature f -> Forall (fun c => p c = false) f) as PF.
  { intros f [_ F]. eapply Forall_impl; [|exact F]. intros c [A B]. unfold p. rewrite (proj2 (Z.eqb_neq _ _) A), (proj2 (Z.eqb_neq _ _) B). reflexivity. }
  induction H as [|a l A HL IH]; [reflexivity|]. destruct l as [|b l].
  - cbn [commas]. rewrite split_by_none by now apply PF. destruct A as [A _]. destruct a; [now destruct A|reflexivity].
  - change (commas (a :: b :: l)) with (a ++ 44 :: commas (b :: l)). rewrite split_by_app by (first [now apply PF|reflexivity]).
    cbn [filter]. rewrite IH. destruct A as [A _]. destruct a; [now destruct A|reflexivity].
Qed.

Lemma use_build_std_iff b n y : use_build_std b n y = true <-> unstable b n y.
Proof.
  unfold use_build_std, unstable. destruct b as [b|].
  - destruct (str_eqb b (txt "1")) eqn:E1; cbn [orb]; [apply str_eqb_eq in E1; subst; split; [intros _; now left|reflexivity]|].
    apply str_eqb_neq in E1. destruct (str_eqb b n) eqn:E2; [apply str_eqb_eq in E2; subst; split; [intros _; right; now left|reflexivity]|].
    apply str_eqb_neq in E2. destruct (str_eqb b (txt "-1")) eqn:E3.
    + apply str_eqb_eq in E3. subst. split; [discriminate|]. intros [X|[X|[_ X]]]; [discriminate X|injection X as X; now destruct E2|now destruct X].
    + apply str_eqb_neq in E3. split; [intros ->; right; right; split; congruence|]. intros [X|[X|[X _]]]; [injection X as X; now destruct E1|injection X as X; now destruct E2|exact X].
  - split; [intros ->; right; right; split; [reflexivity|discriminate]|]. intros [X|[X|[X _]]]; [discriminate X|discriminate X|exact X].
Qed.

Lemma fixup_same a b : same_arch a b -> target_arch_fixup a = b.
Proof.
  unfold target_arch_fixup. intros [[[r ->] ->]|[N ->]]; [now rewrite starts_with_app|].
  destruct (starts_with (txt "riscv64") a) eqn:E; [|reflexivity]. apply starts_with_iff in E as [r E]. now destruct (N r).
Qed.

Lemma cargo_right M t nightly out endian arch p : (endian = txt "big" \/ endian = txt "little") ->
  right_command M t nightly out endian arch p (cargo M (prefix_of M t) nightly (bpf_target endian) (target_arch_fixup arch) out p).
Proof.
  intros EO. unfold right_command.
  assert (forall rest, rest = [txt "build"; txt "--package"; p_name p; txt "--bins"; txt "--message-format=json"; txt "--release"; txt "--target"; bpf_target endian] ++
       (if use_build_std (m_env M (txt "RUSTC_BOOTSTRAP")) (p_name p) nightly then [txt "-Z"; txt "build-std=core"] else []) ++
       (if p_no_default p then [txt "--no-default-features"] else []) ++
       [txt "--features"; commas (p_features p)] ++
       [txt "--target-dir"; slash (slash (slash out (txt "aya-build")) (txt "target")) (p_name p)] ->
     read_command rest = Some {| q_package := Some (p_name p); q_bins := true; q_json := true; q_release := true; q_target := Some (bpf_target endian);
       q_unstable := if use_build_std (m_env M (txt "RUSTC_BOOTSTRAP")) (p_name p) nightly then [txt "build-std=core"] else [];
       q_default := negb (p_no_default p); q_features := features (commas (p_features p)); q_dir := Some (slash (slash (slash out (txt "aya-build")) (txt "target")) (p_name p)) |}) as R.
  { intros rest ->. destruct (use_build_std _ _ _), (p_no_default p); reflexivity. }
  split; [|split].
  - eexists. split.
    + unfold asks, cargo, prefix_of, toolchain_str. destruct (m_rustup M) as [r|]; cbn [cmd].
      * split; [reflexivity|]. cbn [c_args]. eexists. split; [|apply R; reflexivity]. destruct t; reflexivity.
      * split; [reflexivity|]. apply R. reflexivity.
    + cbn [q_package q_bins q_json q_release q_target q_unstable q_default q_features q_dir]. do 4 (split; [reflexivity|]).
      split; [reflexivity|]. split.
      { destruct (use_build_std _ _ _) eqn:U; [left|right]; (split; [|reflexivity]); rewrite <- use_build_std_iff, U; [reflexivity|discriminate]. }
      split; [reflexivity|]. split; [intros F; now apply features_commas|].
      unfold slash. f_equal. rewrite <- !app_assoc. reflexivity.
  - unfold cargo. destruct (cmd _ _) as [pr ar]. cbn [c_set]. eexists. split; [reflexivity|]. intros a SA NI. rewrite (fixup_same _ _ SA).
    transitivity (split_at 31 (TextSplit.join 31 [txt "--cfg=bpf_target_arch=""" ++ a ++ txt """"; txt "-Cdebuginfo=2"; txt "-Clink-arg=--btf"])).
    { f_equal. cbn [TextSplit.join]. rewrite <- !app_assoc. cbn [app]. reflexivity. }
    apply split_at_join; [discriminate|].
    assert (Forall (fun c => c <> 31) a) as FA by (apply Forall_forall; intros c HC ->; contradiction).
    constructor; [|constructor; [repeat (constructor; [discriminate|]); constructor|constructor; [repeat (constructor; [discriminate|]); constructor|constructor]]].
    apply Forall_app. split; [repeat (constructor; [discriminate|]); constructor|]. apply Forall_app. split; [exact FA|]. repeat (constructor; [discriminate|]); constructor.
  - unfold cargo. destruct (cmd _ _) as [pr ar]. reflexivity.
Qed.

(** * Messages *)

Lemma relay_told l ls es : relay l = (ls, Ok es) ->
  es = flat_map (fun m => match m with MArtifact t (Some e) => [(t, e)] | _ => [] end) l /\
  ls = map warning (flat_map (fun m => match m with MCompiler (Some t) => split_at 10 t | MCompiler None => [[]] | MText l => [l] | _ => [] end) l) /\ ~ In MInvalid l.
Proof.
  revert ls es. induction l as [|m l IH]; intros ls es H; cbn [relay] in H.
  { injection H as <- <-. split; [reflexivity|]. split; [reflexivity|intros []]. }
  destruct (relay l) as [ls1 [es1|e1]] eqn:R.
  - destruct (IH _ _ eq_refl) as (A & B & C). destruct m as [t [e|]|[t|]|x| |]; try discriminate H;
      apply pair_equal_spec in H as [<- H]; apply ok_inj in H; subst es; cbn [flat_map app]; rewrite <- A, B;
      (split; [reflexivity|]); (split; [rewrite ?map_app; reflexivity|]); intros [X|X]; solve [discriminate X|contradiction].
  - destruct m as [t [e|]|[t|]|x| |]; discriminate H.
Qed.
Lemma relay_err l ls e : relay l = (ls, Err e) -> e = EJson /\ In MInvalid l.
Proof.
  revert ls. induction l as [|m l IH]; intros ls H; cbn [relay] in H; [discriminate H|].
  destruct (relay l) as [ls1 [es1|e1]] eqn:R.
  - destruct m as [t [x|]|[t|]|x| |]; try discriminate H. injection H as _ <-. split; [reflexivity|now left].
  - destruct m as [t [x|]|[t|]|x| |]; apply pair_equal_spec in H as [_ H]; injection H as <-;
      try (destruct (IH _ eq_refl) as [A B]; split; [exact A|now right]). split; [reflexivity|now left].
Qed.
Lemma relay_warnings l ls x : relay l = (ls, x) -> exists ws, ls = map warning ws.
Proof.
  revert ls x. induction l as [|m l IH]; intros ls x H; cbn [relay] in H; [injection H as <- _; now exists []|].
  destruct (relay l) as [ls1 x1] eqn:R. destruct (IH _ _ eq_refl) as [ws ->].
  destruct m as [t [e|]|[t|]|y| |]; apply pair_equal_spec in H as [<- _].
  - now exists ws.
  - now exists ws.
  - exists (split_at 10 t ++ ws). now rewrite map_app.
  - exists ([[]] ++ ws). now rewrite map_app.
  - exists ([y] ++ ws). now rewrite map_app.
  - now exists ws.
  - now exists [].
Qed.
