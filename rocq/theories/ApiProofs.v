(** Proofs about the check of the public interfaces, C116. *)
From Coq Require Import String.
From Verif Require Import Base Text ApiModel ApiSpec.
Local Open Scope Z_scope.

(** * Lines *)

Definition no_nl (s : str) : Prop := Forall (fun c => c <> 10) s.

Lemma unix_cons_nl : forall a s, no_nl a -> unix (a ++ 10 :: s) = rev (drop_cr (rev a)) ++ 10 :: unix s.
Proof.
  induction a as [|c a IH]; intros s N.
  - cbn. reflexivity.
  - inversion_clear N as [|? ? Hc Na]. specialize (IH s Na).
    destruct a as [|d a].
    + cbn. destruct (c =? 13) eqn:E; cbn; reflexivity.
    + change (unix ((c :: d :: a) ++ 10 :: s)) with
        (if (c =? 13) && (d =? 10) then unix ((d :: a) ++ 10 :: s) else c :: unix ((d :: a) ++ 10 :: s)).
      inversion_clear Na as [|? ? Hd _].
      replace (d =? 10) with false by (symmetry; apply Z.eqb_neq; exact Hd). rewrite andb_false_r, IH.
      assert (D : forall x y l, drop_cr (rev (x :: y :: l)) = drop_cr (rev (y :: l)) ++ [x]).
      { intros x y l. change (rev (x :: y :: l)) with (rev (y :: l) ++ [x]).
        destruct (rev (y :: l)) as [|z zs] eqn:R.
        - apply (f_equal (@List.length Z)) in R. rewrite rev_length in R. discriminate R.
        - cbn. destruct (z =? 13); reflexivity. }
      rewrite D, rev_app_distr. reflexivity.
Qed.

Lemma unix_no_nl : forall a, no_nl a -> unix a = a.
Proof.
  induction a as [|c a IH]; intros N; [reflexivity|].
  inversion_clear N as [|? ? _ Na]. cbn.
  assert (E : match a with d :: _ => d =? 10 | [] => false end = false)
    by (destruct a as [|d a]; [reflexivity|]; inversion_clear Na; now apply Z.eqb_neq).
  rewrite E, andb_false_r, (IH Na). reflexivity.
Qed.

Lemma pieces_cons_nl : forall a s, no_nl a -> pieces (a ++ 10 :: s) = a :: pieces s.
Proof.
  induction a as [|c a IH]; intros s N; [reflexivity|].
  inversion_clear N as [|? ? Hc Na]. cbn [app pieces]. apply Z.eqb_neq in Hc. rewrite Hc, (IH s Na). reflexivity.
Qed.
Lemma pieces_no_nl : forall a, no_nl a -> pieces a = [a].
Proof.
  induction a as [|c a IH]; intros N; [reflexivity|].
  inversion_clear N as [|? ? Hc Na]. cbn [pieces]. apply Z.eqb_neq in Hc. rewrite Hc, (IH Na). reflexivity.
Qed.

Definition at_nl (cur s : str) : bool :=
  match rev s with c :: _ => c =? 10 | [] => match cur with [] => true | _ => false end end.

Lemma no_nl_rev : forall a, no_nl a -> no_nl (rev a).
Proof. intros a N. apply Forall_forall. intros x H. apply in_rev in H. revert x H. now apply Forall_forall. Qed.
Lemma no_nl_drop : forall a, no_nl a -> no_nl (drop_cr a).
Proof. intros [|c a] N; [exact N|]. cbn. inversion_clear N. destruct (c =? 13); [assumption|now constructor]. Qed.

Lemma pieces_lines : forall s cur, no_nl cur ->
  pieces (unix (rev cur ++ s)) = lines_from cur s ++ if at_nl cur s then [[]] else [].
Proof.
  induction s as [|c s IH]; intros cur N.
  - rewrite app_nil_r, unix_no_nl, pieces_no_nl by now apply no_nl_rev.
    destruct cur as [|c cur]; reflexivity.
  - cbn [lines_from]. destruct (c =? 10) eqn:E.
    + apply Z.eqb_eq in E. subst c.
      rewrite unix_cons_nl by now apply no_nl_rev. rewrite rev_involutive.
      rewrite pieces_cons_nl by (apply no_nl_rev, no_nl_drop, N).
      specialize (IH [] (Forall_nil _)). cbn [rev app] in IH. rewrite IH. cbn [app].
      f_equal. f_equal. unfold at_nl. cbn [rev]. destruct (rev s); reflexivity.
    + specialize (IH (c :: cur)). cbn [rev] in IH. rewrite <- app_assoc in IH. cbn [app] in IH.
      rewrite IH by (constructor; [now apply Z.eqb_neq|exact N]).
      f_equal. unfold at_nl. cbn [rev]. destruct (rev s) as [|z zs]; [cbn; now rewrite E|reflexivity].
Qed.

Lemma unix_nil : forall s, unix s = [] -> s = [].
Proof.
  induction s as [|c s IH]; [reflexivity|]. cbn.
  destruct ((c =? 13) && _) eqn:E; [|discriminate].
  intros H. rewrite (IH H) in E. now rewrite andb_false_r in E.
Qed.

Lemma parts_lines : forall s, parts s = str_lines s ++ if ends_nl s then [[]] else [].
Proof.
  intros s. unfold parts. destruct (unix s) as [|c u] eqn:U.
  - apply unix_nil in U. subst s. reflexivity.
  - rewrite <- U. pose proof (pieces_lines s [] (Forall_nil _)) as P. cbn [rev app] in P. rewrite P.
    f_equal. unfold at_nl, ends_nl. destruct (rev s) as [|z zs] eqn:R; [|reflexivity].
    apply (f_equal (@rev Z)) in R. rewrite rev_involutive in R. subst s. discriminate U.
Qed.

Fixpoint join (ps : list str) : str :=
  match ps with [] => [] | [p] => p | p :: ps => p ++ 10 :: join ps end.
Lemma join_pieces : forall s, join (pieces s) = s.
Proof.
  induction s as [|c s IH]; [reflexivity|]. cbn [pieces].
  destruct (c =? 10) eqn:E.
  - apply Z.eqb_eq in E. subst c. destruct (pieces s) as [|p ps] eqn:P.
    + exfalso. destruct s as [|x s]; [discriminate P|]. cbn in P. destruct (x =? 10); [discriminate P|]. destruct (pieces s); discriminate P.
    + change (10 :: join (p :: ps) = 10 :: s). now rewrite IH.
  - destruct (pieces s) as [|p ps]; [cbn in IH |- *; now rewrite <- IH|].
    rewrite <- IH. destruct ps; reflexivity.
Qed.
Lemma parts_same : forall a b, parts a = parts b -> same_text a b.
Proof.
  intros a b H. unfold same_text.
  assert (J : forall s, join (parts s) = unix s).
  { intros s. unfold parts. destruct (unix s) as [|c u] eqn:U; [reflexivity|]. now rewrite join_pieces. }
  now rewrite <- (J a), <- (J b), H.
Qed.

Lemma ends_last : forall s, ends_nl s = (last s 0 =? 10).
Proof.
  intros s. unfold ends_nl. rewrite <- (rev_involutive s) at 2.
  destruct (rev s) as [|c r]; [reflexivity|]. cbn [rev]. now rewrite last_last.
Qed.
Lemma unix_last : forall s, last (unix s) 0 = last s 0.
Proof.
  induction s as [|c s IH]; [reflexivity|]. cbn [unix].
  destruct ((c =? 13) && _) eqn:E.
  - rewrite IH. destruct s; [now rewrite andb_false_r in E|reflexivity].
  - destruct s as [|d s]; [reflexivity|].
    destruct (unix (d :: s)) as [|x u] eqn:U; [apply unix_nil in U; discriminate U|].
    change (last (x :: u) 0 = last (d :: s) 0). exact IH.
Qed.
Lemma same_lines : forall a b, same_text a b -> str_lines a = str_lines b /\ ends_nl a = ends_nl b.
Proof.
  intros a b S0. unfold same_text in S0.
  assert (E : ends_nl a = ends_nl b) by (rewrite !ends_last, <- (unix_last a), <- (unix_last b), S0; reflexivity).
  split; [|exact E].
  assert (P : parts a = parts b) by (unfold parts; rewrite S0; reflexivity).
  rewrite !parts_lines, E in P. now apply app_inv_tail in P.
Qed.

(** * Differences *)

Lemma aligned_app : forall l1 r1 c1 l2 r2 c2, aligned l1 r1 c1 -> aligned l2 r2 c2 ->
  aligned (l1 ++ l2) (r1 ++ r2) (c1 ++ c2).
Proof. intros l1 r1 c1 l2 r2 c2 A B. induction A; cbn; [exact B|constructor; exact IHA..]. Qed.
Lemma aligned_common : forall l r cs, aligned l r cs -> Forall common cs -> l = r.
Proof.
  intros l r cs A. induction A; intros C; inversion_clear C as [|? ? [y Y] C']; [reflexivity| |discriminate Y..].
  f_equal. now apply IHA.
Qed.
Lemma show_nil : forall l r cs, aligned l r cs -> show cs = [] -> Forall common cs.
Proof.
  intros l r cs A. induction A; cbn; intros H; [constructor| |discriminate H..].
  constructor; [now exists x|]. now apply IHA.
Qed.
Lemma show_common : forall cs, Forall common cs -> show cs = [].
Proof. induction 1 as [|c cs [x ->] _ IH]; [reflexivity|exact IH]. Qed.
Lemma show_report : forall cs, show cs = concat (flat_map report_line cs).
Proof. induction cs as [|[l r|l|r] cs IH]; cbn; rewrite ?IH; reflexivity. Qed.

Lemma diff_aligned : forall M a b, aligns M -> aligned (parts a) (parts b) (diff_lines M a b).
Proof.
  intros M a b [A _]. rewrite !parts_lines. unfold diff_lines. apply aligned_app; [apply A|].
  destruct (ends_nl a), (ends_nl b); repeat constructor.
Qed.
Lemma diff_report : forall M a b, aligns M -> report a b (show (diff_lines M a b)).
Proof. intros M a b A. exists (diff_lines M a b). split; [now apply diff_aligned|apply show_report]. Qed.
Lemma diff_nil : forall M a b, aligns M -> show (diff_lines M a b) = [] <-> same_text a b.
Proof.
  intros M a b A. split.
  - intros H. apply parts_same. pose proof (diff_aligned M a b A) as D.
    exact (aligned_common _ _ _ D (show_nil _ _ _ D H)).
  - intros S0. destruct (same_lines a b S0) as [L E]. unfold diff_lines. rewrite L, E.
    apply show_common. apply Forall_app. split; [apply A|].
    destruct (ends_nl b); repeat constructor. now exists [].
Qed.

(** * Packages *)

Lemma split_dot_none : forall s, Forall name_char s -> split_dot s = None.
Proof.
  induction 1 as [|c s H _ IH]; [reflexivity|]. cbn.
  replace (c =? 46) with false; [exact IH|]. symmetry. apply Z.eqb_neq. unfold name_char in H. lia.
Qed.
Lemma path_file : forall n, cargo_name n -> api_path n = file n.
Proof.
  intros n [_ N]. unfold api_path, file_stem. rewrite split_dot_none; [reflexivity|].
  apply Forall_forall. intros x H. apply in_rev in H. revert x H. now apply Forall_forall.
Qed.
Lemma file_inj : forall a b, file a = file b -> a = b.
Proof. intros a b H. unfold file in H. apply app_inv_head in H. now apply app_inv_tail in H. Qed.

Lemma skipped_published : forall p, skipped p = false <-> published p.
Proof.
  intros p. unfold skipped, published. destruct (p_publish p) as [[|r rs]|]; split; intros H; try reflexivity; try discriminate.
  now destruct H.
Qed.
Lemma target_its : forall p t o, target_for p t = o <-> its_target p t o.
Proof.
  intros p t o. unfold target_for, its_target. destruct (existsb (fun b => b) (p_macro p)) eqn:E.
  - apply existsb_exists in E. destruct E as ([|] & H & X); [|discriminate X]. split; [now left|]. now intros [[_ ->]|[N _]].
  - assert (N : ~ In true (p_macro p)).
    { intros H. apply Bool.not_true_iff_false in E. apply E. apply existsb_exists. now exists true. }
    split; [intros <-; now right|]. now intros [[H _]|[_ ->]].
Qed.
Lemma ready_toolchain : forall M, toolchain M = true <-> ready M.
Proof.
  intros M. unfold toolchain, ready. destruct (m_installed M); [| |destruct (m_confirm M)]; split; intros H;
    try discriminate; try (now left); try reflexivity; repeat match goal with
    | H : _ \/ _ |- _ => destruct H | H : _ /\ _ |- _ => destruct H end; try discriminate; try assumption.
  right. auto.
Qed.

(** Without blessing. *)
Lemma one_checks : forall M target d p, aligns M -> cargo_name (p_name p) ->
  exists es, one M false target d p = (d, es) /\
    (es = [] <-> (published p -> up_to_date M d target p)) /\
    (List.length es <= 1)%nat /\ Forall (fun e => about e = p_name p /\ published p) es /\
    forall t, es = [Changed (p_name p) t] ->
      exists o api cur, its_target p target o /\ m_api M (p_name p) o = Some api /\
        d (file (p_name p)) = Some cur /\ ~ same_text api cur /\ report api cur t.
Proof.
  intros M target d p A N. unfold one. destruct (skipped p) eqn:K.
  - exists []. repeat split; cbn; auto; try discriminate.
    intros _ H. apply skipped_published in H. congruence.
  - pose proof (proj1 (skipped_published p) K) as P. unfold check_package.
    assert (T : its_target p target (target_for p target)) by now apply target_its.
    destruct (m_api M (p_name p) (target_for p target)) as [api|] eqn:G.
    + unfold read_and_compare. rewrite (path_file _ N). destruct (d (file (p_name p))) as [cur|] eqn:C.
      * pose proof (diff_nil M api cur A) as D. pose proof (diff_report M api cur A) as R.
        destruct (show (diff_lines M api cur)) as [|x xs] eqn:W.
        -- exists []. repeat split; cbn; auto; try discriminate.
           intros _ _. exists (target_for p target), api, cur. repeat split; auto. now apply D.
        -- assert (Q : ~ same_text api cur) by (intros Q; apply D in Q; discriminate Q).
           eexists. split; [reflexivity|]. repeat split; auto; try discriminate.
           ++ intros U. destruct (U P) as (o & api' & cur' & T' & G' & C' & S').
              apply target_its in T'. subst o. rewrite G in G'. injection G' as <-. rewrite C in C'. injection C' as <-. contradiction.
           ++ intros t E. injection E as <-. now exists (target_for p target), api, cur.
      * eexists. split; [reflexivity|]. repeat split; auto; try discriminate.
        -- intros U. destruct (U P) as (o & api' & cur' & T' & G' & C' & S'). congruence.
    + eexists. split; [reflexivity|]. repeat split; auto; try discriminate.
      -- intros U. destruct (U P) as (o & api' & cur' & T' & G' & C' & S').
         apply target_its in T'. subst o. congruence.
Qed.

Lemma each_checks : forall M target d ps, aligns M -> named ps ->
  exists es, each M false target d ps = (d, es) /\
    (es = [] <-> Forall (fun p => published p -> up_to_date M d target p) ps).
Proof.
  intros M target d ps A N. induction N as [|p ps Np _ IH].
  - exists []. repeat split; constructor.
  - destruct IH as (es & E & Q). destruct (one_checks M target d p A Np) as (e & E1 & Q1 & _).
    cbn. rewrite E1, E. exists (e ++ es). split; [reflexivity|]. split.
    + intros H. apply app_eq_nil in H as [H1 H2]. constructor; [now apply Q1|now apply Q].
    + intros H. inversion_clear H.
      rewrite (proj2 Q1), (proj2 Q) by assumption. reflexivity.
Qed.

Lemma check_iff : forall M target d ps, aligns M -> named ps ->
  snd (public_api M false target d ps) = Fine <->
  ready M /\ Forall (fun p => published p -> up_to_date M d target p) ps.
Proof.
  intros M target d ps A N. unfold public_api. destruct (toolchain M) eqn:T.
  - destruct (each_checks M target d ps A N) as (es & -> & Q). cbn.
    apply ready_toolchain in T. destruct es as [|e es]; split; intros H; try discriminate; auto.
    + split; [exact T|]. now apply Q.
    + destruct H as [_ H]. apply Q in H. discriminate H.
  - cbn. split; [discriminate|]. intros [H _]. apply ready_toolchain in H. congruence.
Qed.

Lemma check_untouched : forall M target d ps, fst (public_api M false target d ps) = d.
Proof.
  intros M target d ps. unfold public_api. destruct (toolchain M); [|reflexivity].
  assert (H : fst (each M false target d ps) = d).
  { induction ps as [|p ps IH]; [reflexivity|]. cbn.
    assert (O : fst (one M false target d p) = d).
    { unfold one. destruct (skipped p); [reflexivity|]. unfold check_package.
      destruct (m_api M (p_name p) (target_for p target)); reflexivity. }
    destruct (one M false target d p) as [d1 e]. cbn in O. subst d1.
    destruct (each M false target d ps) as [d2 es]. exact IH. }
  destruct (each M false target d ps). exact H.
Qed.

(** The errors, one for each package that fails, in order. *)
Lemma each_errors : forall M target d ps, aligns M -> named ps ->
  exists bad, snd (each M false target d ps) = concat bad /\
    Forall2 (fun p es => one M false target d p = (d, es)) ps bad.
Proof.
  intros M target d ps A N. induction N as [|p ps Np Nps IH].
  - exists []. split; constructor.
  - destruct IH as (bad & E & F). destruct (one_checks M target d p A Np) as (e & E1 & _).
    destruct (each_checks M target d ps A Nps) as (es & Es & _). rewrite Es in E. cbn in E. subst es.
    exists (e :: bad). cbn. rewrite E1, Es. split; [reflexivity|]. now constructor.
Qed.
