(** Proofs about errors and blessing, C116. *)
From Coq Require Import String.
From Verif Require Import Base Text ApiModel ApiSpec ApiProofs.
Local Open Scope Z_scope.

Lemma each_picked : forall M target d ps, aligns M -> named ps ->
  exists qs, picked (fun p => published p /\ ~ up_to_date M d target p) ps qs /\
    map about (snd (each M false target d ps)) = map p_name qs.
Proof.
  intros M target d ps A N. induction N as [|p ps Np Nps IH].
  - exists []. split; constructor.
  - destruct IH as (qs & K & E). destruct (one_checks M target d p A Np) as (e & E1 & Q & L & F & _).
    destruct (each_checks M target d ps A Nps) as (es & Es & _). rewrite Es in E. cbn in E.
    cbn. rewrite E1, Es. cbn. rewrite map_app, E. destruct e as [|x [|y e]].
    + exists qs. split; [|reflexivity]. apply pk_skip; [|exact K]. intros [P U]. apply U. now apply Q.
    + inversion_clear F as [|? ? [B P] _]. exists (p :: qs). split; [|cbn; now rewrite B].
      apply pk_take; [|exact K]. split; [exact P|]. intros U.
      assert (X : [x] = []) by (apply Q; intros _; exact U). discriminate X.
    + cbn in L. lia.
Qed.

Lemma errors_picked : forall M target d ps, aligns M -> named ps -> ready M ->
  exists qs, picked (fun p => published p /\ ~ up_to_date M d target p) ps qs /\
    map about (errors_of (snd (public_api M false target d ps))) = map p_name qs.
Proof.
  intros M target d ps A N R. destruct (each_picked M target d ps A N) as (qs & K & E).
  exists qs. split; [exact K|]. unfold public_api. apply ready_toolchain in R. rewrite R.
  destruct (each M false target d ps) as [d' [|e es]]; exact E.
Qed.

Lemma each_changed : forall M target d ps n t, aligns M -> named ps ->
  In (Changed n t) (snd (each M false target d ps)) ->
  exists p o api cur, In p ps /\ p_name p = n /\ its_target p target o /\ m_api M n o = Some api /\
    d (file n) = Some cur /\ ~ same_text api cur /\ report api cur t.
Proof.
  intros M target d ps n t A N H. destruct (each_errors M target d ps A N) as (bad & E & F). rewrite E in H. clear E.
  revert N H. induction F as [|p es ps bad O F IH]; intros N H; [contradiction|].
  inversion_clear N as [|? ? Np Nps]. cbn in H. apply in_app_or in H as [H|H].
  - destruct (one_checks M target d p A Np) as (e & E1 & _ & L & B & C). rewrite O in E1. injection E1 as <-.
    destruct es as [|x [|y es]]; [contradiction| |cbn in L; lia].
    destruct H as [->|[]]. inversion_clear B as [|? ? [B1 _] _]. cbn in B1. subst n.
    destruct (C t eq_refl) as (o & api & cur & X). exists p, o, api, cur. split; [now left|]. split; [reflexivity|exact X].
  - destruct (IH Nps H) as (q & o & api & cur & J & X). exists q, o, api, cur. split; [now right|exact X].
Qed.
Lemma changed_report : forall M target d ps n t, aligns M -> named ps ->
  In (Changed n t) (errors_of (snd (public_api M false target d ps))) ->
  exists p o api cur, In p ps /\ p_name p = n /\ its_target p target o /\ m_api M n o = Some api /\
    d (file n) = Some cur /\ ~ same_text api cur /\ report api cur t.
Proof.
  intros M target d ps n t A N H. apply each_changed; [exact A|exact N|]. revert H. unfold public_api.
  destruct (toolchain M); [|intros []]. destruct (each M false target d ps) as [d' [|e es]]; exact (fun h => h).
Qed.

(** * Blessing *)

Lemma store_same : forall d p t, store d p t p = Some t.
Proof. intros. unfold store. now destruct (list_eq_dec Z.eq_dec p p). Qed.
Lemma store_other : forall d p t q, q <> p -> store d p t q = d q.
Proof. intros d p t q H. unfold store. destruct (list_eq_dec Z.eq_dec q p); [contradiction|reflexivity]. Qed.

Lemma one_others : forall M b target d p q, cargo_name (p_name p) ->
  (published p -> q <> file (p_name p)) -> fst (one M b target d p) q = d q.
Proof.
  intros M b target d p q N H. unfold one. destruct (skipped p) eqn:K; [reflexivity|].
  apply skipped_published in K. specialize (H K). unfold check_package.
  destruct (m_api M (p_name p) (target_for p target)); [|reflexivity].
  destruct b; [|reflexivity]. rewrite (path_file _ N).
  destruct (m_creates M (file (p_name p))); [|reflexivity].
  destruct (m_writes M (file (p_name p))); now apply store_other.
Qed.
Lemma each_others : forall M b target q ps d, named ps ->
  (forall p, In p ps -> published p -> q <> file (p_name p)) -> fst (each M b target d ps) q = d q.
Proof.
  intros M b target q ps. induction ps as [|p ps IH]; intros d N H; [reflexivity|].
  inversion_clear N as [|? ? Np Nps]. cbn.
  pose proof (one_others M b target d p q Np (H p (or_introl eq_refl))) as O.
  destruct (one M b target d p) as [d1 e]. cbn in O.
  specialize (IH d1 Nps (fun x J => H x (or_intror J))).
  destruct (each M b target d1 ps) as [d2 es]. cbn in IH |- *. now rewrite IH.
Qed.
Lemma others_untouched : forall M b target d ps q, named ps ->
  (forall p, In p ps -> published p -> q <> file (p_name p)) -> fst (public_api M b target d ps) q = d q.
Proof.
  intros M b target d ps q N H. unfold public_api. destruct (toolchain M); [|reflexivity].
  pose proof (each_others M b target q ps d N H) as E. destruct (each M b target d ps). exact E.
Qed.

Lemma one_blesses : forall M target d p, aligns M -> cargo_name (p_name p) ->
  published p -> blessable M target p ->
  exists api, m_api M (p_name p) (target_for p target) = Some api /\
    one M true target d p = (store d (file (p_name p)) api, []).
Proof.
  intros M target d p A N P ((o & api & T & G) & C & W). apply target_its in T. subst o.
  exists api. split; [exact G|]. unfold one. apply skipped_published in P. rewrite P. unfold check_package.
  rewrite G, (path_file _ N), C, W. unfold read_and_compare. rewrite (path_file _ N), store_same.
  rewrite (proj2 (diff_nil M api api A) eq_refl). reflexivity.
Qed.

Lemma each_blesses : forall M target ps d, aligns M -> named ps -> NoDup (map p_name ps) ->
  Forall (fun p => published p -> blessable M target p) ps ->
  snd (each M true target d ps) = [] /\
  Forall (fun p => published p -> written M (fst (each M true target d ps)) target p) ps.
Proof.
  intros M target ps. induction ps as [|p ps IH]; intros d A N U B; [split; constructor|].
  inversion_clear N as [|? ? Np Nps]. inversion_clear U as [|? ? Up Ups]. inversion_clear B as [|? ? Bp Bps].
  cbn. destruct (one M true target d p) as [d1 e] eqn:O.
  destruct (IH d1 A Nps Ups Bps) as [E W]. 
  assert (X : forall q, (forall x, In x ps -> published x -> q <> file (p_name x)) -> fst (each M true target d1 ps) q = d1 q)
    by (intros q; apply each_others; exact Nps).
  destruct (each M true target d1 ps) as [d2 es]. cbn in E, W, X |- *. subst es. rewrite app_nil_r.
  destruct (skipped p) eqn:K.
  - unfold one in O. rewrite K in O. injection O as <- <-. split; [reflexivity|]. constructor; [|exact W].
    intros P. apply skipped_published in P. congruence.
  - apply skipped_published in K. destruct (one_blesses M target d p A Np K (Bp K)) as (api & G & O').
    rewrite O in O'. injection O' as -> ->. split; [reflexivity|]. constructor; [|exact W].
    intros _. exists (target_for p target), api. split; [now apply target_its|]. split; [exact G|].
    rewrite X; [apply store_same|]. intros x J _ F. apply file_inj in F. apply Up. rewrite F. now apply in_map.
Qed.

Lemma blessed : forall M target d ps, aligns M -> named ps -> NoDup (map p_name ps) -> ready M ->
  Forall (fun p => published p -> blessable M target p) ps ->
  exists d', public_api M true target d ps = (d', Fine) /\
    Forall (fun p => published p -> written M d' target p) ps.
Proof.
  intros M target d ps A N U R B. destruct (each_blesses M target ps d A N U B) as [E W].
  unfold public_api. apply ready_toolchain in R. rewrite R.
  destruct (each M true target d ps) as [d' es]. cbn in E, W. subst es. now exists d'.
Qed.

Lemma blessed_checks : forall M target d ps d', aligns M -> named ps -> NoDup (map p_name ps) -> ready M ->
  Forall (fun p => published p -> blessable M target p) ps ->
  d' = fst (public_api M true target d ps) ->
  public_api M false target d' ps = (d', Fine).
Proof.
  intros M target d ps d' A N U R B E. destruct (blessed M target d ps A N U R B) as (d2 & P & W).
  rewrite P in E. cbn in E. subst d2.
  assert (F : snd (public_api M false target d' ps) = Fine).
  { apply check_iff; [exact A|exact N|]. split; [exact R|]. revert W. apply Forall_impl.
    intros p H Q. destruct (H Q) as (o & api & T & G & D). exists o, api, api. repeat split; auto. }
  pose proof (check_untouched M target d' ps) as V. destruct (public_api M false target d' ps). cbn in F, V. now subst.
Qed.

(** Blessing that fails says so: a published package that cannot be built or
    written is an error. *)
Lemma bless_fails : forall M target ps d p, aligns M -> named ps -> In p ps -> published p ->
  ~ blessable M target p -> snd (public_api M true target d ps) <> Fine.
Proof.
  intros M target ps d p A N J P B. unfold public_api. destruct (toolchain M); [|discriminate].
  assert (H : snd (each M true target d ps) <> []).
  { revert d J. induction N as [|q ps Nq _ IH]; intros d J; [contradiction|]. cbn.
    destruct (one M true target d q) as [d1 e] eqn:O.
    specialize (IH d1). destruct (each M true target d1 ps) as [d2 es]. cbn in IH |- *.
    destruct J as [->|J].
    - intros F. apply app_eq_nil in F as [-> _]. apply B. clear IH. unfold one in O.
      apply skipped_published in P. rewrite P in O. unfold check_package in O.
      destruct (m_api M (p_name p) (target_for p target)) as [api|] eqn:G; [|discriminate O].
      rewrite (path_file _ Nq) in O. unfold blessable.
      destruct (m_creates M (file (p_name p))); [|discriminate O].
      destruct (m_writes M (file (p_name p))); [discriminate O|].
      split; [|split; reflexivity]. exists (target_for p target), api. split; [now apply target_its|exact G].
    - intros F. apply app_eq_nil in F as [_ ->]. now apply IH. }
  destruct (each M true target d ps) as [d' [|e es]]; cbn in H |- *; [contradiction|discriminate].
Qed.

(** * Examples *)

Lemma naive_aligned : forall l r, aligned l r (naive l r).
Proof.
  assert (R : forall r, aligned [] r (map RightOnly r)) by (induction r; constructor; assumption).
  assert (L : forall l r, aligned l r (map LeftOnly l ++ map RightOnly r))
    by (induction l; intros r; cbn; [apply R|constructor; apply IHl]).
  induction l as [|x l IH]; intros [|y r]; try apply L; try apply R.
  cbn [naive]. destruct (list_eq_dec Z.eq_dec x y) as [->|_]; [constructor; apply IH|apply L].
Qed.
Lemma naive_same : forall l, Forall common (naive l l).
Proof.
  induction l as [|x l IH]; cbn; [constructor|]. destruct (list_eq_dec Z.eq_dec x x) as [_|N]; [|now destruct N].
  constructor; [now exists x|exact IH].
Qed.

Lemma workspace_files : forall f,
  In f committed <-> exists p, In p workspace /\ published p /\ f = file (p_name p).
Proof.
  intros f.
  assert (E : forall p, published p <-> skipped p = false) by (intros p; now rewrite skipped_published).
  assert (I1 : In f committed <-> In f (map (fun p => file (p_name p)) (filter (fun p => negb (skipped p)) workspace))).
  { assert (X : incl committed (map (fun p => file (p_name p)) (filter (fun p => negb (skipped p)) workspace)) /\
                incl (map (fun p => file (p_name p)) (filter (fun p => negb (skipped p)) workspace)) committed).
    { assert (D : forall a b : list str, forallb (fun x => if in_dec (list_eq_dec Z.eq_dec) x b then true else false) a = true -> incl a b).
      { intros a b H x J. rewrite forallb_forall in H. specialize (H x J). now destruct (in_dec (list_eq_dec Z.eq_dec) x b). }
      split; apply D; vm_compute; reflexivity. }
    split; apply X. }
  rewrite I1, in_map_iff. split.
  - intros (p & <- & J). apply filter_In in J as [J K]. exists p. split; [exact J|]. split; [|reflexivity].
    apply E. now apply negb_true_iff.
  - intros (p & J & P & ->). exists p. split; [reflexivity|]. apply filter_In. split; [exact J|].
    apply E in P. now rewrite P.
Qed.
Lemma workspace_named : named workspace.
Proof.
  assert (D : forall n, n <> [] -> forallb (fun c => ((48 <=? c) && (c <=? 57)) || ((65 <=? c) && (c <=? 90)) || ((97 <=? c) && (c <=? 122)) || (c =? 45) || (c =? 95)) n = true -> cargo_name n).
  { intros n H F. split; [exact H|]. apply Forall_forall. intros c J. rewrite forallb_forall in F. specialize (F c J). unfold name_char. lia. }
  repeat (constructor; [apply D; [discriminate|vm_compute; reflexivity]|]). constructor.
Qed.
Lemma workspace_distinct : NoDup (map p_name workspace).
Proof.
  vm_compute. repeat (constructor; [intros H; repeat (destruct H as [H|H]; [discriminate H|]); exact H|]). constructor.
Qed.
