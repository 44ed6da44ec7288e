From Verif Require Import Base RingBufTso.

Record TInv (s : tso) : Prop := {
  t_len : length (st s) = nres s;
  t_vis : vis s <= nres s;
  t_order : tpos s <= cache s <= vis s;
  t_done : forall i h, nth_error (st s) i = Some h -> h <> HBusy -> i < vis s;
  t_last : last (cbuf s) (cmem s) = tpos s;
  t_nw : nw s = false -> cbuf s = [] /\ cmem s = tpos s;
  t_load : tpc s = PLoad -> nw s = false;
  t_sleep : tpc s = PAsleep -> nw s = false /\
     (forall h, nth_error (st s) (tpos s) = Some h -> h <> HBusy ->
        ntf s = true \/ In (tpos s) (inflight s));
  t_read : tpc s = PRead \/ tpc s = PHold -> tpos s < cache s
}.

Lemma tinv_init n : TInv (tinit n).
Proof.
  constructor; cbn; auto; try lia; try discriminate.
  - apply repeat_length.
  - intros i h H _. assert (i < length (repeat HData n)) by (apply nth_error_Some; congruence).
    now rewrite repeat_length in *.
  - intros [?|?]; discriminate.
Qed.

Lemma in_remove1 x i l : In x l -> x <> i -> In x (remove1 i l).
Proof.
  induction l as [|y l IH]; cbn; [auto|]. intros H Hne. destruct (Nat.eqb_spec i y) as [->|].
  - destruct H; [congruence|auto].
  - destruct H as [->|H]; [now left|right; auto].
Qed.

Lemma last_snoc_cons (a : nat) l x : last (l ++ [x]) a = x.
Proof. apply last_last. Qed.

Lemma last_cons_default (p : nat) r d : last (p :: r) d = last r p.
Proof.
  revert p d; induction r as [|x r IH]; intros p d; [reflexivity|].
  change (last (p :: x :: r) d) with (last (x :: r) d). rewrite IH. symmetry. apply IH.
Qed.

Lemma tinv_step s l s' : TInv s -> tstep true s l = Some s' -> TInv s'.
Proof.
  intros I H. destruct I as [Hlen Hvis Hord Hdone Hlast Hnw Hload Hsleep Hread].
  destruct l as [| |i d|i| | | |]; cbn [tstep] in H.
  - inversion H; subst; clear H. constructor; cbn [nres vis st cmem cbuf inflight ntf tpos nw cache tpc]; auto.
    + rewrite app_length. cbn. lia.
    + intros i h Hi Hh. destruct (Nat.lt_ge_cases i (length (st s))).
      * rewrite nth_error_app1 in Hi by assumption. eauto.
      * rewrite nth_error_app2 in Hi by assumption. destruct (i - length (st s)) as [|[|]]; cbn in Hi; congruence.
    + intros Hp. destruct (Hsleep Hp) as [A B]. split; [exact A|]. intros h Hi Hh.
      destruct (Nat.lt_ge_cases (tpos s) (length (st s))).
      * rewrite nth_error_app1 in Hi by assumption. eauto.
      * rewrite nth_error_app2 in Hi by assumption. destruct (tpos s - length (st s)) as [|[|]]; cbn in Hi; congruence.
  - destruct (Nat.ltb_spec (vis s) (nres s)); inversion H; subst; clear H.
    constructor; cbn [nres vis st cmem cbuf inflight ntf tpos nw cache tpc]; auto; try lia.
    intros i h Hi Hh. specialize (Hdone i h Hi Hh). lia.
  - destruct (nth_error (st s) i) as [[| |]|] eqn:Ei; inversion H; subst; clear H.
    assert (i < length (st s)) by (apply nth_error_Some; congruence).
    constructor; cbn [nres vis st cmem cbuf inflight ntf tpos nw cache tpc]; auto; try lia.
    + now rewrite upd_length.
    + intros j h Hj Hh. destruct (Nat.eq_dec i j) as [->|Hne]; [lia|].
      rewrite nth_error_upd_ne in Hj by exact Hne. specialize (Hdone j h Hj Hh). lia.
    + intros Hp. destruct (Hsleep Hp) as [A B]. split; [exact A|]. intros h Hj Hh.
      destruct (Nat.eq_dec i (tpos s)) as [->|Hne]; [right; now left|].
      rewrite nth_error_upd_ne in Hj by exact Hne. destruct (B h Hj Hh); [now left|right; now right].
  - destruct (existsb (Nat.eqb i) (inflight s)) eqn:Ei; inversion H; subst; clear H.
    constructor; cbn [nres vis st cmem cbuf inflight ntf tpos nw cache tpc]; auto.
    intros Hp. destruct (Hsleep Hp) as [A B]. split; [exact A|]. intros h Hj Hh.
    destruct (Hnw A) as [Hb Hc].
    destruct (Nat.eqb_spec (cmem s) i) as [E|E]; [now left|].
    destruct (B h Hj Hh) as [|Hin]; [now left|right]. apply in_remove1; [exact Hin|congruence].
  - destruct (cbuf s) as [|p r] eqn:Eb; inversion H; subst; clear H.
    constructor; cbn [nres vis st cmem cbuf inflight ntf tpos nw cache tpc]; auto.
    + rewrite <- Hlast. symmetry. apply last_cons_default.
    + intros Hn. destruct (Hnw Hn). discriminate.
  - unfold reader_step in H. destruct (tpc s) eqn:Epc.
    + destruct (Nat.eqb_spec (tpos s) (cache s)); inversion H; subst; clear H;
      (constructor; cbn [with_reader nres vis st cmem cbuf inflight ntf tpos nw cache tpc]; auto; try lia; try discriminate).
      * destruct (nw s) eqn:E; [discriminate|auto].
      * destruct (nw s); discriminate.
      * destruct (nw s); intros [?|?]; discriminate.
    + destruct (cbuf s) as [|p r] eqn:Eb; inversion H; subst; clear H.
      constructor; cbn [with_reader nres vis st cmem cbuf inflight ntf tpos nw cache tpc]; auto; try discriminate.
      intros [?|?]; discriminate.
    + inversion H; subst; clear H. specialize (Hload eq_refl).
      constructor; cbn [with_reader nres vis st cmem cbuf inflight ntf tpos nw cache tpc]; auto; try lia.
      * intros Hp. split; [exact Hload|]. intros h Hi Hh. exfalso.
        destruct (Nat.eqb_spec (tpos s) (vis s)); [|discriminate].
        specialize (Hdone _ _ Hi Hh). lia.
      * destruct (Nat.eqb_spec (tpos s) (vis s)); intros [?|?]; try discriminate. lia.
    + specialize (Hread (or_introl eq_refl)).
      destruct (nth_error (st s) (tpos s)) as [[| |]|] eqn:Eh; inversion H; subst; clear H;
      (constructor; cbn [with_reader nres vis st cmem cbuf inflight ntf tpos nw cache tpc]; auto; try lia; try discriminate).
      * destruct (nw s); discriminate.
      * intros Hp. destruct (nw s) eqn:E; [discriminate|]. split; [reflexivity|]. intros h Hi Hh. congruence.
      * apply last_snoc_cons.
      * intros [?|?]; discriminate.
    + destruct (cbuf s) as [|p r] eqn:Eb; inversion H; subst; clear H.
      constructor; cbn [with_reader nres vis st cmem cbuf inflight ntf tpos nw cache tpc]; auto; try discriminate.
      intros [?|?]; discriminate.
    + specialize (Hread (or_intror eq_refl)). inversion H; subst; clear H.
      constructor; cbn [with_reader nres vis st cmem cbuf inflight ntf tpos nw cache tpc]; auto; try lia; try discriminate.
      * apply last_snoc_cons.
      * intros [?|?]; discriminate.
    + discriminate.
  - destruct (tpc s) eqn:Epc; try discriminate. destruct (ntf s) eqn:En; inversion H; subst; clear H.
    constructor; cbn [nres vis st cmem cbuf inflight ntf tpos nw cache tpc]; auto; try discriminate.
    intros [?|?]; discriminate.
  - destruct (tpc s) eqn:Epc; inversion H; subst; clear H.
    constructor; cbn [with_reader nres vis st cmem cbuf inflight ntf tpos nw cache tpc]; auto; try discriminate.
    intros [?|?]; discriminate.
Qed.

Lemma tinv_runs ls : forall s s', TInv s -> truns true s ls = Some s' -> TInv s'.
Proof.
  induction ls as [|l ls IH]; intros s s' I H; cbn [truns] in H.
  - now inversion H; subst.
  - destruct (tstep true s l) as [s1|] eqn:E; [|discriminate]. eapply IH; [|exact H]. eapply tinv_step; eauto.
Qed.

(** No lost wake-up. *)
Lemma no_lost_wakeup n ls s h : truns true (tinit n) ls = Some s ->
  tpc s = PAsleep -> nth_error (st s) (tpos s) = Some h -> h <> HBusy ->
  ntf s = true \/
  (In (tpos s) (inflight s) /\
   exists s', tstep true s (LCheckNotify (tpos s)) = Some s' /\ ntf s' = true).
Proof.
  intros H Hp Hi Hh. pose proof (tinv_runs _ _ _ (tinv_init n) H) as I.
  destruct (t_sleep _ I Hp) as [Hn B]. destruct (B h Hi Hh) as [|Hin]; [now left|right].
  split; [exact Hin|]. destruct (t_nw _ I Hn) as [_ Hc].
  cbn [tstep]. assert (existsb (Nat.eqb (tpos s)) (inflight s) = true) as ->.
  { apply existsb_exists. exists (tpos s). split; [exact Hin|apply Nat.eqb_refl]. }
  eexists. split; [reflexivity|]. cbn [ntf]. now rewrite Hc, Nat.eqb_refl.
Qed.

(** While asleep nothing but producers can move; once they are done the
    notification is there. *)
Lemma no_lost_wakeup_quiet n ls s h : truns true (tinit n) ls = Some s ->
  tpc s = PAsleep -> inflight s = [] -> nth_error (st s) (tpos s) = Some h -> h <> HBusy ->
  ntf s = true.
Proof.
  intros H Hp Hq Hi Hh. destruct (no_lost_wakeup n ls s h H Hp Hi Hh) as [|[Hin _]]; [assumption|].
  rewrite Hq in Hin. contradiction.
Qed.

(** The reader never gets stuck inside [next()]: at most its own store buffer
    has to drain first. *)
Lemma reader_progress n ls s : truns true (tinit n) ls = Some s -> tpc s <> PAsleep ->
  (exists s', tstep true s LReader = Some s') \/ (exists s', tstep true s LFlush = Some s').
Proof.
  intros H Hp. pose proof (tinv_runs _ _ _ (tinv_init n) H) as I.
  cbn [tstep]. unfold reader_step. destruct (tpc s) eqn:E; try (left; eexists; reflexivity); try congruence.
  - left. destruct (Nat.eqb _ _); eexists; reflexivity.
  - destruct (cbuf s); [left|right]; eexists; reflexivity.
  - left. pose proof (t_read _ I (or_introl E)). pose proof (t_order _ I). pose proof (t_vis _ I). pose proof (t_len _ I).
    destruct (nth_error (st s) (tpos s)) as [[| |]|] eqn:En; try (eexists; reflexivity).
    apply nth_error_None in En. lia.
  - destruct (cbuf s); [left|right]; eexists; reflexivity.
Qed.

(** Records come out in order, exactly the submitted ones. *)
Definition is_data (l : list hstat) (i : nat) : bool :=
  match nth_error l i with Some HData => true | _ => false end.

Record GInv (n : nat) (s : tso) : Prop := {
  g_base : n <= tpos s;
  g_nobusy : forall i, i < tpos s -> nth_error (st s) i <> Some HBusy;
  g_hold : tpc s = PHold -> nth_error (st s) (tpos s) = Some HData;
  g_got : rev (got s) = filter (is_data (st s)) (seq n (tpos s - n)) ++
                        (match tpc s with PHold => [tpos s] | _ => [] end)
}.

Lemma filter_ext_in' {A} (f g : A -> bool) l : (forall a, In a l -> f a = g a) -> filter f l = filter g l.
Proof. apply filter_ext_in. Qed.

Lemma seq_S' a k : seq a (S k) = seq a k ++ [a + k].
Proof. apply seq_S. Qed.

Lemma ginv_init n : GInv n (tinit n).
Proof.
  constructor; cbn; auto; try discriminate.
  - intros i Hi E. apply nth_error_In in E. apply repeat_spec in E. discriminate.
  - rewrite Nat.sub_diag. reflexivity.
Qed.

Lemma ginv_st n s s' : TInv s -> GInv n s ->
  tpos s' = tpos s -> tpc s' = tpc s -> got s' = got s ->
  (forall i, i < nres s -> nth_error (st s) i <> Some HBusy -> nth_error (st s') i = nth_error (st s) i) ->
  GInv n s'.
Proof.
  intros I [G1 G2 G3 G4] E1 E2 E3 E4. pose proof (t_order _ I). pose proof (t_vis _ I).
  constructor; rewrite ?E1, ?E2, ?E3; auto.
  - intros i Hi. rewrite E4; [auto|lia|auto].
  - intros Hp. rewrite E4; [auto| |rewrite G3 by auto; discriminate].
    assert (tpos s < length (st s)) by (apply nth_error_Some; rewrite G3 by auto; discriminate).
    rewrite (t_len _ I) in *. lia.
  - rewrite G4. f_equal. apply filter_ext_in'. intros i Hi. apply in_seq in Hi.
    unfold is_data. rewrite E4; [reflexivity|lia|]. apply G2. lia.
Qed.

Lemma ginv_step n s l s' : TInv s -> GInv n s -> tstep true s l = Some s' -> GInv n s'.
Proof.
  intros I G H. pose proof (t_len _ I) as Hlen.
  destruct l as [| |i d|i| | | |]; cbn [tstep] in H.
  - inversion H; subst; clear H. eapply ginv_st; eauto. cbn [st]. intros i Hi _. now rewrite nth_error_app1 by lia.
  - destruct (_ <? _); inversion H; subst; clear H. eapply ginv_st; eauto.
  - destruct (nth_error (st s) i) as [[| |]|] eqn:Ei; inversion H; subst; clear H.
    eapply ginv_st; eauto. cbn [st]. intros j Hj Hb. rewrite nth_error_upd_ne; [reflexivity|]. intros ->. congruence.
  - destruct (existsb _ _); inversion H; subst; clear H. eapply ginv_st; eauto.
  - destruct (cbuf s); inversion H; subst; clear H. eapply ginv_st; eauto.
  - unfold reader_step in H. destruct G as [G1 G2 G3 G4]. destruct (tpc s) eqn:Epc.
    + destruct (Nat.eqb _ _); inversion H; subst; clear H; (constructor; cbn [with_reader nres vis st cmem cbuf inflight ntf tpos nw cache tpc got]; auto; try discriminate).
      * destruct (nw s); discriminate.
      * rewrite G4. destruct (nw s); reflexivity.
    + destruct (cbuf s); inversion H; subst; clear H.
      constructor; cbn [with_reader st tpos tpc got]; auto; try discriminate.
    + inversion H; subst; clear H.
      constructor; cbn [with_reader st tpos tpc got]; auto; try discriminate.
      * destruct (Nat.eqb _ _); discriminate.
      * rewrite G4. destruct (Nat.eqb _ _); reflexivity.
    + destruct (nth_error (st s) (tpos s)) as [[| |]|] eqn:Eh; inversion H; subst; clear H;
      (constructor; cbn [with_reader st tpos tpc got]; auto; try discriminate).
      * destruct (nw s); discriminate.
      * rewrite G4. destruct (nw s); reflexivity.
      * cbn [rev]. now rewrite G4, app_nil_r.
      * intros i Hi. destruct (Nat.eq_dec i (tpos s)) as [->|]; [congruence|apply G2; lia].
      * replace (S (tpos s) - n) with (S (tpos s - n)) by lia. rewrite seq_S', filter_app, G4, !app_nil_r.
        replace (n + (tpos s - n)) with (tpos s) by lia. cbn [filter]. unfold is_data at 3. rewrite Eh. now rewrite app_nil_r.
    + destruct (cbuf s); inversion H; subst; clear H.
      constructor; cbn [with_reader st tpos tpc got]; auto; try discriminate.
    + inversion H; subst; clear H. specialize (G3 eq_refl).
      constructor; cbn [with_reader st tpos tpc got]; auto; try discriminate.
      * intros i Hi. destruct (Nat.eq_dec i (tpos s)) as [->|]; [congruence|apply G2; lia].
      * replace (S (tpos s) - n) with (S (tpos s - n)) by lia. rewrite seq_S', filter_app, G4, !app_nil_r.
        replace (n + (tpos s - n)) with (tpos s) by lia. cbn [filter]. unfold is_data at 3. now rewrite G3.
    + discriminate.
  - destruct (tpc s) eqn:Epc; try discriminate. destruct (ntf s); inversion H; subst; clear H.
    destruct G as [G1 G2 G3 G4]. constructor; cbn [st tpos tpc got]; auto; try discriminate. now rewrite Epc in G4.
  - destruct (tpc s) eqn:Epc; inversion H; subst; clear H.
    destruct G as [G1 G2 G3 G4]. constructor; cbn [with_reader st tpos tpc got]; auto; try discriminate. now rewrite Epc in G4.
Qed.

Lemma ginv_runs n ls : forall s s', TInv s -> GInv n s -> truns true s ls = Some s' -> GInv n s'.
Proof.
  induction ls as [|l ls IH]; intros s s' I G H; cbn [truns] in H.
  - now inversion H; subst.
  - destruct (tstep true s l) as [s1|] eqn:E; [|discriminate].
    eapply IH; [eapply tinv_step; eauto|eapply ginv_step; eauto|exact H].
Qed.

Lemma tso_order n ls s : truns true (tinit n) ls = Some s ->
  rev (got s) = filter (is_data (st s)) (seq n (tpos s - n)) ++
                (match tpc s with PHold => [tpos s] | _ => [] end).
Proof. intros H. exact (g_got _ _ (ginv_runs n ls _ _ (tinv_init n) (ginv_init n) H)). Qed.
