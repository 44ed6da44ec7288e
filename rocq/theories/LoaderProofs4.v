(** Proofs about loading objects: when it works. *)
From Verif Require Import Base Text Insn PatchModel LinkModel BtfTypes BtfModel BtfExt CoreModel BtfSanitize ExternModel PinModel UtilModel TypedModel TypedProofs ProgModel ObjModel WholeModel WholeSpec LoaderModel LoaderSpec LoaderProofs LoaderProofs2 LoaderProofs3.
Local Open Scope Z_scope.

Lemma pair_ok {E A B C} (r : res E A) (a : A) (x x' : B) (y y' : C) : (r, x, y) = (Ok a, x', y') -> r = Ok a /\ x = x' /\ y = y'.
Proof. intros H. apply pair_equal_spec in H as [H ->]. apply pair_equal_spec in H as [-> ->]. auto. Qed.

(** * The object for the kernel *)

Lemma settle_back k tb o o2 : suited k tb o o2 -> exists o3, settle k tb o = Ok o3 /\ whole o3 = whole o2 /\ p_maps o3 = p_maps o2.
Proof.
  intros S. unfold settle.
  assert (F : match tb with Some tb => relocated k tb o | None => Ok (p_funs o) end = Ok (p_funs o2)).
  { destruct tb as [t|].
    - unfold relocated. destruct (p_btf o) as [b|] eqn:B; [|rewrite (su_funs _ _ _ _ S); auto].
      destruct (p_relos o) as [|r rs] eqn:R; [rewrite (su_funs _ _ _ _ S); auto|].
      rewrite (su_core _ _ _ _ S b t eq_refl B) || (rewrite <- R; rewrite (su_core _ _ _ _ S b t eq_refl B); [reflexivity|rewrite R; discriminate]). 
    - rewrite (su_funs _ _ _ _ S); [reflexivity|]. left. destruct (p_relos o) as [|r rs] eqn:R; [reflexivity|]. exfalso. apply (su_needed _ _ _ _ S); [|reflexivity]. left. rewrite R. discriminate. }
  rewrite F. cbn [bind]. unfold resolved. cbn [settled p_btf p_externs]. destruct (p_btf o) as [b|] eqn:B.
  - rewrite (su_externs _ _ _ _ S b B). cbn [failing bind]. eexists. split; [reflexivity|].
    split; [|cbn [settled p_maps]; symmetry; exact (su_maps _ _ _ _ S)].
    unfold whole. cbn [settled p_funs p_progs p_relocs p_syms p_btf p_externs]. rewrite (su_progs _ _ _ _ S), (su_relocs _ _ _ _ S), (su_syms _ _ _ _ S), (su_btf _ _ _ _ S). reflexivity.
  - cbn [bind]. eexists. split; [reflexivity|]. split; [|cbn [settled p_maps]; symmetry; exact (su_maps _ _ _ _ S)].
    unfold whole. cbn [settled p_funs p_progs p_relocs p_syms p_btf p_externs]. rewrite (su_progs _ _ _ _ S), (su_relocs _ _ _ _ S), (su_syms _ _ _ _ S), (su_btf _ _ _ _ S), B. reflexivity.
Qed.
Lemma parsed_dec (t : target) : (exists b, t = TParsed b) \/ unparsed t.
Proof. destruct t; [right; intros b H; discriminate H|left; eauto|right; intros b H; discriminate H]. Qed.

Lemma adapt_back k o t u tb o2 : target_is t u o tb -> suited k tb o o2 ->
  exists o3 t' u', adapt k o t u = (Ok o3, t', u') /\ whole o3 = whole o2 /\ p_maps o3 = p_maps o2 /\ u_kernel u' = u_kernel u.
Proof.
  intros (T1 & T2) S. destruct (settle_back k tb o o2 S) as (o3 & E & W & M). unfold adapt. destruct (has_relos o || has_typed o) eqn:U.
  - apply uses_spec in U. destruct (T1 U) as (P & Q). destruct (parsed_dec t) as [(b & ->)|N].
    + cbn [get_target]. rewrite (P b eq_refl) in E. rewrite E. exists o3, (TParsed b), u. auto.
    + rewrite (get_unparsed t o u N). specialize (Q N). destruct (next_answer u) as [b|e].
      * rewrite Q in E. rewrite E. eexists _, _, _. split; [reflexivity|]. auto.
      * destruct (has_relos o || has_strong o) eqn:R; [exfalso; apply needs_spec in R; exact (su_needed _ _ _ _ S R Q)|]. rewrite Q in E. rewrite E. eexists _, _, _. split; [reflexivity|]. auto.
  - assert (N : ~ uses_target o) by (intros X; apply uses_spec in X; congruence). rewrite (T2 N) in E. rewrite E. eexists _, _, _. split; [reflexivity|]. auto.
Qed.
Lemma adapt_target k o t u o2 t' u' : adapt k o t u = (Ok o2, t', u') -> exists tb, suited k tb o o2 /\ target_is t u o tb.
Proof.
  intros H. destruct (adapt_ok _ _ _ _ _ _ _ H) as (tb & S & A1 & A2). unfold adapt in H. destruct (has_relos o || has_typed o) eqn:U.
  - exists tb. split; [exact S|]. apply uses_spec in U. split; [intros _|intros N; destruct (N U)]. destruct (parsed_dec t) as [(b & ->)|N].
    + cbn [get_target] in H. apply pair_ok in H as (_ & H & _). split; [|intros X; destruct (X b eq_refl)]. intros b' Eb. destruct tb as [b2|]; [|destruct (A2 eq_refl U) as (X & _); destruct (X b eq_refl)].
      pose proof (A1 b2 eq_refl) as X. congruence.
    + split; [intros b Eb; destruct (N b Eb)|intros _]. rewrite (get_unparsed t o u N) in H. destruct (next_answer u) as [b|e] eqn:A.
      * apply pair_ok in H as (_ & H & _). destruct tb as [b2|]; [pose proof (A1 b2 eq_refl) as X; congruence|destruct (A2 eq_refl U) as (_ & n & X); congruence].
      * destruct (has_relos o || has_strong o); [apply pair_ok in H as (H & _); discriminate H|]. apply pair_ok in H as (_ & H & _). destruct tb as [b2|]; [|reflexivity]. destruct (N b2). rewrite H. exact (A1 b2 eq_refl).
  - apply pair_ok in H as (H & _). assert (N : ~ uses_target o) by (intros X; apply uses_spec in X; congruence). exists None. split; [|split; [intros X; destruct (N X)|reflexivity]].
    apply settle_ok; [exact H|]. intros X _. apply N. destruct X as [X|(n & x & X & _)]; [left; exact X|right; eauto].
Qed.

(** * Maps *)

Lemma sorted_iff k ms a b : sorted_maps k ms a b <-> filter (fun m => negb (outer m)) (filter (wanted k) ms) = a /\ filter outer (filter (wanted k) ms) = b.
Proof.
  split.
  - induction 1 as [|m ms a b E S (I1 & I2)|m ms a b E O S (I1 & I2)|m ms a b E O S (I1 & I2)]; cbn [filter]; [auto|..].
    + destruct (wanted k m) eqn:W; [apply wanted_spec in W; destruct (E W)|auto].
    + apply wanted_spec in E. rewrite E. cbn [filter]. destruct (outer m) eqn:Q; [apply outer_spec in Q; destruct (O Q)|]. cbn [negb]. rewrite I1. auto.
    + apply wanted_spec in E. apply outer_spec in O. rewrite E. cbn [filter]. rewrite O. cbn [negb]. rewrite I2. auto.
  - intros (<- & <-). induction ms as [|m ms IH]; [constructor|]. cbn [filter]. destruct (wanted k m) eqn:W.
    + apply wanted_spec in W. cbn [filter]. destruct (outer m) eqn:Q; cbn [negb].
      * apply sm_outer; [exact W|now apply outer_spec|exact IH].
      * apply sm_plain; [exact W|intros X; apply outer_spec in X; congruence|exact IH].
    + apply sm_skip; [intros X; apply wanted_spec in X; congruence|exact IH].
Qed.
Lemma typed_iff ms : typed_maps ms = Ok tt <-> forall m, In m ms -> 0 <= md_type (om_def (snd m)) <= 33.
Proof.
  induction ms as [|m ms IH]; cbn [typed_maps]; [split; [intros _ m []|reflexivity]|].
  destruct (Z.le_decidable 0 (md_type (om_def (snd m)))) as [A|A]; [destruct (Z.le_decidable (md_type (om_def (snd m))) 33) as [B|B]|].
  - rewrite map_type_some by lia. rewrite IH. split; [intros H x [<-|I]; [lia|exact (H x I)]|intros H x I; apply H; right; exact I].
  - rewrite map_type_none by lia. split; [intros H; discriminate H|intros H; specialize (H m (or_introl eq_refl)); lia].
  - rewrite map_type_none by lia. split; [intros H; discriminate H|intros H; specialize (H m (or_introl eq_refl)); lia].
Qed.
Lemma bool_iff (a b : bool) P : (a = true <-> P) -> (b = true <-> P) -> a = b.
Proof. intros A B. destruct a, b; try reflexivity; [symmetry; apply B, A; reflexivity|apply A, B; reflexivity]. Qed.
Lemma created_one c k m p q : created_as c k m p -> created_as c k m q -> p = q.
Proof.
  intros [A1 A2 A3 A4 A5 A6 A7 A8 A9] [B1 B2 B3 B4 B5 B6 B7 B8 B9]. destruct p as [n1 [t1 k1 v1 e1 f1] d1 r1 p1 i1], q as [n2 [t2 k2 v2 e2 f2] d2 r2 p2 i2].
  cbn [o_name o_shape o_data o_rodata o_pinned o_inner h_type h_key h_value h_entries h_flags] in *.
  assert (r1 = r2) by (eapply bool_iff; eassumption). assert (p1 = p2) by (eapply bool_iff; eassumption).
  rewrite A5 in B5. apply ok_inj, pair_equal_spec in B5 as [<- <-].
  assert (i1 = i2).
  { destruct (outer m) eqn:O.
    - apply outer_spec in O. destruct (proj1 A9 O) as (d & D & ->), (proj1 B9 O) as (d' & D' & ->). assert (d = d') by congruence. subst d'. reflexivity.
    - assert (N : ~ of_maps m) by (intros X; apply outer_spec in X; congruence). rewrite (proj2 A9 N), (proj2 B9 N). reflexivity. }
  subst. reflexivity.
Qed.
Lemma created_sized c k m p : created_as c k m p -> sized c k m = Ok p.
Proof.
  intros C. assert (E : exists q, sized c k m = Ok q). { unfold sized. cbv zeta. rewrite (ca_sizes _ _ _ _ C). cbn [failing bind]. eauto. }
  destruct E as (q & E). rewrite E. f_equal. apply (created_one c k m q p); [|exact C]. apply sized_ok; [exact E|]. intros O. destruct (proj1 (ca_inner _ _ _ _ C) O) as (d & D & _). eauto.
Qed.
Lemma creation_iff c k ms : forall w l w', creation c k ms w l w' <-> make_maps c k ms w = (Ok l, w').
Proof.
  intros w l w'. split.
  - induction 1 as [w|m ms w x w1 l w2 E C L R IH]; cbn [make_maps]; [reflexivity|]. rewrite (created_sized _ _ _ _ C), L, IH. subst m. destruct x. reflexivity.
  - revert w l w'. induction ms as [|m ms IH]; intros w l w' H.
    + cbn [make_maps] in H. apply pair_equal_spec in H as [H <-]. apply ok_inj in H. subst l. constructor.
    + pose proof (make_ok _ _ _ _ _ _ H) as (M1 & M2 & _). cbn [make_maps] in H.
      destruct (sized c k m) as [pm|e] eqn:S; [|apply pair_equal_spec in H as [H _]; discriminate H].
      destruct (PinModel.load_map (c_pins c) pm w) as [[fd|e] w1] eqn:L; [|apply pair_equal_spec in H as [H _]; discriminate H].
      destruct (make_maps c k ms w1) as [[r|e] w2] eqn:M; [|apply pair_equal_spec in H as [H _]; discriminate H].
      apply pair_equal_spec in H as [H <-]. apply ok_inj in H. subst l. apply (cr_map c k m ms w _ w1 r w2); [reflexivity| |exact L|exact (IH _ _ _ M)].
      exact (M2 _ (or_introl eq_refl)).
Qed.
Lemma classify_iff c l : (exists vs, classify c l = Ok vs) <-> forall x, In x l -> exists v, parse_map (o_shape (mk_map x)) (c_allow c) = Ok v.
Proof.
  unfold classify. induction l as [|x l IH]; cbn [mapM]; [split; [intros _ x []|eauto]|].
  destruct (parse_map (o_shape (mk_map x)) (c_allow c)) as [v|e] eqn:P; cbn [failing bind].
  - split.
    + intros (vs & H) y [<-|I]; [eauto|]. destruct (mapM _ l) as [r|e] eqn:M; cbn [bind] in H; [|discriminate H]. apply (proj1 IH); [eauto|exact I].
    + intros H. destruct (proj2 IH) as (vs & ->); [intros y I; apply H; right; exact I|]. cbn [bind]. eauto.
  - split; [intros (vs & H); discriminate H|]. intros H. destruct (H x (or_introl eq_refl)) as (v & X). congruence.
Qed.

(** * Loading *)

Lemma build_iff c k fd o w w' : (exists e, build c k fd o w = (Ok e, w')) <-> exists l,
  (forall m, In m (p_maps o) -> exists_on k m -> 0 <= md_type (om_def (snd m)) <= 33) /\
  (exists a b, sorted_maps k (p_maps o) a b /\ creation c k (a ++ b) w l w') /\
  (exists r, finish (whole o) (map told l) (k_probe k) = Ok r) /\
  (forall x, In x l -> exists v, parse_map (o_shape (mk_map x)) (c_allow c) = Ok v).
Proof.
  assert (T : typed_maps (filter (wanted k) (p_maps o)) = Ok tt <-> forall m, In m (p_maps o) -> exists_on k m -> 0 <= md_type (om_def (snd m)) <= 33).
  { rewrite typed_iff. split; [intros H m I E; apply H, filter_In; split; [exact I|now apply wanted_spec]|intros H m I; apply filter_In in I as (I & E); apply H; [exact I|now apply wanted_spec]]. }
  unfold build. split.
  - intros (e & H). destruct (typed_maps (filter (wanted k) (p_maps o))) as [[]|e0] eqn:Y; [|apply pair_equal_spec in H as [H _]; discriminate H].
    destruct (make_maps c k (ordered (filter (wanted k) (p_maps o))) w) as [[ms|e0] w1] eqn:M; [|apply pair_equal_spec in H as [H _]; discriminate H].
    apply pair_equal_spec in H as [H <-]. destruct (finish (whole o) (map info_of ms) (k_probe k)) as [l|e0] eqn:F; cbn [failing bind] in H; [|discriminate H].
    destruct (classify c ms) as [vs|e0] eqn:C; cbn [bind] in H; [|discriminate H]. exists ms. split; [exact (proj1 T eq_refl)|]. split; [|split].
    + eexists _, _. split; [apply sorted_iff; split; reflexivity|]. apply creation_iff. exact M.
    + exists l. exact F.
    + apply classify_iff. eauto.
  - intros (l & T' & (a & b & S & M) & (r & F) & C). rewrite (proj2 T T'). apply sorted_iff in S as (<- & <-). apply creation_iff in M. unfold ordered. rewrite M.
    change (map told l) with (map info_of l) in F. rewrite F. cbn [failing bind]. apply classify_iff in C as (vs & ->). cbn [bind]. eauto.
Qed.
Lemma load_iff c k o t u w : (exists e t' u', load c k o t u = (Ok e, t', u') /\ u_kernel u' = w) <-> exists ms fd o1 tb o2 l, loadable c k o t u ms fd o1 tb o2 l w.
Proof.
  split.
  - intros (e & t' & u' & H & K). unfold load in H. destruct (patch_map_data (p_syms o) (p_maps o) (c_globals c)) as [ms|e0] eqn:G; cbn [failing bind] in H; [|apply pair_ok in H as (H & _); discriminate H].
    destruct (upload k (with_maps ms o)) as [[o1 fd]|e0] eqn:U; [|apply pair_ok in H as (H & _); discriminate H].
    destruct (adapt k o1 t u) as [[[o2|e0] t1] u1] eqn:A; [|apply pair_ok in H as (H & _); discriminate H].
    destruct (build c k fd o2 (u_kernel u1)) as [r w1] eqn:B. apply pair_ok in H as (-> & <- & <-). cbn [with_kernel u_kernel] in K. subst w1.
    destruct (adapt_target _ _ _ _ _ _ _ A) as (tb & S & T). destruct (adapt_step _ _ _ _ _ _ _ A) as [K _]. apply upload_sent in U.
    assert (P : p_maps o1 = ms) by (inversion U; subst; reflexivity).
    destruct (proj1 (build_iff c k fd o2 (u_kernel u1) w)) as (l & B1 & B2 & B3 & B4); [eauto|]. rewrite (su_maps _ _ _ _ S), P in B1, B2. rewrite K in B2.
    exists ms, fd, o1, tb, o2, l. constructor; assumption.
  - intros (ms & fd & o1 & tb & o2 & l & [G U T S B1 B2 B3 B4]). unfold configured in G. unfold load. rewrite G. cbn [failing bind]. rewrite (sent_upload _ _ _ _ U).
    assert (P : p_maps o1 = ms) by (inversion U; subst; reflexivity).
    destruct (adapt_back k o1 t u tb o2 T S) as (o3 & t' & u' & -> & W & M & K).
    destruct (proj2 (build_iff c k fd o3 (u_kernel u') w)) as (e & B).
    { exists l. rewrite M, (su_maps _ _ _ _ S), P, K, W. auto. }
    rewrite B. exists e. eexists _, _. split; [reflexivity|]. reflexivity.
Qed.
