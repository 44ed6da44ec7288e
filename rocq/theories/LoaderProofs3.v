(** Proofs about loading objects: the theorems. *)
From Verif Require Import Base Text Insn PatchModel LinkModel BtfTypes BtfModel BtfExt CoreModel BtfSanitize ExternModel ExternSpec ExternProofs ExternProps PinModel UtilModel TypedModel ProgModel ObjModel WholeModel WholeSpec LoaderModel LoaderSpec LoaderProofs LoaderProofs2.
Local Open Scope Z_scope.

Lemma upload_sent k o o1 fd : upload k o = Ok (o1, fd) -> sent k o fd o1.
Proof.
  intros H. apply upload_ok in H as [(N & -> & ->)|(b & O & -> & [(n & T & ->)|(e & T & -> & B)])]; econstructor; eassumption.
Qed.

Lemma load_ok c k o t u e t' u' : load c k o t u = (Ok e, t', u') ->
  exists ms fd o1 o2 tb, configured c o ms /\ sent k (with_maps ms o) fd o1 /\ suited k tb o1 o2 /\
    (forall b, tb = Some b -> t' = TParsed b) /\ (tb = None -> uses_target o1 -> unparsed t /\ exists n, next_answer u = Err n) /\
    maps_of c k ms e (u_kernel u) (u_kernel u') /\ programs_of c k o fd e /\ code_complete k o2 e.
Proof.
  unfold load, configured. destruct (patch_map_data _ _ _) as [ms|e0]; cbn [failing bind]; [|intros H; apply pair_equal_spec in H as [H _]; apply pair_equal_spec in H as [H _]; discriminate H].
  destruct (upload k (with_maps ms o)) as [[o1 fd]|e0] eqn:U; [|intros H; apply pair_equal_spec in H as [H _]; apply pair_equal_spec in H as [H _]; discriminate H].
  destruct (adapt k o1 t u) as [[[o2|e0] t1] u1] eqn:A; [|intros H; apply pair_equal_spec in H as [H _]; apply pair_equal_spec in H as [H _]; discriminate H].
  destruct (build c k fd o2 (u_kernel u1)) as [r w] eqn:B. intros H. apply pair_equal_spec in H as [H <-]. apply pair_equal_spec in H as [-> <-].
  destruct (adapt_ok _ _ _ _ _ _ _ A) as (tb & S & T1 & T2). destruct (adapt_step _ _ _ _ _ _ _ A) as [K _].
  destruct (build_ok _ _ _ _ _ _ _ B) as (B1 & B2 & B3). apply upload_sent in U.
  assert (P : p_maps o1 = ms) by (inversion U; subst; reflexivity).
  assert (Q : p_progs o1 = p_progs o) by (inversion U; subst; reflexivity).
  exists ms, fd, o1, o2, tb. split; [reflexivity|]. split; [exact U|]. split; [exact S|]. split; [exact T1|]. split; [exact T2|]. split; [|split; [|exact B3]].
  - rewrite (su_maps _ _ _ _ S), P, K in B1. exact B1.
  - destruct B2 as [Q1 Q2 Q3 Q4 Q5 Q6]. constructor; try assumption. rewrite Q1, (su_progs _ _ _ _ S). exact Q.
Qed.

Lemma load_refused c k o t u ms b e : configured c o ms -> offered k o b -> k_takes k b = Err e -> blocked o -> load c k o t u = (Err (FLoadBtf e), t, u).
Proof.
  intros C O T B. unfold configured in C. unfold load. rewrite C. cbn [failing bind].
  rewrite (upload_refused k (with_maps ms o) b e); [reflexivity|exact O|exact T|exact B].
Qed.

Lemma load_steps c k o t u r t' u' : load c k o t u = (r, t', u') -> quiet_step t u t' u' \/ asked_step t o u t' u'.
Proof.
  unfold load. destruct (bind _ _) as [[o1 fd]|e0] eqn:E.
  - destruct (adapt k o1 t u) as [[r1 t1] u1] eqn:A. destruct (adapt_step _ _ _ _ _ _ _ A) as (K & S).
    assert (Q : forall n x, typed_extern o1 n x -> typed_extern o n x).
    { destruct (failing _ _) as [ms|e1] in E; cbn [bind] in E; [|discriminate E]. apply upload_sent in E. intros n x (X1 & X2 & X3).
      inversion E as [|b fd0 O T|b e0 O T]; subst; cbn [with_btf with_maps p_externs p_btf] in *; try (split; [|split]; assumption);
      (split; [destruct O as (b0 & feat & b1 & O & _); cbn in O; rewrite O; intros X; discriminate X|split; assumption]). }
    assert (R : p_relos o1 = p_relos o /\ p_big o1 = p_big o).
    { destruct (failing _ _) as [ms|e1] in E; cbn [bind] in E; [|discriminate E]. apply upload_sent in E. inversion E; subst; split; reflexivity. }
    assert (S' : quiet_step t u t1 u1 \/ asked_step t o u t1 u1).
    { destruct S as [[S _]|S]; [now left|right]. unfold asked_step in *. destruct S as (S1 & S2 & S3 & S4 & S5). split; [exact S1|]. split.
      - destruct S2 as [S2|(n & x & S2)]; [left; now rewrite <- (proj1 R)|right; exists n, x; exact (Q n x S2)].
      - split; [|split; assumption]. rewrite S3. unfold question. now rewrite (proj2 R). }
    destruct r1 as [o2|e1].
    + destruct (build _ _ _ _ _) as [r2 w]. intros H. apply pair_equal_spec in H as [H <-]. apply pair_equal_spec in H as [_ <-]. exact S'.
    + intros H. apply pair_equal_spec in H as [H <-]. apply pair_equal_spec in H as [_ <-]. exact S'.
  - intros H. apply pair_equal_spec in H as [H <-]. apply pair_equal_spec in H as [_ <-]. left. unfold quiet_step. auto.
Qed.

Lemma load_cached c k o t u tb : unparsed t -> next_answer u = Ok tb ->
  fst (fst (load c k o t u)) = fst (fst (load c k o (TParsed tb) u)) /\
  u_kernel (snd (load c k o t u)) = u_kernel (snd (load c k o (TParsed tb) u)).
Proof.
  intros U A. unfold load. destruct (bind _ _) as [[o1 fd]|e0]; [|split; reflexivity].
  unfold adapt. destruct (has_relos o1 || has_typed o1).
  - rewrite (get_unparsed t o1 u U), A. cbn [get_target]. destruct (settle k (Some tb) o1) as [o2|e]; [|split; reflexivity].
    cbn [u_kernel]. destruct (build c k fd o2 (u_kernel u)) as [r w]. split; reflexivity.
  - destruct (settle k None o1) as [o2|e]; [|split; reflexivity]. destruct (build c k fd o2 (u_kernel u)) as [r w]. split; reflexivity.
Qed.

Lemma load_all_once c k os : forall t u rs t' u', load_all c k os t u = (rs, t', u') ->
  exists n, u_btf u' = skipn n (u_btf u) /\ length (u_asked u') = (length (u_asked u) + n)%nat /\ (n <= length os)%nat /\
    (forall b, t = TParsed b -> n = 0%nat /\ t' = t) /\
    (forall i b, (i < n)%nat -> nth_error (u_btf u) i = Some (Ok b) -> n = S i /\ t' = TParsed b).
Proof.
  induction os as [|o os IH]; intros t u rs t' u' H; cbn [load_all] in H.
  - apply pair_equal_spec in H as [H <-]. apply pair_equal_spec in H as [_ <-]. exists 0%nat. split; [reflexivity|]. split; [lia|]. split; [cbn; lia|]. split; [auto|]. intros; lia.
  - destruct (load c k o t u) as [[r t1] u1] eqn:L. destruct (load_all c k os t1 u1) as [[rs2 t2] u2] eqn:M.
    apply pair_equal_spec in H as [H <-]. apply pair_equal_spec in H as [_ <-].
    destruct (IH _ _ _ _ _ M) as (n & N1 & N2 & N3 & N4 & N5). apply load_steps in L as [(-> & Q1 & Q2)|(U & _ & A1 & A2 & A3)].
    + exists n. rewrite Q1, Q2 in *. split; [exact N1|]. split; [exact N2|]. split; [cbn; lia|]. split; [exact N4|exact N5].
    + rewrite A1, app_length in N2. cbn [length] in N2. exists (S n). split; [|split; [lia|split; [cbn; lia|split]]].
      * rewrite N1, A2. destruct (u_btf u); [now rewrite skipn_nil|reflexivity].
      * intros b E. destruct (U b E).
      * intros [|i] b I E; unfold next_answer in A3.
        -- destruct (u_btf u) as [|a l]; cbn [nth_error] in E; [discriminate E|]. apply some_inj in E. subst a. destruct (N4 b A3) as [-> ->]. split; [reflexivity|exact A3].
        -- destruct (u_btf u) as [|a l] eqn:E0; cbn [nth_error] in E; [discriminate E|]. rewrite A2 in N5. cbn [tl] in N5.
           destruct (N5 i b ltac:(lia) E) as [-> ->]. split; reflexivity.
Qed.

Lemma sent_upload k o fd o1 : sent k o fd o1 -> upload k o = Ok (o1, fd).
Proof.
  intros S. unfold upload. destruct S as [N|b fd O T|b e O T B].
  - apply sane_none in N. rewrite N. reflexivity.
  - apply sane_offered in O. rewrite O. cbn [bind]. rewrite T. reflexivity.
  - apply sane_offered in O. rewrite O. cbn [bind]. rewrite T. cbn [with_btf p_progs]. change (has_relos (with_btf (Some b) o)) with (has_relos o).
    destruct (existsb _ _ || has_relos o) eqn:E; [apply blocked_b in E; destruct (B E)|reflexivity].
Qed.
Lemma load_unavailable c k o t u ms fd o1 e : configured c o ms -> sent k (with_maps ms o) fd o1 -> unparsed t -> next_answer u = Err e -> needs_target o ->
  exists u', load c k o t u = (Err (FTarget e), t, u') /\ u_kernel u' = u_kernel u.
Proof.
  intros C S U A N. unfold configured in C. unfold load. rewrite C. cbn [failing bind]. rewrite (sent_upload _ _ _ _ S).
  assert (N1 : needs_target o1).
  { inversion S; subst; destruct N as [N|(n & x & (N1 & N2 & N3) & N4)]; try (left; exact N); right; exists n, x;
      (split; [|exact N4]); (split; [|split; [exact N2|exact N3]]); try exact N1; intros X; discriminate X. }
  destruct (adapt_refused k o1 t u e N1 U A) as (u' & -> & K). exists u'. split; [reflexivity|exact K].
Qed.

Lemma sent_kinds c k o ms fd o1 e : sent k (with_maps ms o) fd o1 -> programs_of c k o fd e -> forall b n, offered k o b -> k_takes k b = Err n ->
  fd = None /\ p_relos o = [] /\ forall x, In x (e_progs e) -> ~ forced c (ld_prog x) -> ~ needs_btf (ld_kind x).
Proof.
  intros S P b n O T. assert (O' : offered k (with_maps ms o) b) by exact O.
  inversion S as [N|b' fd' Ob Tb|b' e' Ob Tb B]; subst.
  - exfalso. apply sane_none in N. apply sane_offered in O'. rewrite N in O'. discriminate O'.
  - exfalso. apply sane_offered in O', Ob. rewrite O' in Ob. apply ok_inj, some_inj in Ob. subst b'. rewrite T in Tb. discriminate Tb.
  - split; [reflexivity|]. split.
    + destruct (p_relos o) eqn:R; [reflexivity|]. exfalso. apply B. right. cbn [with_maps p_relos]. rewrite R. discriminate.
    + intros x X F K. apply B. left. exists (ld_prog x). split.
      * change (In (ld_prog x) (p_progs o)). rewrite <- (po_all _ _ _ _ _ P). now apply in_map.
      * unfold section_needs_btf. rewrite (po_kind _ _ _ _ _ P x X F). exact K.
Qed.

Lemma load_early c k o t u e t' u' : load c k o t u = (Err e, t', u') -> early e -> u_kernel u' = u_kernel u.
Proof.
  unfold load. destruct (bind _ _) as [[o1 fd]|e0].
  - destruct (adapt k o1 t u) as [[[o2|e0] t1] u1] eqn:A; destruct (adapt_step _ _ _ _ _ _ _ A) as [K _].
    + destruct (build c k fd o2 (u_kernel u1)) as [r w] eqn:B. intros H. apply pair_equal_spec in H as [H <-]. apply pair_equal_spec in H as [-> _].
      intros E. cbn [with_kernel u_kernel]. rewrite (build_early _ _ _ _ _ _ _ B E). exact K.
    + intros H _. apply pair_equal_spec in H as [H <-]. exact K.
  - intros H _. apply pair_equal_spec in H as [H <-]. reflexivity.
Qed.

Lemma suited_weak k o1 o2 : suited k None o1 o2 -> NoDup (map fst (p_externs o1)) -> Forall fresh (p_externs o1) ->
  forall n x, typed_extern o1 n x -> exists x', In (n, x') (p_externs o2) /\ xd_weak x = true /\ xd_weak x' = true /\ xd_resolved x' = false /\ xd_kernel_id x' = None /\ xd_addr x' = Some 0.
Proof.
  intros S N F n x (B & I & T). destruct (p_btf o1) as [b|] eqn:E; [|destruct (B eq_refl)].
  destruct (C63_settled _ _ _ _ _ _ N F (su_externs _ _ _ _ S b E)) as (_ & G). destruct (G n x I) as (x' & I' & W & H).
  exists x'. split; [exact I'|]. destruct (xd_type x); [|destruct (T eq_refl)].
  destruct H as [(k0 & _ & K & _)|(H1 & H2 & H3 & H4 & _)]; [discriminate K|]. rewrite W. auto.
Qed.
