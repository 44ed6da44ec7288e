(** Proofs about loading objects: maps, programs and the whole. *)
From Verif Require Import Base Text Insn PatchModel LinkModel BtfTypes BtfModel BtfExt CoreModel BtfSanitize ExternModel PinModel UtilModel TypedModel ProgModel ObjModel WholeModel WholeSpec WholeProofs4 LoaderModel LoaderSpec LoaderProofs.
Local Open Scope Z_scope.

(** * Maps *)

Lemma is_data_spec m : is_data (om_kind (snd m)) = true <-> variables m.
Proof. unfold variables. destruct (om_kind (snd m)); cbn; split; intros H; try discriminate H; try tauto; repeat (destruct H as [H|H]); discriminate H. Qed.
Lemma wanted_spec k m : wanted k m = true <-> exists_on k m.
Proof.
  unfold wanted, exists_on. rewrite orb_true_iff, negb_true_iff, <- is_data_spec. destruct (is_data (om_kind (snd m))).
  - split; [intros [H|H]; [discriminate H|auto]|intros H; right; now apply H].
  - split; [intros _ H; discriminate H|auto].
Qed.
Lemma outer_spec m : outer m = true <-> of_maps m.
Proof. unfold outer, of_maps, is_map_of_maps. now rewrite orb_true_iff, !Z.eqb_eq. Qed.

Lemma ordered_in ms m : In m (ordered ms) <-> In m ms.
Proof. unfold ordered. rewrite in_app_iff, !filter_In. destruct (outer m); cbn; intuition congruence. Qed.
Lemma NoDup_filter_map {A B} (f : A -> B) (g : A -> bool) l : NoDup (map f l) -> NoDup (map f (filter g l)).
Proof.
  induction l as [|a l IH]; [auto|]. cbn [map filter]. intros H. apply NoDup_cons_iff in H as [H1 H2].
  destruct (g a); [cbn [map]; constructor; [|auto]|auto]. intros X. apply H1. apply in_map_iff in X as (y & <- & Y). apply filter_In in Y. apply in_map. tauto.
Qed.
Lemma NoDup_same {A B} (f : A -> B) l a b : NoDup (map f l) -> In a l -> In b l -> f a = f b -> a = b.
Proof.
  induction l as [|x l IH]; [intros _ []|]. cbn [map]. intros H. apply NoDup_cons_iff in H as [H1 H2].
  intros [->|I] [->|J] E; auto; exfalso; apply H1; [rewrite E|rewrite <- E]; now apply in_map.
Qed.
Lemma ordered_nodup ms : NoDup (map fst ms) -> NoDup (map fst (ordered ms)).
Proof.
  intros H. unfold ordered. rewrite map_app.
  assert (G : forall (g h : list name), NoDup g -> NoDup h -> (forall x, In x g -> ~ In x h) -> NoDup (g ++ h)).
  { clear. induction g as [|a g IH]; [auto|]. intros h G H D. apply NoDup_cons_iff in G as [G1 G2]. cbn. constructor.
    - intros X. apply in_app_iff in X as [X|X]; [auto|exact (D a (or_introl eq_refl) X)].
    - apply IH; auto. intros x X. apply D. now right. }
  apply G; [now apply NoDup_filter_map..|]. intros x X Y. apply in_map_iff in X as (a & <- & A), Y as (b & E & B).
  apply filter_In in A as [A1 A2], B as [B1 B2]. rewrite (NoDup_same fst ms b a H B1 A1 E) in B2. rewrite B2 in A2. discriminate A2.
Qed.

Lemma sized_ok c k m pm : sized c k m = Ok pm -> (of_maps m -> exists d, om_inner (snd m) = Some d) -> created_as c k m pm.
Proof.
  unfold sized. intros H N. destruct (map_sizes _ _ _ _ _ _ _ _) as [[e v]|] eqn:S; cbn [failing bind] in H; [|discriminate H].
  apply ok_inj in H. subst pm. cbn [fst snd]. constructor; cbn [o_name o_shape o_data o_rodata o_pinned o_inner h_type h_key h_value h_entries h_flags]; try reflexivity.
  - exact S.
  - destruct (om_kind (snd m)); split; intros X; (reflexivity || discriminate X).
  - rewrite negb_true_iff, Z.eqb_neq. reflexivity.
  - split.
    + intros O. destruct (N O) as (d & D). exists d. split; [exact D|]. apply outer_spec in O. rewrite O, D. reflexivity.
    + intros O. destruct (outer m) eqn:E; [apply outer_spec in E; destruct (O E)|reflexivity].
Qed.
Lemma load_map_inner l o w id w' : PinModel.load_map l o w = (Ok id, w') -> o_inner o <> Some None.
Proof. unfold PinModel.load_map. intros H E. rewrite E in H. apply pair_equal_spec in H as [H _]. discriminate H. Qed.

Lemma make_ok c k ms w l w' : make_maps c k ms w = (Ok l, w') ->
  map mk_def l = ms /\ (forall m, In m l -> created_as c k (mk_def m) (mk_map m)) /\
  PinModel.load_maps (c_pins c) (map mk_map l) w = (Ok (map (fun m => (mk_map m, mk_fd m)) l), w').
Proof.
  revert w l w'. induction ms as [|m ms IH]; intros w l w' H; cbn [make_maps] in H.
  - apply pair_equal_spec in H as [H <-]. apply ok_inj in H. subst l. split; [reflexivity|]. split; [intros ? []|reflexivity].
  - destruct (sized c k m) as [pm|e] eqn:S; [|apply pair_equal_spec in H as [H _]; discriminate H].
    destruct (PinModel.load_map (c_pins c) pm w) as [[fd|e] w1] eqn:L; [|apply pair_equal_spec in H as [H _]; discriminate H].
    destruct (make_maps c k ms w1) as [[r|e] w2] eqn:M; [|apply pair_equal_spec in H as [H _]; discriminate H].
    apply pair_equal_spec in H as [H <-]. apply ok_inj in H. subst l. destruct (IH _ _ _ M) as (I1 & I2 & I3).
    cbn [map mk_def mk_map mk_fd]. split; [now rewrite I1|]. split.
    + intros x [<-|X]; [|exact (I2 x X)]. cbn [mk_def mk_map]. apply sized_ok; [exact S|].
      intros O. apply load_map_inner in L. unfold sized in S. destruct (map_sizes _ _ _ _ _ _ _ _); cbn [failing bind] in S; [|discriminate S]. apply ok_inj in S. subst pm.
      cbn [o_inner] in L. apply outer_spec in O. rewrite O in L. destruct (om_inner (snd m)) as [d|]; [now exists d|destruct (L eq_refl)].
    + cbn [PinModel.load_maps]. rewrite L, I3. reflexivity.
Qed.

Lemma map_def_split (l : list made) ms : map mk_def l = ordered ms ->
  exists a b, l = a ++ b /\ Forall (fun m => ~ of_maps (mk_def m)) a /\ Forall (fun m => of_maps (mk_def m)) b.
Proof.
  unfold ordered. intros H. apply map_eq_app in H as (a & b & -> & A & B). exists a, b. split; [reflexivity|]. split; apply Forall_forall; intros m M.
  - intros O. apply outer_spec in O. assert (I : In (mk_def m) (map mk_def a)) by (now apply in_map). rewrite A in I. apply filter_In in I as [_ I]. rewrite O in I. discriminate I.
  - apply outer_spec. assert (I : In (mk_def m) (map mk_def b)) by (now apply in_map). rewrite B in I. now apply filter_In in I as [_ I].
Qed.

Lemma classify_ok c ms vs : classify c ms = Ok vs -> map fst vs = ms /\ forall m v, In (m, v) vs -> parse_map (o_shape (mk_map m)) (c_allow c) = Ok v.
Proof.
  unfold classify. revert vs. induction ms as [|m ms IH]; intros vs H; cbn [mapM] in H.
  - apply ok_inj in H. subst. split; [reflexivity|intros ? ? []].
  - destruct (parse_map (o_shape (mk_map m)) (c_allow c)) as [v|e] eqn:P; cbn [failing bind] in H; [|discriminate H].
    destruct (mapM _ ms) as [r|e] eqn:M; cbn [bind] in H; [|discriminate H]. apply ok_inj in H. subst vs. destruct (IH _ eq_refl) as [I1 I2].
    cbn [map fst]. split; [now rewrite I1|]. intros m' v' [E|I]; [|exact (I2 _ _ I)]. apply pair_equal_spec in E as [<- <-]. exact P.
Qed.

(** * Programs *)

Lemma pair_fst ps fs l : pair_programs ps fs = Ok l -> map fst l = ps.
Proof.
  unfold pair_programs. revert l. induction ps as [|p ps IH]; intros l H; cbn [mapM] in H.
  - apply ok_inj in H. now subst.
  - destruct (lookup_fun fs (pg_index p) (pg_addr p)) as [f|]; cbn [bind] in H; [|discriminate H].
    destruct (mapM _ ps) as [r|e] eqn:M; cbn [bind] in H; [|discriminate H]. apply ok_inj in H. subst l. cbn [map fst]. now rewrite (IH _ eq_refl).
Qed.
Lemma finish_fst o maps probe l : finish o maps probe = Ok l -> map fst l = ob_progs o.
Proof. unfold finish. destruct (relocate_object o maps probe) as [fs|e]; cbn [bind]; [|intros H; discriminate H]. apply pair_fst. Qed.

Lemma forced_spec c p : existsb (str_eqb (pg_name p)) (c_ext c) = true <-> forced c p.
Proof.
  unfold forced. rewrite existsb_exists. split.
  - intros (n & I & E). apply str_eqb_eq in E. now subst.
  - intros I. exists (pg_name p). split; [exact I|]. now apply str_eqb_eq.
Qed.
Lemma dress_programs c k o fd l vs : map fst l = p_progs o -> programs_of c k o fd {| e_maps := vs; e_progs := map (dress c k fd) l |}.
Proof.
  intros H. assert (D : forall x, In x (map (dress c k fd) l) -> exists pf, x = dress c k fd pf) by (intros x X; apply in_map_iff in X as (pf & <- & _); now exists pf).
  constructor; cbn [e_progs].
  - rewrite map_map. exact H.
  - intros x X. destruct (D x X) as (pf & ->). reflexivity.
  - intros x X F. destruct (D x X) as (pf & ->). cbn [dress ld_prog] in F. apply forced_spec in F. unfold dress. rewrite F. split; reflexivity.
  - intros x X F. destruct (D x X) as (pf & ->). cbn [dress ld_prog] in F. unfold dress. cbn [ld_prog ld_kind ld_flags].
    destruct (existsb (str_eqb (pg_name (fst pf))) (c_ext c)) eqn:E; [apply forced_spec in E; destruct (F E)|]. apply surjective_pairing.
  - intros x X. destruct (D x X) as (pf & ->). reflexivity.
  - intros x X. destruct (D x X) as (pf & ->). reflexivity.
Qed.

Lemma build_ok c k fd o w e w' : build c k fd o w = (Ok e, w') ->
  maps_of c k (p_maps o) e w w' /\ programs_of c k o fd e /\ code_complete k o e.
Proof.
  unfold build. destruct (typed_maps _) as [[]|e0]; [|intros H; apply pair_equal_spec in H as [H _]; discriminate H].
  destruct (make_maps c k _ w) as [[ms|e0] w1] eqn:M; [|intros H; apply pair_equal_spec in H as [H _]; discriminate H].
  intros H. apply pair_equal_spec in H as [H <-].
  destruct (finish (whole o) (map info_of ms) (k_probe k)) as [l|e0] eqn:F; cbn [failing bind] in H; [|discriminate H].
  destruct (classify c ms) as [vs|e0] eqn:C; cbn [bind] in H; [|discriminate H]. apply ok_inj in H. subst e.
  destruct (make_ok _ _ _ _ _ _ M) as (M1 & M2 & M3). destruct (classify_ok _ _ _ C) as [C1 C2]. split; [|split].
  - constructor; cbn [e_maps]; rewrite ?C1.
    + intros m. rewrite M1, ordered_in, filter_In, wanted_spec. reflexivity.
    + intros N. rewrite M1. apply ordered_nodup. now apply NoDup_filter_map.
    + exact (map_def_split _ _ M1).
    + exact M2.
    + exact M3.
    + exact C2.
  - apply dress_programs. exact (finish_fst _ _ _ _ F).
  - unfold code_complete. cbn [e_maps e_progs]. rewrite C1. change (map told ms) with (map info_of ms).
    change (code_of_object o) with (whole o).
    intros W K N S x X B. apply in_map_iff in X as (pf & <- & X). destruct pf as [p f'].
    destruct (finish_complete (whole o) (map info_of ms) W K N S (k_probe k) l F) as [_ G]. exact (G p f' X B).
Qed.

Lemma build_early c k fd o w e w' : build c k fd o w = (Err e, w') -> early e -> w' = w.
Proof.
  unfold build. destruct (typed_maps _) as [[]|e0]; [|intros H; apply pair_equal_spec in H as [_ H]; now intros].
  destruct (make_maps c k _ w) as [[ms|e0] w1] eqn:M.
  - intros H. apply pair_equal_spec in H as [H _].
    destruct (finish _ _ _) as [l|e1]; cbn [failing bind] in H; [|injection H as <-; intros []].
    destruct (classify c ms) as [vs|e1] eqn:C; cbn [bind] in H; [discriminate H|]. injection H as <-.
    unfold classify in C. apply mapM_err in C as (m & _ & C). destruct (parse_map _ _); cbn [failing bind] in C; [discriminate C|injection C as <-; intros []].
  - intros H. apply pair_equal_spec in H as [H <-]. injection H as <-. intros E. exfalso. clear -M E. revert w w1 M.
    induction (ordered _) as [|m ms IH]; intros w w1 M; cbn [make_maps] in M; [discriminate M|].
    destruct (sized c k m) as [pm|e1] eqn:S.
    + destruct (PinModel.load_map _ _ _) as [[fd'|e1] w2]; [|apply pair_equal_spec in M as [M _]; injection M as <-; destruct E].
      destruct (make_maps c k ms w2) as [[r|e1] w3] eqn:M2; apply pair_equal_spec in M as [M _]; [discriminate M|injection M as <-]. exact (IH _ _ M2).
    + apply pair_equal_spec in M as [M _]. injection M as <-. unfold sized in S. destruct (map_sizes _ _ _ _ _ _ _ _); cbn [failing bind] in S; [discriminate S|injection S as <-; destruct E].
Qed.
