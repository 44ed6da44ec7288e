(** Proofs about BTF map definitions. *)
From Coq Require Import String Permutation.
From Verif Require Import Base Text Insn LinkModel BtfTypes BtfModel ObjModel ObjSpec ObjProofs ObjProofs3.
Local Open Scope Z_scope.

(** Maps of a section: what is accepted. *)
Lemma mapM_forall {A B E} (f : A -> res E B) l : (forall x, In x l -> exists y, f x = Ok y) -> exists r, mapM f l = Ok r.
Proof.
  induction l as [|x l IH]; intros H; cbn [mapM]; [eauto|]. destruct (H x (or_introl eq_refl)) as [y ->]. cbn [bind].
  destruct IH as [r ->]; [intros z I; apply H; now right|]. cbn [bind]. eauto.
Qed.

(** The shape of each field's effect. *)
Definition ev (f : field) (v w : Z) (d : mapdef) (st : mstate) : mstate :=
  let on g := (g (fst st), snd st) in
  match f with
  | FType => on (set_type v)
  | FKeySize => on (set_key v)
  | FValueSize => on (set_value v)
  | FEntries => on (set_entries v)
  | FFlags => on (set_flags v)
  | FExtra => on (set_extra v)
  | FKey => on (fun x => set_key_id w (set_key v x))
  | FValue => on (fun x => set_value_id w (set_value v x))
  | FPinning => on (set_pin v)
  | FValues => (set_value 4 (fst st), Some d)
  end.
Lemma effect_form inner b f id g : field_effect inner b f id = Ok g -> exists v w d, forall st, g st = ev f v w d st.
Proof.
  unfold field_effect. destruct f.
  1,3,5,6,7,8: destruct (get_map_field b id) as [v|]; [|discriminate]; cbn [bind]; intros H; apply ok_inj in H; subst g; exists v, 0, mapdef0; reflexivity.
  1,2: destruct (pointee b id) as [[v w]|]; [|discriminate]; cbn [bind fst snd]; intros H; apply ok_inj in H; subst g; exists v, w, mapdef0; reflexivity.
  - destruct inner; [|discriminate]. destruct (get_map_field b id) as [v|]; [|discriminate]; cbn [bind]; intros H; apply ok_inj in H; subst g.
    exists (if v =? 1 then 1 else 0), 0, mapdef0. reflexivity.
  - destruct inner as [p|]; [|discriminate]. destruct (inner_members b id) as [ms|]; [|discriminate]. cbn [bind].
    destruct (p ms) as [d|]; [|discriminate]. cbn [bind]. intros H; apply ok_inj in H; subst g. exists 0, 0, d. reflexivity.
Qed.
Lemma ev_comm f f' v w d v' w' d' st : clash f f' = false -> ev f v w d (ev f' v' w' d' st) = ev f' v' w' d' (ev f v w d st).
Proof. destruct f, f'; intros C; try discriminate C; reflexivity. Qed.

(** The effect of a member. *)
Lemma member_form inner b m g : map_member inner b m = Ok g ->
  (field_of_member b m = None /\ (forall st, g st = st)) \/
  (exists f v w d, field_of_member b m = Some f /\ field_effect inner b f (m_type m) = Ok g /\ forall st, g st = ev f v w d st).
Proof.
  unfold map_member, field_of_member. destruct (string_at b (m_name m)) as [n|]; [|discriminate]. cbn [liftb bind].
  destruct (assoc str_eqb n field_names) as [f|].
  - intros H. right. destruct (effect_form _ _ _ _ _ H) as (v & w & d & E). exists f, v, w, d. auto.
  - intros H. apply ok_inj in H. subst g. left. auto.
Qed.
Definition run_all (gs : list (mstate -> mstate)) (st : mstate) : mstate := fold_left (fun st g => g st) gs st.
Lemma members_mapM inner b ms : forall st, map_members inner b ms st = bind (mapM (map_member inner b) ms) (fun gs => Ok (run_all gs st)).
Proof.
  induction ms as [|m ms IH]; intros st; cbn [map_members mapM]; [reflexivity|].
  destruct (map_member inner b m) as [g|]; [|reflexivity]. cbn [bind]. rewrite IH. destruct (mapM (map_member inner b) ms); reflexivity.
Qed.

Lemma mapM_perm {A B E} (f : A -> res E B) l l' r : Permutation l l' -> mapM f l = Ok r -> exists r', mapM f l' = Ok r' /\ Permutation (combine l r) (combine l' r').
Proof.
  intros P. revert r. induction P as [|x l l' P IH|x y l|l l' l'' P1 IH1 P2 IH2]; intros r; cbn [mapM].
  - intros H. exists []. split; [reflexivity|constructor].
  - destruct (f x) as [a|]; [|discriminate]. cbn [bind]. destruct (mapM f l) as [q|]; [|discriminate]. cbn [bind]. intros H. apply ok_inj in H. subst r.
    destruct (IH q eq_refl) as (q' & -> & Q). cbn [bind]. exists (a :: q'). split; [reflexivity|]. cbn [combine]. now constructor.
  - destruct (f y) as [a|]; [|discriminate]. cbn [bind]. destruct (f x) as [c|]; [|discriminate]. cbn [bind].
    destruct (mapM f l) as [q|]; [|discriminate]. cbn [bind]. intros H. apply ok_inj in H. subst r. exists (c :: a :: q). split; [reflexivity|].
    cbn [combine]. apply perm_swap.
  - intros H. destruct (IH1 r H) as (r1 & H1 & Q1). destruct (IH2 r1 H1) as (r2 & H2 & Q2). exists r2. split; [exact H2|]. now transitivity (combine l' r1).
Qed.

(** Pairs of members and effects; pairwise commuting effects may be run in any order. *)
Definition pair_comm (x y : member * (mstate -> mstate)) : Prop := forall st, snd x (snd y st) = snd y (snd x st).
Lemma run_perm l l' : Permutation l l' -> ForallOrdPairs pair_comm l -> forall st, run_all (map snd l) st = run_all (map snd l') st.
Proof.
  intros P. unfold run_all. induction P as [|x l l' P IH|x y l|l l' l'' P1 IH1 P2 IH2]; intros C st; cbn [map fold_left]; auto.
  - inversion C. subst. now apply IH.
  - inversion C as [|? ? C1 C2]. inversion C1 as [|? ? C3 C4]. subst. now rewrite (C3 st).
  - rewrite IH1 by assumption. apply IH2. eapply pairs_perm; [|exact P1|exact C]. intros a c H s. symmetry. apply H.
Qed.
Lemma combine_snd {A B} (l : list A) (r : list B) : length l = length r -> map snd (combine l r) = r.
Proof. revert r. induction l as [|x l IH]; intros [|y r] H; try discriminate; [reflexivity|]. cbn. f_equal. apply IH. now injection H. Qed.
Lemma mapM_length {A B E} (f : A -> res E B) l r : mapM f l = Ok r -> length l = length r.
Proof. intros H. apply mapM_ok in H. induction H; cbn; congruence. Qed.
Lemma combine_comm inner b ms gs : mapM (map_member inner b) ms = Ok gs -> clash_free b ms -> ForallOrdPairs pair_comm (combine ms gs).
Proof.
  intros H. apply mapM_ok in H. induction H as [|m g ms gs H1 H2 IH]; intros C; cbn [combine]; [constructor|].
  inversion C as [|? ? C1 C2]. subst. constructor; [|now apply IH].
  apply Forall_forall. intros [m' g'] I. pose proof (in_combine_l _ _ _ _ I) as I1.
  rewrite Forall_forall in C1. specialize (C1 m' I1).
  assert (map_member inner b m' = Ok g') as H1'.
  { clear - H2 I. induction H2 as [|a c ms gs E _ IH]; [destruct I|]. cbn [combine] in I. destruct I as [I|I]; [injection I as -> ->; exact E|now apply IH]. }
  unfold pair_comm. cbn [snd]. intros st.
  destruct (member_form _ _ _ _ H1) as [[_ G]|(f & v & w & d & F & _ & G)]; [now rewrite !G|].
  destruct (member_form _ _ _ _ H1') as [[_ G']|(f' & v' & w' & d' & F' & _ & G')]; [now rewrite !G'|].
  rewrite (G (g' st)), (G' st), (G' (g st)), (G st). apply ev_comm. now apply C1.
Qed.
Lemma members_perm inner b ms ms' st r : clash_free b ms -> Permutation ms ms' -> map_members inner b ms st = Ok r -> map_members inner b ms' st = Ok r.
Proof.
  intros C P. rewrite !members_mapM. destruct (mapM (map_member inner b) ms) as [gs|] eqn:M; [|discriminate]. cbn [bind]. intros H. apply ok_inj in H. subst r.
  destruct (mapM_perm _ _ _ _ P M) as (gs' & M' & Q). rewrite M'. cbn [bind]. f_equal.
  pose proof (run_perm _ _ Q (combine_comm _ _ _ _ M C) st) as R.
  rewrite !combine_snd in R by (now apply mapM_length in M, M'). now symmetry.
Qed.
Lemma clash_free_perm b ms ms' : Permutation ms ms' -> clash_free b ms -> clash_free b ms'.
Proof.
  apply pairs_perm. intros m m' H f g F G. specialize (H g f G F). destruct f, g; auto.
Qed.
Lemma struct_perm b ms ms' : clash_free b ms -> Permutation ms ms' -> forall r, map_struct b ms = Ok r <-> map_struct b ms' = Ok r.
Proof.
  intros C P r. unfold map_struct. split; apply members_perm; auto.
  - eapply clash_free_perm; eassumption.
  - now apply Permutation_sym.
Qed.
Lemma inner_perm b ms ms' : clash_free b ms -> Permutation ms ms' -> forall r, inner_def b ms = Ok r <-> inner_def b ms' = Ok r.
Proof.
  intros C P r. unfold inner_def.
  assert (forall x y, clash_free b x -> Permutation x y -> bind (map_members None b x (mapdef0, None)) (fun st => Ok (fst st)) = Ok r ->
     bind (map_members None b y (mapdef0, None)) (fun st => Ok (fst st)) = Ok r) as K.
  { intros x y Cx Pxy. destruct (map_members None b x (mapdef0, None)) as [st|] eqn:M; [|discriminate]. cbn [bind]. intros H. now rewrite (members_perm _ _ _ _ _ _ Cx Pxy M). }
  split; apply K; auto.
  - eapply clash_free_perm; eassumption.
  - now apply Permutation_sym.
Qed.

(** What a field decides. *)
Definition seen (f : field) (st : mstate) : Z * Z * option mapdef :=
  match f with
  | FType => (md_type (fst st), 0, None)
  | FKeySize => (md_key (fst st), 0, None)
  | FKey => (md_key (fst st), md_key_id (fst st), None)
  | FValueSize => (md_value (fst st), 0, None)
  | FValue => (md_value (fst st), md_value_id (fst st), None)
  | FEntries => (md_entries (fst st), 0, None)
  | FFlags => (md_flags (fst st), 0, None)
  | FExtra => (md_extra (fst st), 0, None)
  | FPinning => (md_pin (fst st), 0, None)
  | FValues => (md_value (fst st), 0, snd st)
  end.
Lemma seen_other f f' v w d st : clash f f' = false -> seen f (ev f' v w d st) = seen f st.
Proof. destruct f, f'; intros C; try discriminate C; reflexivity. Qed.
Lemma seen_own f v w d st st' : seen f (ev f v w d st) = seen f (ev f v w d st').
Proof. destruct f; reflexivity. Qed.
Lemma run_seen inner b f ms gs : mapM (map_member inner b) ms = Ok gs ->
  (forall m f', In m ms -> field_of_member b m = Some f' -> clash f f' = false) -> forall st, seen f (run_all gs st) = seen f st.
Proof.
  intros H. apply mapM_ok in H. unfold run_all. induction H as [|m g ms gs H1 _ IH]; intros C st; cbn [fold_left]; [reflexivity|].
  rewrite IH by (intros; eapply C; [right|]; eassumption).
  destruct (member_form _ _ _ _ H1) as [[_ G]|(f' & v & w & d & F & _ & G)]; rewrite G; [reflexivity|].
  apply seen_other. eapply C; [now left|exact F].
Qed.
Lemma clash_sym f g : clash f g = clash g f.
Proof. destruct f, g; reflexivity. Qed.
Lemma members_field inner b ms st r m f g : clash_free b ms -> map_members inner b ms st = Ok r -> In m ms ->
  field_of_member b m = Some f -> field_effect inner b f (m_type m) = Ok g -> seen f r = seen f (g st).
Proof.
  intros C H I F E. rewrite members_mapM in H. destruct (mapM (map_member inner b) ms) as [gs|] eqn:M; [|discriminate]. cbn [bind] in H. apply ok_inj in H. subst r.
  revert gs st M C I. induction ms as [|m' ms IH]; intros gs st M C I; [destruct I|]. cbn [mapM] in M.
  destruct (map_member inner b m') as [g'|] eqn:M'; [|discriminate]. cbn [bind] in M.
  destruct (mapM (map_member inner b) ms) as [gs'|] eqn:MS; [|discriminate]. cbn [bind] in M. apply ok_inj in M. subst gs.
  inversion C as [|? ? C1 C2]. subst. unfold run_all. cbn [fold_left]. fold (run_all gs' (g' st)).
  destruct (effect_form _ _ _ _ _ E) as (v & w & d & G).
  destruct I as [->|I].
  - rewrite (run_seen inner b f ms gs' MS).
    + destruct (member_form _ _ _ _ M') as [[X _]|(f' & v' & w' & d' & X & E' & G')]; [congruence|]. rewrite F in X. apply some_inj in X. subst f'.
      rewrite E in E'. apply ok_inj in E'. now subst g'.
    + intros m0 f' I0 F'. rewrite Forall_forall in C1. eapply C1; eassumption.
  - rewrite (IH gs' (g' st) eq_refl C2 I). rewrite !G. apply seen_own.
Qed.
Lemma members_default inner b ms st r f : map_members inner b ms st = Ok r ->
  (forall m f', In m ms -> field_of_member b m = Some f' -> clash f f' = false) -> seen f r = seen f st.
Proof.
  intros H C. rewrite members_mapM in H. destruct (mapM (map_member inner b) ms) as [gs|] eqn:M; [|discriminate]. cbn [bind] in H. apply ok_inj in H. subst r.
  now apply run_seen with (1 := M).
Qed.

(** Unknown fields play no part. *)
Definition known (b : btf) (m : member) : bool := match field_of_member b m with Some _ => true | None => false end.
Lemma members_unknown inner b ms : (forall m, In m ms -> exists n, string_at b (m_name m) = Ok n) ->
  forall st, map_members inner b (filter (known b) ms) st = map_members inner b ms st.
Proof.
  induction ms as [|m ms IH]; intros N st; cbn [filter map_members]; [reflexivity|].
  assert (forall st, map_members inner b (filter (known b) ms) st = map_members inner b ms st) as IH' by (apply IH; intros; apply N; now right).
  destruct (known b m) eqn:K.
  - cbn [map_members]. destruct (map_member inner b m); [cbn [bind]; apply IH'|reflexivity].
  - rewrite IH'. unfold known, field_of_member in K. unfold map_member. destruct (N m (or_introl eq_refl)) as [n E]. rewrite E in *. cbn [liftb bind].
    destruct (assoc str_eqb n field_names); [discriminate|]. reflexivity.
Qed.
