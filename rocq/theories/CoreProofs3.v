(** Proofs about access strings and field matching: offsets follow the layout. *)
From Verif Require Import Base Text Insn LinkModel BtfTypes BtfModel BtfExt CoreModel CoreSpec CoreProofs CoreProofs2.
Local Open Scope Z_scope.

Lemma u64_add_l a b : u64 (u64 a + b) = u64 (a + b).
Proof. unfold u64, wrap. rewrite Zplus_mod_idemp_l. reflexivity. Qed.
Lemma u64_add_r a b : u64 (a + u64 b) = u64 (a + b).
Proof. unfold u64, wrap. rewrite Zplus_mod_idemp_r. reflexivity. Qed.
Lemma u64_mul_l a b : u64 (u64 a * b) = u64 (a * b).
Proof. unfold u64, wrap. rewrite Zmult_mod_idemp_l. reflexivity. Qed.

(** Fields found in the target. *)
Definition go_ok (tb : btf) (lname : list Z) (id : Z) (sp : spec) (r : option Z * spec) : Prop :=
  match fst r with
  | None => snd r = sp
  | Some next => exists off, field_of tb lname id off next /\ sp_bit (snd r) = u64 (sp_bit sp + off) /\
      sp_root (snd r) = sp_root sp
  end.

Lemma member_loop_sound rec lb tb lname ltype tid rid info ty all :
  (forall t sp r, rec t sp = Ok r -> go_ok tb lname t sp r) ->
  forall id ms i sp r, resolve_type (b_types tb) id = Ok rid -> type_by_id (b_types tb) rid = Ok ty ->
  members_of ty = Some (info, all) -> incl ms all ->
  member_loop rec lb tb lname ltype tid info ms i sp = Ok r -> go_ok tb lname id sp r.
Proof.
  intros Hrec id ms. induction ms as [|m ms IH]; intros i sp r R1 R2 R3 Hin H; cbn [member_loop] in H.
  - apply ok_inj in H. subst r. reflexivity.
  - destruct (_ =? _)%nat in H; [discriminate|]. apply bind_lift_ok in H as (tn & En & H).
    assert (In m all) as Hm by (apply Hin; now left).
    assert (incl ms all) as Hms by (intros z Hz; apply Hin; now right).
    destruct tn as [|c tn].
    + apply bind_ok in H as (q & Eq & H). specialize (Hrec _ _ _ Eq). unfold go_ok in Hrec.
      destruct (fst q) as [next|] eqn:F.
      * apply ok_inj in H. subst r. destruct Hrec as (off & P1 & P2 & P3). unfold go_ok. cbn [fst snd].
        exists (member_bit_offset info m + off). split; [|split].
        -- eapply field_inner; eauto.
        -- cbn [push_part add_bit sp_bit]. rewrite P2, u64_add_l. f_equal. lia.
        -- exact P3.
      * rewrite Hrec in H. eapply IH; eauto.
    + destruct (str_eqb lname (c :: tn)) eqn:Es.
      * apply str_eqb_eq in Es. apply bind_lift_ok in H as (cc & _ & H). destruct cc; apply ok_inj in H; subst r.
        -- unfold go_ok. cbn [fst snd]. exists (member_bit_offset info m). split; [|split; reflexivity].
           eapply field_here; eauto; [now rewrite Es|rewrite Es; discriminate].
        -- reflexivity.
      * eapply IH; eauto.
Qed.

Lemma match_member_go_sound stack : forall lb tb lname ltype tid sp r,
  match_member_go stack lb tb lname ltype tid sp = Ok r -> go_ok tb lname tid sp r.
Proof.
  induction stack as [|stack IH]; intros lb tb lname ltype tid sp r H; cbn [match_member_go] in H; [discriminate|].
  apply bind_lift_ok in H as (rid & R1 & H). apply bind_lift_ok in H as (ty & R2 & H).
  destruct (members_of ty) as [[info ms]|] eqn:R3; [|apply ok_inj in H; subst r; reflexivity].
  eapply (member_loop_sound _ lb tb lname ltype); [|exact R1|exact R2|exact R3|apply incl_refl|exact H].
  intros t sp' r' H'. eapply IH; eauto.
Qed.

(** Local accessors carry the name of the member they point at. *)
Definition acc_ok (lb : btf) (a : accessor) : Prop :=
  forall n, ac_name a = Some n -> exists ty info ms m, type_by_id (b_types lb) (ac_type a) = Ok ty /\
    members_of ty = Some (info, ms) /\ zget (ac_index a) ms = Some m /\ string_at lb (m_name m) = Ok n.

Lemma match_member_sound stack lb tb a n tid sp r : acc_ok lb a -> ac_name a = Some n ->
  match_member stack lb tb a tid sp = Ok r -> go_ok tb n tid sp r.
Proof.
  intros Ha Hn H. destruct (Ha n Hn) as (ty & info & ms & m & E1 & E2 & E3 & E4).
  unfold match_member in H. rewrite E1 in H. cbn [lift bind] in H. rewrite E2, E3, E4 in H. cbn [lift bind] in H.
  eapply match_member_go_sound; eauto.
Qed.

Lemma resolve_idem ts id rid : resolve_type ts id = Ok rid -> resolve_type ts rid = Ok rid.
Proof.
  unfold resolve_type, MAX_RESOLVE_DEPTH.
  assert (forall fuel root i r, resolve_loop fuel ts root i = Ok r ->
            exists t, type_by_id ts r = Ok t /\ modifier t = None) as H.
  { induction fuel as [|fuel IH]; intros root i r H; [discriminate|]. cbn [resolve_loop] in H.
    apply bind_ok in H as (t & Et & H). destruct (modifier t) eqn:Em; [eapply IH; eauto|].
    apply ok_inj in H. subst. eauto. }
  intros E. destruct (H _ _ _ _ E) as (t & E1 & E2). generalize 31%nat. intros f. cbn [resolve_loop]. rewrite E1. cbn [bind]. now rewrite E2.
Qed.

Lemma u64_idem x : u64 (u64 x) = u64 x.
Proof. unfold u64, wrap. apply Z.mod_mod. lia. Qed.

Lemma match_index_sound tb first a tid sp next sp' : match_index tb first a tid sp = Ok (Some (next, sp')) ->
  exists size, type_size (b_types tb) next = Ok size /\ sp_bit sp' = u64 (sp_bit sp + ac_index a * size * 8) /\
    sp_root sp' = sp_root sp /\
    if first then next = tid
    else exists h elem idx len, type_by_id (b_types tb) tid = Ok (TArray h elem idx len) /\
           resolve_type (b_types tb) elem = Ok next.
Proof.
  unfold match_index. rewrite bind_ok. intros (r & E & H). destruct r as [id|]; [|discriminate].
  destruct (_ =? _)%nat in H; [discriminate|]. apply bind_lift_ok in H as (size & Es & H).
  apply ok_inj in H. inversion H; subst id sp'; clear H. exists size. split; [exact Es|].
  cbn [add_bit push_acc push_part sp_bit sp_root]. split; [now rewrite u64_add_r, <- u64_add_r, u64_mul_l, u64_add_r|].
  split; [reflexivity|]. destruct first; [now inversion E|].
  apply bind_lift_ok in E as (ty & Et & E). destruct ty; try discriminate.
  apply bind_ok in E as (v & _ & E). destruct (negb v && (len <=? ac_index a)); [discriminate|].
  apply bind_lift_ok in E as (id & Ei & E). inversion E; subst. eauto 8.
Qed.

Lemma match_fields_sound stack lb tb : forall acc tid sp ts, Forall (acc_ok lb) acc -> u64 (sp_bit sp) = sp_bit sp ->
  match_fields stack lb tb false acc tid sp = Ok (Some ts) ->
  exists off, path tb (map step_of acc) tid off /\ sp_bit ts = u64 (sp_bit sp + off) /\ sp_root ts = sp_root sp.
Proof.
  induction acc as [|a acc IH]; intros tid sp ts Hok Hu H; cbn [match_fields] in H.
  - apply ok_inj in H. inversion H; subst ts. exists 0. split; [constructor|]. rewrite Z.add_0_r. auto.
  - inversion Hok as [|? ? Ha Hacc]; subst. apply bind_lift_ok in H as (rid & R1 & H). cbn [map].
    destruct (ac_name a) as [n|] eqn:En.
    + apply bind_ok in H as (r & Er & H). pose proof (match_member_sound _ _ _ _ _ _ _ _ Ha En Er) as G.
      unfold go_ok in G. destruct (fst r) as [next|]; [|discriminate]. destruct G as (off & G1 & G2 & G3).
      destruct (IH _ _ _ Hacc ltac:(rewrite G2; apply u64_idem) H) as (o & P1 & P2 & P3).
      exists (off + o). split; [|split].
      * unfold step_of at 1. rewrite En. eapply path_field; eauto.
      * rewrite P2, G2, u64_add_l. f_equal. lia.
      * congruence.
    + apply bind_ok in H as (r & Er & H). destruct r as [[next sp']|]; [|discriminate].
      destruct (match_index_sound _ _ _ _ _ _ _ Er) as (size & S1 & S2 & S3 & h & elem & idx & len & S4 & S5).
      destruct (IH _ _ _ Hacc ltac:(rewrite S2; apply u64_idem) H) as (o & P1 & P2 & P3).
      exists (ac_index a * size * 8 + o). split; [|split].
      * unfold step_of at 1. rewrite En. eapply path_index; eauto.
      * rewrite P2, S2, u64_add_l. f_equal. lia.
      * congruence.
Qed.

(** The local side. *)
Lemma access_step_acc b w i w' : access_step b w i = Ok w' -> Forall (acc_ok b) (w_acc w) -> Forall (acc_ok b) (w_acc w').
Proof.
  unfold access_step. rewrite bind_lift_ok. intros (id & R1 & H) Hf. apply bind_lift_ok in H as (ty & R2 & H).
  assert (forall info ms m, members_of ty = Some (info, ms) -> zget i ms = Some m ->
    bind (if m_name m =? 0 then Ok (w_acc w) else bind (lift (string_at b (m_name m))) (fun n =>
       Ok (w_acc w ++ [{| ac_type := id; ac_index := i; ac_name := Some n |}]))) (fun acc =>
       Ok {| w_type := m_type m; w_acc := acc; w_bit := u64 (w_bit w + member_bit_offset info m) |}) = Ok w' ->
    Forall (acc_ok b) (w_acc w')) as S.
  { intros info ms m E1 E2 G. apply bind_ok in G as (acc & Ea & G). apply ok_inj in G. subst w'. cbn [w_acc].
    destruct (m_name m =? 0); [inversion Ea; now subst|]. apply bind_lift_ok in Ea as (n & En & Ea).
    apply ok_inj in Ea. subst acc. apply Forall_app. split; [exact Hf|]. constructor; [|constructor].
    intros n' E'. cbn in E'. inversion E'; subst n'. exists ty, info, ms, m. auto. }
  destruct ty; try discriminate; cbn [members_of] in *.
  - apply bind_lift_ok in H as (eid & R3 & H). apply bind_ok in H as (v & _ & H).
    destruct (negb v && (len <=? i)); [discriminate|]. apply bind_lift_ok in H as (size & _ & H).
    apply ok_inj in H. subst w'. apply Forall_app. split; [exact Hf|]. constructor; [|constructor]. intros n E. discriminate.
  - destruct (zget i members) as [m|] eqn:Z; [|discriminate]. eapply S; eauto.
  - destruct (zget i members) as [m|] eqn:Z; [|discriminate]. eapply S; eauto.
Qed.

Lemma access_walk_acc b parts : forall w w', access_walk b w parts = Ok w' -> Forall (acc_ok b) (w_acc w) -> Forall (acc_ok b) (w_acc w').
Proof.
  induction parts as [|i parts IH]; intros w w' H Hf; cbn [access_walk] in H; [inversion H; now subst|].
  apply bind_ok in H as (w1 & E & H). eapply IH; eauto. eapply access_step_acc; eauto.
Qed.

Lemma access_step_head b w i w' : access_step b w i = Ok w' -> exists l, w_acc w' = w_acc w ++ l.
Proof.
  unfold access_step. rewrite bind_lift_ok. intros (id & R1 & H). apply bind_lift_ok in H as (ty & R2 & H).
  assert (forall info m,
    bind (if m_name m =? 0 then Ok (w_acc w) else bind (lift (string_at b (m_name m))) (fun n =>
       Ok (w_acc w ++ [{| ac_type := id; ac_index := i; ac_name := Some n |}]))) (fun acc =>
       Ok {| w_type := m_type m; w_acc := acc; w_bit := u64 (w_bit w + member_bit_offset info m) |}) = Ok w' ->
    exists l, w_acc w' = w_acc w ++ l) as S.
  { intros info m G. apply bind_ok in G as (acc & Ea & G). apply ok_inj in G. subst w'. cbn [w_acc].
    destruct (m_name m =? 0); [inversion Ea; subst; exists []; now rewrite app_nil_r|].
    apply bind_lift_ok in Ea as (n & En & Ea). apply ok_inj in Ea. subst acc. eauto. }
  destruct ty; try discriminate; cbn [members_of] in *.
  - apply bind_lift_ok in H as (eid & R3 & H). apply bind_ok in H as (v & _ & H).
    destruct (negb v && (len <=? i)); [discriminate|]. apply bind_lift_ok in H as (size & _ & H).
    apply ok_inj in H. subst w'. cbn [w_acc]. eauto.
  - destruct (zget i members) as [m|] eqn:Z; [|discriminate]. eapply S; eauto.
  - destruct (zget i members) as [m|] eqn:Z; [|discriminate]. eapply S; eauto.
Qed.
Lemma access_walk_head b parts : forall w w', access_walk b w parts = Ok w' -> exists l, w_acc w' = w_acc w ++ l.
Proof.
  induction parts as [|i parts IH]; intros w w' H; cbn [access_walk] in H.
  - inversion H; subst. exists []. now rewrite app_nil_r.
  - apply bind_ok in H as (w1 & E & H). destruct (access_step_head _ _ _ _ E) as (l1 & E1).
    destruct (IH _ _ H) as (l2 & E2). exists (l1 ++ l2). now rewrite E2, E1, app_assoc.
Qed.

Lemma access_step_bit b w i w' : access_step b w i = Ok w' -> exists o,
  w_bit w' = u64 (w_bit w + o) /\ forall steps p, ipath b steps (w_type w') p -> ipath b (i :: steps) (w_type w) (o + p).
Proof.
  unfold access_step. rewrite bind_lift_ok. intros (id & R1 & H). apply bind_lift_ok in H as (ty & R2 & H).
  assert (forall info ms m, members_of ty = Some (info, ms) -> zget i ms = Some m ->
    bind (if m_name m =? 0 then Ok (w_acc w) else bind (lift (string_at b (m_name m))) (fun n =>
       Ok (w_acc w ++ [{| ac_type := id; ac_index := i; ac_name := Some n |}]))) (fun acc =>
       Ok {| w_type := m_type m; w_acc := acc; w_bit := u64 (w_bit w + member_bit_offset info m) |}) = Ok w' ->
    exists o, w_bit w' = u64 (w_bit w + o) /\ forall steps p, ipath b steps (w_type w') p -> ipath b (i :: steps) (w_type w) (o + p)) as S.
  { intros info ms m E1 E2 G. apply bind_ok in G as (acc & Ea & G). apply ok_inj in G. subst w'. cbn [w_bit w_type].
    eexists. split; [reflexivity|]. intros steps p Hp. eapply ipath_member; eauto. }
  destruct ty; try discriminate; cbn [members_of] in *.
  - apply bind_lift_ok in H as (eid & R3 & H). apply bind_ok in H as (v & _ & H).
    destruct (negb v && (len <=? i)); [discriminate|]. apply bind_lift_ok in H as (size & R4 & H).
    apply ok_inj in H. subst w'. cbn [w_bit w_type]. exists (i * size * 8). split.
    + now rewrite u64_add_r, <- u64_add_r, u64_mul_l, u64_add_r.
    + intros steps p Hp. eapply ipath_elem; eauto.
  - destruct (zget i members) as [m|] eqn:Z; [|discriminate]. eapply S; eauto.
  - destruct (zget i members) as [m|] eqn:Z; [|discriminate]. eapply S; eauto.
Qed.
Lemma access_walk_bit b parts : forall w w', access_walk b w parts = Ok w' -> u64 (w_bit w) = w_bit w ->
  exists o, w_bit w' = u64 (w_bit w + o) /\ ipath b parts (w_type w) o.
Proof.
  induction parts as [|i parts IH]; intros w w' H Hu; cbn [access_walk] in H.
  - inversion H; subst. exists 0. rewrite Z.add_0_r. split; [auto|constructor].
  - apply bind_ok in H as (w1 & E & H). destruct (access_step_bit _ _ _ _ E) as (o1 & E1 & P1).
    destruct (IH _ _ H ltac:(rewrite E1; apply u64_idem)) as (o2 & E2 & P2).
    exists (o1 + o2). split; [rewrite E2, E1, u64_add_l; f_equal; lia|]. now apply P1.
Qed.

Lemma access_field b k root s sp : access_new b k root s = Ok sp -> class_of k = CField ->
  exists i r id size o acc, parse_parts s = Ok (i :: r) /\ resolve_type (b_types b) root = Ok id /\
    type_size (b_types b) id = Ok size /\ ipath b r id o /\ sp_bit sp = u64 (i * size + o) /\ sp_root sp = root /\
    sp_acc sp = {| ac_type := id; ac_index := i; ac_name := None |} :: acc /\ Forall (acc_ok b) acc.
Proof.
  unfold access_new. intros H Hk. apply bind_ok in H as (parts & Hp & H). apply bind_lift_ok in H as (id & R & H).
  apply bind_lift_ok in H as (ty & T & H). rewrite Hk in H. destruct parts as [|i r]; [discriminate|].
  apply bind_lift_ok in H as (size & S & H). apply bind_ok in H as (w & W & H). apply ok_inj in H. subst sp.
  cbn [sp_bit sp_root sp_acc]. destruct (access_walk_bit _ _ _ _ W (u64_idem _)) as (o & O & P).
  destruct (access_walk_head _ _ _ _ W) as (acc & A). cbn [w_acc w_bit w_type app] in *.
  exists i, r, id, size, o, acc. rewrite O, u64_add_l. repeat split; auto.
  assert (Forall (acc_ok b) (w_acc w)) as F.
  { eapply access_walk_acc; eauto. constructor; [|constructor]. intros n E. discriminate. }
  rewrite A in F. now inversion F.
Qed.

Lemma match_fields_index stack lb tb first a acc tid sp : ac_name a = None ->
  match_fields stack lb tb first (a :: acc) tid sp =
  bind (lift (resolve_type (b_types tb) tid)) (fun tid =>
  bind (match_index tb first a tid sp) (fun r =>
  match r with
  | Some (next, sp) => match_fields stack lb tb false acc next sp
  | None => Ok None
  end)).
Proof. intros E. cbn [match_fields]. now rewrite E. Qed.

(** The target specification follows the names of the local one. *)
Lemma match_candidate_field stack lb tb k root s ls cid ts :
  access_new lb k root s = Ok ls -> class_of k = CField ->
  match_candidate stack lb tb k ls cid = Ok (Some ts) ->
  exists a0 acc id size off, sp_acc ls = a0 :: acc /\ resolve_type (b_types tb) cid = Ok id /\
    type_size (b_types tb) id = Ok size /\
    path tb (map step_of acc) id off /\ sp_bit ts = u64 (ac_index a0 * size * 8 + off) /\ sp_root ts = cid.
Proof.
  intros Hl Hk H. destruct (access_field _ _ _ _ _ Hl Hk) as (i & r & lid & lsize & o & acc & _ & _ & _ & _ & _ & _ & Ea & Fa).
  unfold match_candidate in H. rewrite Hk in H. rewrite Ea in H. rewrite match_fields_index in H by reflexivity.
  apply bind_lift_ok in H as (id & R & H). apply bind_ok in H as (q & Eq & H). destruct q as [[next sp']|]; [|discriminate].
  destruct (match_index_sound _ _ _ _ _ _ _ Eq) as (size & S1 & S2 & S3 & ->).
  assert (u64 (sp_bit sp') = sp_bit sp') as Hu by (rewrite S2; apply u64_idem).
  destruct (match_fields_sound stack lb tb acc id sp' ts Fa Hu H) as (off & P1 & P2 & P3).
  exists {| ac_type := lid; ac_index := i; ac_name := None |}, acc, id, size, off.
  cbn [sp_bit sp_root ac_index] in *. rewrite S2, Z.add_0_l, u64_add_l in P2. repeat split; auto. congruence.
Qed.
