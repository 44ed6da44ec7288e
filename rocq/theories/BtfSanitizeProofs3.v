(** The whole sanitising loop. *)
From Coq Require Import String.
From Verif Require Import Base Text BtfTypes BtfTypesProofs BtfModel BtfProofs BtfProofs2 BtfSanitize BtfSanitizeSpec
  BtfSanitizeProofs BtfSanitizeProofs2.
Local Open Scope Z_scope.

Lemma san_size feat t t' : san feat t t' ->
  (type_info_size t <= type_info_size t')%nat /\
  (type_info_size t' = type_info_size t \/
   exists h, t = TDataSec h [] /\ feat FDataSec = true /\ type_info_size t' = (type_info_size t + 12)%nat).
Proof.
  destruct t; cbn [san]; intros H; try (subst t'; split; [lia|now left]).
  all: try (match goal with _ : context [if ?c then _ else _] |- _ => destruct c eqn:? end).
  all: try (subst t'; cbn; split; [lia|now left]).
  - destruct H as [[-> _]|[_ ->]]; cbn; split; try lia; now left.
  - destruct H as (ps' & -> & F). apply Forall2_len in F. cbn. rewrite F. split; [lia|now left].
  - destruct H as [(Hp & n & ->)|(Hp & n & es' & size & -> & H1 & H2)]; [cbn; split; [lia|now left]|].
    cbn [new_datasec type_info_size]. destruct entries as [|e0 es0].
    + destruct (H2 eq_refl) as [(-> & _)|(e & -> & _)]; cbn [length]; [split; [lia|now left]|].
      split; [lia|]. right. exists h. auto.
    + destruct (H1 ltac:(discriminate)) as [E _]. apply (f_equal (@length Z)) in E. rewrite !map_length in E. rewrite E.
      split; [lia|now left].
  - destruct H as (n & ms & -> & E & _). apply (f_equal (@length Z)) in E. rewrite !map_length in E.
    cbn [new_struct type_info_size]. rewrite E. split; [lia|now left].
  - destruct H as (id & ->). cbn [new_union type_info_size]. rewrite map_length. split; [lia|now left].
Qed.

Lemma new_enum_unsigned {A} (vs : list A) : info_flag (Z.lor (kind_info KEnum) (vlen_bits vs)) = false.
Proof.
  unfold info_flag. rewrite Z.shiftr_lor. pose proof (vlen_bits_range vs) as R.
  rewrite (Z.shiftr_div_pow2 (vlen_bits vs)) by lia. rewrite Z.div_small by lia. reflexivity.
Qed.

Lemma san_accepts feat t t' : t <> TUnknown -> btype_ok (strip t) -> no_sized_empty feat t -> san feat t t' -> accepts feat t'.
Proof.
  intros Hu Hok Hne H. destruct t; cbn [san] in H; try (subst t'; exact I); try congruence.
  - destruct (feat FFunc) eqn:Ef; [|subst; exact I].
    destruct H as [[-> H]|[_ ->]]; cbn [accepts]; [auto|]. split; [exact Ef|].
    cbn [with_info h_info]. cbn [strip btype_ok] in Hok. destruct Hok as [(_ & B & _) _].
    destruct (set_linkage_facts (h_info h) B) as (_ & _ & F). rewrite F. discriminate.
  - destruct (feat FFloat) eqn:Ef; subst; [exact Ef|exact I].
  - destruct (feat FEnum64) eqn:Ef; cbn [negb andb] in H; [subst; cbn [accepts]; auto|].
    destruct (info_flag (h_info h)) eqn:Efl; subst t'; cbn [accepts with_info h_info].
    + cbn [strip btype_ok] in Hok. destruct Hok as [(_ & B & _) _].
      destruct (clear31_facts (h_info h) B) as (_ & _ & _ & F). rewrite F. discriminate.
    + rewrite Efl. discriminate.
  - destruct (feat FFunc) eqn:Ef; [destruct H as (ps' & -> & _); exact Ef|]. subst t'. cbn [accepts new_enum h_info].
    rewrite new_enum_unsigned. discriminate.
  - destruct (feat FDataSec) eqn:Ef; subst; [exact Ef|exact I].
  - destruct (feat FDataSec) eqn:Ef.
    + destruct H as [(Hp & n & ->)|(Hp & n & es' & size & -> & H1 & H2)]; cbn [accepts new_datasec]; (split; [exact Ef|]).
      * intros ->. cbn [no_sized_empty] in Hne. auto.
      * intros ->. destruct entries as [|e0 es0].
        -- destruct (H2 eq_refl) as [(_ & _ & E)|(e & E & _)]; [exact E|discriminate].
        -- destruct (H1 ltac:(discriminate)) as [E _]. discriminate.
    + destruct H as (n & ms & -> & _). exact I.
  - destruct (feat FDeclTag) eqn:Ef; subst; [exact Ef|exact I].
  - destruct (feat FTypeTag) eqn:Ef; subst; [exact Ef|exact I].
  - destruct (feat FEnum64) eqn:Ef; [subst; exact Ef|]. destruct H as (id & ->). exact I.
Qed.

(** What one step does to the whole state. *)
Lemma step_facts feat st i st' : step_ok feat st i st' ->
  ids_ok st' /\ rsize (s_btf st) <= rsize (s_btf st') /\
  (inv (s_btf st) -> rsize (s_btf st') < 2 ^ 32 -> inv (s_btf st')) /\
  (refs_in (s_btf st) -> refs_in (s_btf st')) /\
  exists t t' more strs, nth_error (b_types (s_btf st)) i = Some t /\ san feat t t' /\
    b_types (s_btf st') = upd i t' (b_types (s_btf st)) ++ more /\ Forall (appended feat) more /\
    b_strings (s_btf st') = b_strings (s_btf st) ++ strs.
Proof.
  intros (t & t' & b1 & Hn & He & Eb & Hs & Hok & Hu & Hids & Hrefs).
  pose proof (ext_types_at _ _ _ _ _ He Hn) as Hn1.
  destruct (san_size _ _ _ Hs) as [Hle _].
  assert (types_size (b_types (s_btf st')) = types_size (b_types b1) - Z.of_nat (type_info_size t) + Z.of_nat (type_info_size t')) as Ets.
  { rewrite Eb. unfold set_type, set_types. cbn [b_types]. rewrite resize_types. now apply types_size_upd. }
  assert (b_strings (s_btf st') = b_strings b1) as Est by (rewrite Eb; unfold set_type, set_types; cbn [b_strings]; apply resize_strings).
  assert (rsize b1 <= rsize (s_btf st')) as Hr1 by (unfold rsize; rewrite Ets, Est; lia).
  split; [exact Hids|]. split; [pose proof (ext_rsize _ _ _ He); lia|]. split; [|split].
  - intros Hi Hr. destruct He as (m & s & T1 & S1 & A1 & I1 & N1).
    assert (inv b1) as Hi1 by (apply I1; [exact Hi|lia]).
    destruct (kind_eqb (kind_of t) KUnknown) eqn:Ek.
    + assert (t = TUnknown) as Et by (destruct t; cbn in Ek; try discriminate; reflexivity).
      destruct (Hu Et) as [-> Eb1]. rewrite Eb. now rewrite set_type_id.
    + assert (t <> TUnknown) as Ht by (intros ->; discriminate).
      assert (rsize (set_type b1 i t') = rsize (s_btf st')) as Er.
      { unfold rsize. rewrite Ets, Est. unfold set_type, set_types. cbn [b_types b_strings].
        now rewrite (types_size_upd i t t' _ Hn1). }
      rewrite Eb. apply set_type_inv; auto. lia.
  - intros Hrin. pose proof He as (m & s & T1 & S1 & A1 & I1 & N1). unfold refs_in in *.
    assert (length (b_types (s_btf st')) = length (b_types b1)) as Elen.
    { rewrite Eb. unfold set_type, set_types. cbn [b_types]. now rewrite upd_length, resize_types. }
    assert (refs_ok b1 t') as Hr'.
    { apply Hrefs. rewrite Forall_forall in Hrin. apply (Hrin t). eapply nth_error_In. exact Hn. }
    rewrite Est, Elen. rewrite Eb at 1. unfold set_type, set_types. cbn [b_types]. rewrite resize_types.
    apply Forall_upd; [exact Hr'|]. rewrite T1 at 1. apply Forall_app. split.
    + eapply Forall_impl; [|exact Hrin]. cbv beta. intros x [X1 X2].
      pose proof (ext_slen _ _ _ He). pose proof (ext_len _ _ _ He). split; [lia|].
      destruct x; auto. eapply Forall_impl; [|exact X2]. cbv beta. intros e Hee. lia.
    + eapply Forall_impl; [|exact N1]. cbv beta. intros x [X1 X2]. split; [exact X1|]. destruct x; auto. cbn in X2. congruence.
  - destruct He as (m & s & T1 & S1 & A1 & _). exists t, t', m, s. split; [exact Hn|]. split; [exact Hs|].
    split; [|split; [exact A1|congruence]].
    rewrite Eb. unfold set_type, set_types. cbn [b_types]. rewrite resize_types, T1. apply upd_app. apply nth_error_Some. congruence.
Qed.

Lemma sanitize_loop_ok feat secs syms m : forall k st st',
  sanitize_loop feat secs syms st (seq k m) = Ok st' -> ids_ok st -> (k + m <= length (b_types (s_btf st)))%nat ->
  rsize (s_btf st) <= rsize (s_btf st') /\
  (inv (s_btf st) -> rsize (s_btf st') < 2 ^ 32 -> inv (s_btf st')) /\
  (refs_in (s_btf st) -> refs_in (s_btf st')) /\
  (exists more, length (b_types (s_btf st')) = (length (b_types (s_btf st)) + length more)%nat /\
     (forall j, nth_error more j = nth_error (b_types (s_btf st')) (length (b_types (s_btf st)) + j)) /\
     Forall (appended feat) more) /\
  (forall j t, (k <= j < k + m)%nat -> nth_error (b_types (s_btf st)) j = Some t ->
     exists t', nth_error (b_types (s_btf st')) j = Some t' /\ san feat t t') /\
  (forall j t, ~ (k <= j < k + m)%nat -> nth_error (b_types (s_btf st)) j = Some t ->
     nth_error (b_types (s_btf st')) j = Some t) /\
  (exists strs, b_strings (s_btf st') = b_strings (s_btf st) ++ strs).
Proof.
  induction m as [|m IH]; intros k st st' H Hids Hb.
  - cbn [seq sanitize_loop] in H. apply ok_inj in H. subst st'. split; [lia|]. split; [auto|]. split; [auto|].
    split; [|split; [|split; [auto|]]].
    + exists []. cbn [length]. split; [lia|]. split; [|constructor]. intros j.
      transitivity (@None btype); [now destruct j|]. symmetry. apply nth_error_None. lia.
    + intros j t Hj. lia.
    + exists []. now rewrite app_nil_r.
  - cbn [seq sanitize_loop] in H.
    destruct (sanitize_one feat secs syms st k) as [s1|] eqn:E1; cbn [bind] in H; [|discriminate].
    pose proof (sanitize_one_ok _ _ _ _ _ _ E1 Hids) as Hstep.
    destruct (step_facts _ _ _ _ Hstep) as (I1 & R1 & V1 & F1 & t0 & t0' & more0 & strs0 & N0 & S0 & T0 & A0 & G0).
    assert (k < length (b_types (s_btf st)))%nat as Hk by (apply nth_error_Some; congruence).
    assert (length (b_types (s_btf s1)) = (length (b_types (s_btf st)) + length more0)%nat) as L0
      by (rewrite T0, app_length, upd_length; reflexivity).
    assert (forall j t, j <> k -> nth_error (b_types (s_btf st)) j = Some t -> nth_error (b_types (s_btf s1)) j = Some t) as Oth.
    { intros j t Hj Ht. rewrite T0, nth_error_app1 by (rewrite upd_length; apply nth_error_Some; congruence).
      rewrite nth_error_upd_ne by congruence. exact Ht. }
    assert (nth_error (b_types (s_btf s1)) k = Some t0') as Here.
    { rewrite T0, nth_error_app1 by (rewrite upd_length; exact Hk). now apply nth_error_upd_eq. }
    assert (forall j, nth_error more0 j = nth_error (b_types (s_btf s1)) (length (b_types (s_btf st)) + j)) as Tail.
    { intros j. rewrite T0, nth_error_app2 by (rewrite upd_length; lia). f_equal. rewrite upd_length. lia. }
    destruct (IH (S k) s1 st' H I1 ltac:(lia)) as (R2 & V2 & F2 & (more & L2 & T2 & A2) & B2 & C2 & (strs & G2)).
    split; [lia|]. split; [intros Hi Hr; apply V2; [apply V1; [exact Hi|lia]|exact Hr]|]. split; [auto|].
    split; [|split; [|split]].
    + exists (more0 ++ more). rewrite app_length. split; [lia|]. split.
      * intros j. destruct (Nat.ltb_spec j (length more0)) as [Hj|Hj].
        -- rewrite nth_error_app1 by exact Hj.
           destruct (nth_error more0 j) as [x|] eqn:Ex; [|apply nth_error_None in Ex; lia].
           symmetry. apply C2; [lia|]. rewrite <- Tail. exact Ex.
        -- rewrite nth_error_app2 by exact Hj. rewrite T2, L0. f_equal. lia.
      * apply Forall_app. auto.
    + intros j t Hj Ht. destruct (Nat.eq_dec j k) as [->|Hne].
      * assert (t = t0) as -> by congruence. exists t0'. split; [|exact S0]. apply C2; [lia|exact Here].
      * destruct (B2 j t ltac:(lia) (Oth j t Hne Ht)) as (t' & X1 & X2). eauto.
    + intros j t Hj Ht. apply C2; [lia|]. apply Oth; [lia|exact Ht].
    + exists (strs0 ++ strs). rewrite G2, G0, app_assoc. reflexivity.
Qed.

(** * The whole of sanitising *)
Lemma sanitize_ok feat secs syms b b' : sanitize feat secs syms b = Ok b' ->
  (exists ts more, b_types b' = ts ++ more /\ Forall2 (san feat) (b_types b) ts /\ Forall (appended feat) more) /\
  (exists strs, b_strings b' = b_strings b ++ strs) /\
  (inv b -> rsize b' < 2 ^ 32 -> inv b') /\
  (refs_in b -> refs_in b') /\ rsize b <= rsize b'.
Proof.
  unfold sanitize. intros H.
  destruct (sanitize_loop _ _ _ _ _) as [st|] eqn:E; cbn [bind] in H; [|discriminate]. apply ok_inj in H. subst b'.
  apply sanitize_loop_ok in E; [|split; intros id Hid; discriminate|cbn [s_btf]; lia].
  cbn [s_btf] in E. destruct E as (R & V & F & (more & L & T & A) & B & _ & G).
  split; [|auto].
  exists (firstn (length (b_types b)) (b_types (s_btf st))), more.
  assert (more = skipn (length (b_types b)) (b_types (s_btf st))) as Em.
  { apply list_eq_nth_error. intros j. rewrite T. now rewrite nth_error_skipn. }
  split; [rewrite Em; symmetry; apply firstn_skipn|]. split; [|exact A].
  apply Forall2_nth; [rewrite firstn_length; lia|]. intros j x Hx.
  assert (j < length (b_types b))%nat as Hj by (apply nth_error_Some; congruence).
  destruct (B j x ltac:(lia) Hx) as (y & Hy & Hs). exists y. split; [|exact Hs].
  rewrite nth_error_firstn. destruct (Nat.ltb_spec j (length (b_types b))); [exact Hy|lia].
Qed.

Lemma appended_accepts feat t : appended feat t -> accepts feat t.
Proof. intros [(n & ->)|(H & n & id & ->)]; [exact I|exact H]. Qed.

Lemma Forall2_san_accepts feat l m : Forall2 (san feat) l m ->
  Forall (fun t => t = TUnknown \/ btype_ok (strip t)) l -> Forall (no_sized_empty feat) l -> Forall (accepts feat) m.
Proof.
  induction 1 as [|x y l m Hxy Hlm IH]; intros H1 H2; [constructor|].
  inversion H1 as [|? ? Hx H1']; subst. inversion H2 as [|? ? Hy H2']; subst.
  constructor; [|apply IH; assumption].
  destruct (kind_eqb (kind_of x) KUnknown) eqn:Ek.
  - assert (x = TUnknown) as -> by (destruct x; cbn in Ek; try discriminate; reflexivity). cbn [san] in Hxy. subst y. exact I.
  - assert (x <> TUnknown) as Hu by (intros ->; discriminate). destruct Hx as [Hx|Hx]; [contradiction|].
    exact (san_accepts feat x y Hu Hx Hy Hxy).
Qed.

Lemma sanitize_accepts feat secs syms b b' :
  sanitize feat secs syms b = Ok b' -> inv b -> Forall (no_sized_empty feat) (b_types b) ->
  Forall (accepts feat) (b_types b').
Proof.
  intros H Hi Hn. destruct (sanitize_ok _ _ _ _ _ H) as ((ts & more & -> & Hs & Ha) & _).
  apply Forall_app. split; [|eapply Forall_impl; [|exact Ha]; apply appended_accepts].
  eapply Forall2_san_accepts; [exact Hs| |exact Hn].
  destruct (inv_facts b Hi) as (us & -> & Hok). constructor; [now left|]. eapply Forall_impl; [|exact Hok]. cbv beta. auto.
Qed.

Lemma to_bytes_strip b : btf_to_bytes (strip_fb b) = btf_to_bytes b.
Proof.
  unfold btf_to_bytes, strip_fb, set_types. cbn [b_hdr b_strings b_types]. f_equal. f_equal.
  destruct (b_types b) as [|t ts]; [reflexivity|]. cbn [map skipn]. unfold types_bytes. f_equal.
  rewrite map_map. apply map_ext. intros x. apply strip_bytes.
Qed.

Lemma sanitize_parse feat secs syms b b' :
  sanitize feat secs syms b = Ok b' -> inv b -> rsize b' < 2 ^ 32 ->
  btf_parse (btf_to_bytes b') = Ok (strip_fb b').
Proof.
  intros H Hi Hr. destruct (sanitize_ok _ _ _ _ _ H) as (_ & _ & V & _).
  rewrite <- to_bytes_strip. apply parse_to_bytes. exact (V Hi Hr).
Qed.

(** * No panic *)
Lemma string_at_no_panic b off : off <= Z.of_nat (length (b_strings b)) -> string_at b off <> Err BPanic.
Proof.
  intros H. unfold string_at. destruct (_ <=? off); [discriminate|].
  destruct (Z.ltb_spec (Z.of_nat (length (b_strings b))) off); [lia|]. destruct (until_nul _); discriminate.
Qed.

Lemma type_by_id_in ts id t : type_by_id ts id = Ok t -> In t ts.
Proof.
  unfold type_by_id. destruct (nth_error ts (Z.to_nat id)) as [x|] eqn:E; [|discriminate].
  destruct (0 <=? id); [|discriminate]. intros H. apply ok_inj in H. subst x. eapply nth_error_In. exact E.
Qed.

Lemma sanitize_one_no_panic feat secs syms st i :
  ids_ok st -> refs_in (s_btf st) -> (i < length (b_types (s_btf st)))%nat ->
  sanitize_one feat secs syms st i <> Err BPanic.
Proof.
  intros Hids Hrin Hi H. unfold sanitize_one in H.
  destruct (nth_error (b_types (s_btf st)) i) as [t|] eqn:En; [|apply nth_error_None in En; lia].
  assert (refs_ok (s_btf st) t) as Hr by (unfold refs_in in Hrin; rewrite Forall_forall in Hrin; apply Hrin; eapply nth_error_In; exact En).
  assert (forall b off name fixed b1 n, rename b off name fixed = (b1, n) -> ~ In 0 fixed -> ext feat b b1) as Hren.
  { intros b off name fixed b1 n E Hf. destruct (rename_ext feat _ _ _ _ _ _ E Hf) as (X & _). exact X. }
  destruct t; try discriminate.
  - destruct (string_at (s_btf st) (h_name h)) as [name|e] eqn:Es; cbn [bind] in H.
    + destruct (negb (feat FFunc)); [discriminate|]. destruct (_ && _); discriminate.
    + assert (e = BPanic) as -> by congruence. apply (string_at_no_panic (s_btf st) (h_name h)); [destruct Hr as [Hr _]; cbn in Hr; lia|exact Es].
  - destruct (feat FFloat); discriminate.
  - destruct (negb (feat FEnum64) && info_flag (h_info h)); discriminate.
  - destruct (feat FFunc); [|discriminate]. destruct (name_params (s_btf st) 0 params); discriminate.
  - destruct (feat FDataSec); discriminate.
  - destruct Hr as [Hname Hents]. cbn [name_offset] in Hname.
    destruct (string_at (s_btf st) (h_name h)) as [name|e] eqn:Es;
      [|assert (e = BPanic) as -> by (destruct (negb (feat FDataSec)); cbn [bind] in H; congruence);
        apply (string_at_no_panic (s_btf st) (h_name h)); [cbn in Hname; lia|exact Es]].
    destruct (negb (feat FDataSec)) eqn:Ef; cbn [bind] in H.
    + destruct (rename _ _ _ _) as [b1 n].
      destruct (mapM _ entries) as [ms|e] eqn:Em; cbn [bind] in H; [discriminate|].
      assert (e = BPanic) as -> by congruence. destruct (mapM_err _ _ _ Em) as (x & Hx & Ex).
      unfold entry_member in Ex. rewrite Forall_forall in Hents. specialize (Hents x Hx).
      unfold type_by_id in Ex. destruct (nth_error (b_types (s_btf st)) (Z.to_nat (de_type x))) eqn:Et.
      * destruct (Z.leb_spec 0 (de_type x)); [discriminate|lia].
      * apply nth_error_None in Et. lia.
    + assert (feat FDataSec = true) as Efd by (now destruct (feat FDataSec)).
      destruct (rename (s_btf st) (h_name h) name (replace_char 47 46 name)) as [b1 n] eqn:Er.
      destruct (0 <? h_third h); [discriminate|]. destruct (secs name) as [size|]; [|discriminate].
      pose proof (Hren _ _ _ _ _ _ Er (replace_no_nul 47 46 name ltac:(lia) (string_at_no_nul _ _ _ Es))) as He1.
      set (st1 := {| s_btf := b1; s_filler := s_filler st; s_place := s_place st |}) in *.
      set (fill := match entries with [] => (u32 size =? 0) || negb (feat FDataSecZero) | _ :: _ => false end) in H.
      destruct (if fill then _ else _) as [[st2 es2] size2] eqn:Efill in H.
      assert (ext feat (s_btf st) (s_btf st2)) as He2.
      { destruct fill.
        - destruct (add_filler st1) as [st3 vid] eqn:Ea. destruct Hids as [Hf _].
          destruct (add_filler_ext feat st1 st3 vid Efd Ea) as (X & _).
          { intros id Hid. destruct (Hf id Hid) as [A B]. split; [exact A|]. cbn [st1 s_btf].
            pose proof (ext_len _ _ _ He1). lia. }
          replace st2 with st3 by congruence. eapply ext_trans; [exact He1|exact X].
        - replace st2 with st1 by congruence. exact He1. }
      destruct (mapM (entry_fix syms (s_btf st2)) es2) as [es3|e] eqn:Em; cbn [bind] in H; [discriminate|].
      assert (e = BPanic) as -> by congruence. destruct (mapM_err _ _ _ Em) as (x & Hx & Ex).
      unfold entry_fix in Ex.
      destruct (type_by_id (b_types (s_btf st2)) (de_type x)) as [vt|e] eqn:Et; cbn [bind] in Ex.
      * destruct vt; try discriminate.
        destruct (string_at (s_btf st2) (h_name h0)) as [vn|e] eqn:Ev; cbn [bind] in Ex.
        -- destruct (linkage =? 0); [discriminate|]. destruct (syms vn); discriminate.
        -- assert (e = BPanic) as -> by congruence.
           apply (string_at_no_panic (s_btf st2) (h_name h0)); [|exact Ev].
           apply type_by_id_in in Et. pose proof He2 as (more & strs & T & S & A & _ & N).
           rewrite T in Et. apply in_app_iff in Et. destruct Et as [Et|Et].
           ++ unfold refs_in in Hrin. rewrite Forall_forall in Hrin. destruct (Hrin _ Et) as [X _]. cbn [name_offset] in X.
              pose proof (ext_slen _ _ _ He2). cbn in X. lia.
           ++ rewrite Forall_forall in N. destruct (N _ Et) as [X _]. cbn in X. lia.
      * unfold type_by_id in Et. destruct (nth_error (b_types (s_btf st2)) (Z.to_nat (de_type x)));
          [destruct (0 <=? de_type x)|]; congruence.
  - destruct (feat FDeclTag); discriminate.
  - destruct (feat FTypeTag); discriminate.
  - destruct (feat FEnum64); [discriminate|]. destruct (add_place st); discriminate.
Qed.

Lemma sanitize_loop_no_panic feat secs syms m : forall k st,
  ids_ok st -> refs_in (s_btf st) -> (k + m <= length (b_types (s_btf st)))%nat ->
  sanitize_loop feat secs syms st (seq k m) <> Err BPanic.
Proof.
  induction m as [|m IH]; intros k st Hids Hrin Hb; cbn [seq sanitize_loop]; [discriminate|].
  destruct (sanitize_one feat secs syms st k) as [s1|e] eqn:E1; cbn [bind].
  - destruct (step_facts _ _ _ _ (sanitize_one_ok _ _ _ _ _ _ E1 Hids)) as (I1 & _ & _ & F1 & t & t' & more & strs & _ & _ & T & _).
    apply IH; [exact I1|auto|]. rewrite T, app_length, upd_length. lia.
  - intros H. apply (sanitize_one_no_panic feat secs syms st k Hids Hrin ltac:(lia)). congruence.
Qed.

Lemma sanitize_no_panic feat secs syms b : refs_in b -> sanitize feat secs syms b <> Err BPanic.
Proof.
  intros Hr H. unfold sanitize in H.
  destruct (sanitize_loop _ _ _ _ _) as [st|e] eqn:E; cbn [bind] in H; [discriminate|].
  refine (sanitize_loop_no_panic feat secs syms _ 0 _ _ _ _ _); [| | |rewrite E; congruence].
  - split; intros id Hid; discriminate.
  - exact Hr.
  - cbn [s_btf]. lia.
Qed.
