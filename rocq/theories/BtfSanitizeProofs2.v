(** The loop of sanitising: every step replaces one type as specified. *)
From Coq Require Import String.
From Verif Require Import Base Text BtfTypes BtfTypesProofs BtfModel BtfProofs BtfProofs2 BtfSanitize BtfSanitizeSpec
  BtfSanitizeProofs.
Local Open Scope Z_scope.

Definition id_ok (b : btf) (o : option Z) : Prop :=
  forall id, o = Some id -> word_ok id /\ 0 <= id < Z.of_nat (length (b_types b)).
Definition ids_ok (st : sst) : Prop := id_ok (s_btf st) (s_filler st) /\ id_ok (s_btf st) (s_place st).

(** Names and section entries of one type. *)
Definition refs_ok (b : btf) (t : btype) : Prop :=
  0 <= name_offset t <= Z.of_nat (length (b_strings b)) /\
  match t with
  | TDataSec _ es => Forall (fun e => 0 <= de_type e < Z.of_nat (length (b_types b))) es
  | _ => True
  end.

Definition step_ok feat (st : sst) (i : nat) (st' : sst) : Prop :=
  exists t t' b1,
    nth_error (b_types (s_btf st)) i = Some t /\ ext feat (s_btf st) b1 /\
    s_btf st' = set_type (resize b1 (type_info_size t) (type_info_size t')) i t' /\
    san feat t t' /\
    (inv (s_btf st) -> t <> TUnknown -> btype_ok (strip t')) /\
    (t = TUnknown -> t' = t /\ b1 = s_btf st) /\
    ids_ok st' /\
    (refs_ok (s_btf st) t -> refs_ok b1 t').

Lemma set_type_id b i t : nth_error (b_types b) i = Some t -> set_type (resize b (type_info_size t) (type_info_size t)) i t = b.
Proof. intros H. rewrite resize_same. unfold set_type, set_types. rewrite upd_same by exact H. now destruct b. Qed.

Lemma step_same feat st i t : nth_error (b_types (s_btf st)) i = Some t -> ids_ok st -> san feat t t -> step_ok feat st i st.
Proof.
  intros H Hi Hs. exists t, t, (s_btf st). split; [exact H|]. split; [apply ext_refl|].
  split; [symmetry; now apply set_type_id|]. split; [exact Hs|].
  split; [intros Hinv Ht; exact (proj1 (inv_type_ok _ _ _ Hinv H Ht))|]. auto.
Qed.

Lemma id_ok_ext feat b b1 o i t t' n : ext feat b b1 -> id_ok b o ->
  id_ok (set_type (resize b1 (type_info_size t) n) i t') o.
Proof.
  intros He H id Hid. destruct (H id Hid) as [H1 H2]. split; [exact H1|].
  unfold set_type, set_types. cbn [b_types]. rewrite upd_length, resize_types. pose proof (ext_len _ _ _ He). lia.
Qed.

(** A step that changes type [i] to one of the same encoded size. *)
Lemma step_put feat st i t t' b1 :
  nth_error (b_types (s_btf st)) i = Some t -> ids_ok st -> ext feat (s_btf st) b1 ->
  t <> TUnknown -> type_info_size t' = type_info_size t -> san feat t t' ->
  (inv (s_btf st) -> btype_ok (strip t) -> btype_ok (strip t')) ->
  (refs_ok (s_btf st) t -> refs_ok b1 t') ->
  step_ok feat st i {| s_btf := set_type b1 i t'; s_filler := s_filler st; s_place := s_place st |}.
Proof.
  intros H [Hf Hp] He Ht Hsz Hs Hok Hrefs. exists t, t', b1.
  split; [exact H|]. split; [exact He|]. cbn [s_btf]. rewrite Hsz, resize_same. split; [reflexivity|]. split; [exact Hs|].
  split; [intros Hi _; apply Hok; [exact Hi|]; exact (proj1 (inv_type_ok _ _ _ Hi H Ht))|].
  split; [congruence|]. split; [|exact Hrefs].
  unfold ids_ok. cbn [s_btf s_filler s_place].
  pose proof (id_ok_ext feat _ _ _ i t t' (type_info_size t) He Hf) as X.
  pose proof (id_ok_ext feat _ _ _ i t t' (type_info_size t) He Hp) as Y. rewrite resize_same in X, Y. auto.
Qed.

Lemma info_kind_land info m : Z.land info (Z.shiftl 31 24) = Z.land (Z.land info m) (Z.shiftl 31 24) -> info_kind (Z.land info m) = info_kind info.
Proof.
  intros H. unfold info_kind.
  assert (forall x, Z.land (Z.shiftr x 24) 31 = Z.shiftr (Z.land x (Z.shiftl 31 24)) 24) as E.
  { intros x. rewrite Z.shiftr_land. f_equal. }
  rewrite !E. now rewrite H.
Qed.

Lemma word_land_l a b : 0 <= a -> 0 <= b < 2 ^ 32 -> word_ok (Z.land a b).
Proof.
  intros Ha Hb. unfold word_ok. rewrite Z.land_comm. split; [apply Z.land_nonneg; lia|].
  destruct (Z.eq_dec (Z.land b a) 0) as [->|Hz]; [lia|].
  assert (0 < Z.land b a) by (pose proof (proj2 (Z.land_nonneg b a) (or_introl (proj1 Hb))); lia).
  apply Z.log2_lt_pow2; [assumption|]. pose proof (Z.log2_land b a (proj1 Hb) Ha).
  destruct (Z.eq_dec b 0); [subst; cbn in *; lia|]. assert (Z.log2 b < 32) by (apply Z.log2_lt_pow2; lia). lia.
Qed.

Lemma clear31_facts info : word_ok info ->
  word_ok (clear31 info) /\ info_kind (clear31 info) = info_kind info /\ type_vlen (clear31 info) = type_vlen info /\
  info_flag (clear31 info) = false.
Proof.
  intros H. unfold clear31. split; [apply word_land_l; unfold word_ok in H; lia|].
  split; [|split].
  - unfold info_kind. rewrite Z.shiftr_land, <- Z.land_assoc. f_equal.
  - unfold type_vlen. rewrite <- Z.land_assoc. f_equal.
  - unfold info_flag. rewrite Z.shiftr_land. change (Z.shiftr (2 ^ 31 - 1) 31) with 0. now rewrite Z.land_0_r.
Qed.

Lemma set_linkage_facts info : word_ok info ->
  word_ok (set_linkage info 0) /\ info_kind (set_linkage info 0) = info_kind info /\ func_linkage (set_linkage info 0) = 0.
Proof.
  intros H. unfold set_linkage. rewrite Z.land_0_l, Z.lor_0_r. split; [apply word_land_l; unfold word_ok in H; lia|]. split.
  - unfold info_kind. rewrite Z.shiftr_land, <- Z.land_assoc. f_equal.
  - unfold func_linkage. rewrite <- Z.land_assoc. change (Z.land 4294901760 65535) with 0. apply Z.land_0_r.
Qed.

Lemma vlen_short h n : type_vlen (h_info h) = Z.of_nat n -> Z.of_nat n < 2 ^ 16.
Proof. intros <-. apply type_vlen_range. Qed.

Lemma word_ok_0 : word_ok 0. Proof. unfold word_ok; lia. Qed.
Lemma word_ok_1 : word_ok 1. Proof. unfold word_ok; lia. Qed.
Lemma word_ok_u32 x : word_ok (u32 x).
Proof. unfold word_ok, u32, wrap. apply Z.mod_pos_bound. lia. Qed.

Lemma entry_words_all es : Forall word_ok (entry_words es) <-> Forall (fun e => word_ok (de_type e) /\ word_ok (de_off e) /\ word_ok (de_size e)) es.
Proof.
  unfold entry_words. induction es as [|e es IH]; cbn [flat_map app]; [split; constructor|].
  rewrite !Forall_cons_iff, IH. tauto.
Qed.
Lemma member_words_all es : Forall word_ok (member_words es) <-> Forall (fun e => word_ok (m_name e) /\ word_ok (m_type e) /\ word_ok (m_off e)) es.
Proof.
  unfold member_words. induction es as [|e es IH]; cbn [flat_map app]; [split; constructor|].
  rewrite !Forall_cons_iff, IH. tauto.
Qed.
Lemma triple_words_all vs : Forall word_ok (triple_words vs) <-> Forall (fun v => word_ok (fst (fst v)) /\ word_ok (snd (fst v)) /\ word_ok (snd v)) vs.
Proof.
  unfold triple_words. induction vs as [|e es IH]; cbn [flat_map app]; [split; constructor|].
  rewrite !Forall_cons_iff, IH. tauto.
Qed.

Lemma name_offset_word t : btype_ok (strip t) -> word_ok (name_offset t).
Proof.
  destruct t; cbn [strip btype_ok name_offset head_of]; intros H; try contradiction;
    try (destruct H as [[H _] _]; exact H); try (destruct H as [H _]; apply H).
Qed.

Lemma inv_name_word b i t : inv b -> type_by_id (b_types b) i = Ok t -> word_ok (name_offset t).
Proof.
  intros Hi Ht. unfold type_by_id in Ht. destruct (nth_error (b_types b) (Z.to_nat i)) as [x|] eqn:E; [|discriminate].
  destruct (0 <=? i); [|discriminate]. apply ok_inj in Ht. subst x.
  destruct t; try (cbn; apply word_ok_0); apply name_offset_word; apply (inv_type_ok b _ _ Hi E); discriminate.
Qed.

Lemma Forall2_len {A B} (P : A -> B -> Prop) l m : Forall2 P l m -> length l = length m.
Proof. induction 1; cbn [length]; congruence. Qed.

Lemma entry_member_facts b es ms : mapM (entry_member (b_types b)) es = Ok ms ->
  length ms = length es /\ map m_type ms = map de_type es /\ map m_off ms = map (fun e => u32 (de_off e * 8)) es /\
  (inv b -> Forall word_ok (entry_words es) -> Forall word_ok (member_words ms)).
Proof.
  intros H. apply mapM_ok in H. rewrite entry_words_all, member_words_all.
  induction H as [|e m es ms He H IH]; [repeat (split; [reflexivity|]); constructor|].
  destruct IH as (I1 & I2 & I3 & I4). unfold entry_member in He.
  destruct (type_by_id (b_types b) (de_type e)) as [mt|] eqn:Et; [|discriminate]. apply ok_inj in He. subst m.
  cbn [length map m_type m_off]. rewrite I1, I2, I3. repeat (split; [reflexivity|]).
  intros Hi Hw. rewrite !Forall_cons_iff in *. destruct Hw as ((W1 & W2 & W3) & Hw). split; [|auto].
  cbn [m_name m_type m_off]. split; [eapply inv_name_word; eassumption|]. split; [exact W1|apply word_ok_u32].
Qed.

Lemma entry_fix_facts syms b es es' : mapM (entry_fix syms b) es = Ok es' ->
  length es' = length es /\ map de_type es' = map de_type es /\ map de_size es' = map de_size es /\
  (Forall word_ok (entry_words es) -> Forall word_ok (entry_words es')).
Proof.
  intros H. apply mapM_ok in H. rewrite !entry_words_all.
  induction H as [|e m es ms He H IH]; [repeat (split; [reflexivity|]); constructor|].
  destruct IH as (I1 & I2 & I3 & I4). unfold entry_fix in He.
  destruct (type_by_id (b_types b) (de_type e)) as [t|]; cbn [bind] in He; [|discriminate].
  destruct t; try discriminate. destruct (string_at b (h_name h)) as [vn|]; cbn [bind] in He; [|discriminate].
  assert (de_type m = de_type e /\ de_size m = de_size e /\ (m = e \/ exists o, de_off m = u32 o)) as (E1 & E2 & E3).
  { destruct (linkage =? 0); [apply ok_inj in He; subst; auto|].
    destruct (syms vn) as [o|]; [|discriminate]. apply ok_inj in He. subst m. cbn. eauto. }
  cbn [length map]. rewrite I1, I2, I3, E1, E2. repeat (split; [reflexivity|]).
  intros Hw. rewrite !Forall_cons_iff in *. destruct Hw as ((W1 & W2 & W3) & Hw). split; [|auto].
  rewrite E1, E2. split; [exact W1|]. split; [|exact W3]. destruct E3 as [->|[o ->]]; [exact W2|apply word_ok_u32].
Qed.

Lemma entry_types_in es es' n : map de_type es' = map de_type es ->
  Forall (fun e => 0 <= de_type e < n) es -> Forall (fun e => 0 <= de_type e < n) es'.
Proof.
  intros E H. rewrite Forall_forall in *. intros e He.
  assert (In (de_type e) (map de_type es)) as Hin by (rewrite <- E; now apply in_map).
  apply in_map_iff in Hin. destruct Hin as (x & Ex & Hx). rewrite <- Ex. now apply H.
Qed.

Lemma refs_0 b t : name_offset t = 0 -> match t with TDataSec _ _ => False | _ => True end -> refs_ok b t.
Proof. intros E H. split; [lia|]. destruct t; auto; contradiction. Qed.
Lemma refs_same b b1 t t' : (length (b_strings b) <= length (b_strings b1))%nat -> name_offset t' = name_offset t ->
  match t' with TDataSec _ _ => False | _ => True end -> refs_ok b t -> refs_ok b1 t'.
Proof. intros Hl E H [H1 _]. split; [lia|]. destruct t'; auto; contradiction. Qed.

Lemma strip_id t : match t with TUnion _ _ (Some _) => False | _ => True end -> strip t = t.
Proof. destruct t; try reflexivity. destruct fb; [contradiction|reflexivity]. Qed.

Theorem sanitize_one_ok feat secs syms st i st' :
  sanitize_one feat secs syms st i = Ok st' -> ids_ok st -> step_ok feat st i st'.
Proof.
  intros H Hids. unfold sanitize_one in H.
  destruct (nth_error (b_types (s_btf st)) i) as [t|] eqn:Hn; [|discriminate].
  destruct t; cbv zeta in H.
  all: try (apply ok_inj in H; subst st'; apply (step_same feat _ _ _ Hn Hids); reflexivity).
  - (* Ptr *)
    apply ok_inj in H. subst st'. refine (step_put feat st i _ _ _ Hn Hids (ext_refl _ _) _ _ _ _ _); [discriminate|reflexivity|reflexivity| |].
    + intros _. cbn [strip btype_ok with_name h_info]. intros [(A & B & C) D]. split; [split; [apply word_ok_0|auto]|exact D].
    + intros _. now apply refs_0.
  - (* Func *)
    destruct (string_at (s_btf st) (h_name h)) as [name|] eqn:Es; cbn [bind] in H; [|discriminate].
    destruct (feat FFunc) eqn:Ef; cbn [negb] in H.
    + destruct ((func_linkage (h_info h) =? 1) && (is_builtin name || negb (feat FFuncGlobal))) eqn:Ec.
      * apply ok_inj in H. subst st'. refine (step_put feat st i _ _ _ Hn Hids (ext_refl _ _) _ _ _ _ _); [discriminate|reflexivity| | |].
        -- cbn [san]. rewrite Ef. right. split; [lia|reflexivity].
        -- intros _. cbn [strip btype_ok with_info h_info]. intros [(A & B & C) D].
           destruct (set_linkage_facts (h_info h) B) as (F1 & F2 & _). split; [split; [exact A|auto]|]. now rewrite F2.
        -- intros [R _]. split; [exact R|exact I].
      * apply ok_inj in H. subst st'. apply (step_same feat _ _ _ Hn Hids). cbn [san]. rewrite Ef. left. split; [reflexivity|].
        intros E. rewrite E in Ec. cbn [Z.eqb Pos.eqb andb] in Ec. destruct (feat FFuncGlobal); [reflexivity|].
        rewrite orb_true_r in Ec. discriminate.
    + apply ok_inj in H. subst st'. refine (step_put feat st i _ _ _ Hn Hids (ext_refl _ _) _ _ _ _ _); [discriminate|reflexivity| | |].
      * cbn [san]. now rewrite Ef.
      * intros _. cbn [strip btype_ok new_typedef h_info]. intros [(A & B & C) D].
        split; [split; [exact A|split; [apply (kind_info_word KTypedef)|exact C]]|apply (kind_info_kind KTypedef)].
      * intros [R _]. split; [exact R|exact I].
  - (* Float *)
    destruct (feat FFloat) eqn:Ef; apply ok_inj in H; subst st'.
    + apply (step_same feat _ _ _ Hn Hids). cbn [san]. now rewrite Ef.
    + refine (step_put feat st i _ _ _ Hn Hids (ext_refl _ _) _ _ _ _ _); [discriminate|reflexivity| | |].
      * cbn [san]. now rewrite Ef.
      * intros _. cbn [strip btype_ok]. intros [(A & B & C) D].
        apply (new_struct_ok 0 [] (h_third h)); [apply word_ok_0|constructor|exact C|cbn; lia].
      * intros _. now apply refs_0.
  - (* Enum *)
    destruct (negb (feat FEnum64) && info_flag (h_info h)) eqn:Ec; apply ok_inj in H; subst st'.
    + refine (step_put feat st i _ _ _ Hn Hids (ext_refl _ _) _ _ _ _ _); [discriminate|reflexivity| | |].
      * cbn [san]. now rewrite Ec.
      * intros _. cbn [strip btype_ok with_info h_info]. intros ((A & B & C) & D & E & F).
        destruct (clear31_facts (h_info h) B) as (F1 & F2 & F3 & _).
        split; [split; [exact A|auto]|]. split; [exact D|]. rewrite F2, F3. auto.
      * intros [R _]. split; [exact R|exact I].
    + apply (step_same feat _ _ _ Hn Hids). cbn [san]. now rewrite Ec.
  - (* FuncProto *)
    destruct (feat FFunc) eqn:Ef.
    + destruct (name_params (s_btf st) 0 params) as [b1 ps1] eqn:Ep. apply ok_inj in H. subst st'.
      destruct (name_params_ext feat params _ _ _ _ Ep) as (X & T & F2 & W).
      pose proof (Forall2_len _ _ _ F2) as Hlen.
      refine (step_put feat st i _ _ _ Hn Hids X _ _ _ _ _); [discriminate| | | |].
      * cbn [type_info_size]. now rewrite Hlen.
      * cbn [san]. rewrite Ef. eauto.
      * intros _. cbn [strip btype_ok]. intros (A & B & C & D). split; [exact A|]. split; [auto|]. split; [exact C|]. now rewrite D, Hlen.
      * apply refs_same; [eapply ext_slen; exact X|reflexivity|exact I].
    + apply ok_inj in H. subst st'. refine (step_put feat st i _ _ _ Hn Hids (ext_refl _ _) _ _ _ _ _); [discriminate|reflexivity| | |].
      * cbn [san]. now rewrite Ef.
      * intros _. cbn [strip btype_ok]. intros ((A & B & C) & D & E & F).
        apply (new_enum_ok (h_name h) false params); [exact A|exact D|]. eapply vlen_short; exact F.
      * intros [R _]. split; [exact R|exact I].
  - (* Var *)
    destruct (feat FDataSec) eqn:Ef; apply ok_inj in H; subst st'.
    + apply (step_same feat _ _ _ Hn Hids). cbn [san]. now rewrite Ef.
    + refine (step_put feat st i _ _ _ Hn Hids (ext_refl _ _) _ _ _ _ _); [discriminate|reflexivity| | |].
      * cbn [san]. now rewrite Ef.
      * intros _. cbn [strip btype_ok]. intros ((A & B & C) & D & E). apply (new_int_ok (h_name h) 1 0 0); [exact A|apply word_ok_1].
      * intros [R _]. split; [exact R|exact I].
  - (* DataSec *)
    destruct (feat FDataSec) eqn:Ef; cbn [negb] in H;
      (destruct (string_at (s_btf st) (h_name h)) as [name|] eqn:Es; cbn [bind] in H; [|discriminate]).
    + destruct (rename _ _ _ _) as [b1 n] eqn:Er.
      apply (rename_ext feat) in Er; [|apply replace_no_nul; [lia|eapply string_at_no_nul; exact Es]].
      destruct Er as (X1 & W1 & L1).
      destruct (Z.ltb_spec 0 (h_third h)) as [Hpos|Hpos].
      * apply ok_inj in H. subst st'. refine (step_put feat st i _ _ _ Hn Hids X1 _ _ _ _ _); [discriminate|reflexivity| | |].
        -- cbn [san]. rewrite Ef. left. eauto.
        -- intros _. cbn [strip btype_ok with_name h_info]. intros ((A & B & C) & D). split; [split; [auto|auto]|exact D].
        -- intros [R1 R2]. cbn [name_offset head_of] in *. split; [cbn; auto|].
           eapply Forall_impl; [|exact R2]. cbv beta. intros e He. pose proof (ext_len _ _ _ X1). lia.
      * destruct (secs name) as [size|]; [|discriminate].
        set (sz := u32 size) in *.
        set (st1 := {| s_btf := b1; s_filler := s_filler st; s_place := s_place st |}) in *.
        set (fill := match entries with [] => (sz =? 0) || negb (feat FDataSecZero) | _ => false end) in *.
        destruct (if fill then _ else _) as [[st2 es2] size2] eqn:Ep.
        destruct (mapM _ es2) as [es3|] eqn:Em; cbn [bind] in H; [|discriminate].
        apply ok_inj in H. subst st'.
        apply entry_fix_facts in Em. destruct Em as (M1 & M2 & M3 & M4).
        assert (word_ok sz) as Hsz by apply word_ok_u32.
        assert (id_ok b1 (s_filler st) /\ id_ok b1 (s_place st)) as [Hf1 Hp1].
        { destruct Hids as [A B]. pose proof (ext_len _ _ _ X1). split; intros id Hid;
            [destruct (A id Hid)|destruct (B id Hid)]; split; auto; lia. }
        assert (ext feat b1 (s_btf st2) /\ id_ok (s_btf st2) (s_filler st2) /\ id_ok (s_btf st2) (s_place st2) /\
                word_ok size2 /\ (inv (s_btf st) -> Forall word_ok (entry_words entries) -> Forall word_ok (entry_words es2)) /\
                (entries <> [] -> es2 = entries) /\
                (entries = [] -> (es2 = [] /\ 0 < size2 /\ feat FDataSecZero = true) \/
                   exists vid, es2 = [{| de_type := vid; de_off := 0; de_size := size2 |}] /\ 0 < size2 /\ 0 <= vid < Z.of_nat (length (b_types (s_btf st2)))))
          as (X2 & F2 & P2 & S2 & W2 & N2 & Z2).
        { destruct fill eqn:Efl.
          - destruct (add_filler st1) as [st3 vid] eqn:Ea.
            assert (st3 = st2 /\ es2 = [{| de_type := vid; de_off := 0; de_size := Z.max sz 1 |}] /\ size2 = Z.max sz 1) as (-> & -> & ->)
              by (split; [|split]; congruence).
            destruct (add_filler_ext feat _ _ _ Ef Ea Hf1) as (A1 & A2 & A3 & A4 & A5).
            split; [exact A1|]. split; [intros id Hid; rewrite A2 in Hid; assert (id = vid) as -> by congruence; auto|].
            split; [intros id Hid; rewrite A3 in Hid; destruct (Hp1 id Hid) as [B1 B2]; split; [exact B1|];
                    pose proof (ext_len _ _ _ A1) as B3; cbn [s_btf st1] in B3; lia|].
            split; [unfold word_ok in *; lia|]. split.
            + intros _ _. apply entry_words_all. constructor; [|constructor]. cbn [de_type de_off de_size]. unfold word_ok in *. lia.
            + split; [intros Hne; subst fill; destruct entries; [congruence|discriminate]|].
              intros _. right. exists vid. split; [reflexivity|]. split; [lia|exact A5].
          - assert (st2 = st1 /\ es2 = entries /\ size2 = sz) as (-> & -> & ->) by (split; [|split]; congruence).
            cbn [st1 s_btf s_filler s_place]. split; [apply ext_refl|]. split; [exact Hf1|]. split; [exact Hp1|].
            split; [exact Hsz|]. split; [auto|]. split; [auto|].
            intros ->. left. subst fill. split; [reflexivity|]. apply orb_false_elim in Efl. destruct Efl as [E1 E2].
            split; [unfold word_ok in Hsz; lia|]. now destruct (feat FDataSecZero). }
        assert (Z.of_nat (length entries) < 2 ^ 16 -> Z.of_nat (length es3) < 2 ^ 16) as Hl3.
        { intros Hl. rewrite M1. destruct entries as [|e0 es0]; [|rewrite N2 by discriminate; exact Hl].
          destruct (Z2 eq_refl) as [(-> & _)|(vid & -> & _)]; cbn; lia. }
        exists (TDataSec h entries), (new_datasec n es3 size2), (s_btf st2).
        split; [exact Hn|]. split; [eapply ext_trans; eassumption|]. split; [reflexivity|]. split.
        { cbn [san]. rewrite Ef. right. split; [exact Hpos|]. exists n, es3, size2. split; [reflexivity|]. split.
          - intros Hne. rewrite N2 in M2, M3 by exact Hne. auto.
          - intros He. destruct (Z2 He) as [(E2 & Hp & Hz)|(vid & E2 & Hp & _)].
            + left. rewrite E2 in M1. destruct es3; [auto|discriminate].
            + right. rewrite E2 in M1, M3. destruct es3 as [|e [|]]; cbn [length] in M1; try discriminate.
              cbn [map de_size] in M3. exists e. split; [reflexivity|]. split; [congruence|exact Hp]. }
        split.
        { intros Hi _. cbn [strip]. pose proof (inv_type_ok _ _ _ Hi Hn ltac:(discriminate)) as [Hok _].
          cbn [strip btype_ok] in Hok. destruct Hok as ((A & B & C) & D & E & F).
          apply (new_datasec_ok n es3 size2); [auto|auto|exact S2|]. apply Hl3. eapply vlen_short; exact F. }
        split; [discriminate|]. split.
        { split; cbn [s_btf s_filler s_place]; intros id Hid; [destruct (F2 id Hid)|destruct (P2 id Hid)]; (split; [assumption|]);
            unfold set_type, set_types; cbn [b_types]; rewrite upd_length, resize_types; assumption. }
        intros [R1 R2]. split.
        -- cbn [new_datasec name_offset head_of h_name]. specialize (L1 R1). pose proof (ext_slen _ _ _ X2). lia.
        -- cbn [new_datasec]. eapply entry_types_in; [exact M2|].
           destruct entries as [|e0 es0].
           ++ destruct (Z2 eq_refl) as [(-> & _)|(vid & -> & _ & Hv)]; constructor; [exact Hv|constructor].
           ++ rewrite N2 by discriminate. eapply Forall_impl; [|exact R2]. cbv beta. intros e He.
              pose proof (ext_len _ _ _ X1). pose proof (ext_len _ _ _ X2). lia.
    + destruct (rename _ _ _ _) as [b1 n] eqn:Er.
      apply (rename_ext feat) in Er; [|apply replace_no_nul; [lia|eapply string_at_no_nul; exact Es]].
      destruct Er as (X1 & W1 & L1).
      destruct (mapM _ entries) as [ms|] eqn:Em; cbn [bind] in H; [|discriminate]. apply ok_inj in H. subst st'.
      apply entry_member_facts in Em. destruct Em as (M1 & M2 & M3 & M4).
      refine (step_put feat st i _ _ _ Hn Hids X1 _ _ _ _ _); [discriminate| | | |].
      * cbn [new_struct type_info_size]. now rewrite M1.
      * cbn [san]. rewrite Ef. eauto.
      * intros Hi. cbn [strip btype_ok]. intros ((A & B & C) & D & E & F).
        apply (new_struct_ok n ms (u32 (Z.of_nat (length entries)))); [auto|auto|apply word_ok_u32|].
        rewrite M1. eapply vlen_short; exact F.
      * intros [R1 R2]. split; [exact (L1 R1)|exact I].
  - (* DeclTag *)
    destruct (feat FDeclTag) eqn:Ef; apply ok_inj in H; subst st'.
    + apply (step_same feat _ _ _ Hn Hids). cbn [san]. now rewrite Ef.
    + refine (step_put feat st i _ _ _ Hn Hids (ext_refl _ _) _ _ _ _ _); [discriminate|reflexivity| | |].
      * cbn [san]. now rewrite Ef.
      * intros _. cbn [strip btype_ok]. intros ((A & B & C) & D & E). apply (new_int_ok (h_name h) 1 0 0); [exact A|apply word_ok_1].
      * intros [R _]. split; [exact R|exact I].
  - (* TypeTag *)
    destruct (feat FTypeTag) eqn:Ef; apply ok_inj in H; subst st'.
    + apply (step_same feat _ _ _ Hn Hids). cbn [san]. now rewrite Ef.
    + refine (step_put feat st i _ _ _ Hn Hids (ext_refl _ _) _ _ _ _ _); [discriminate|reflexivity| | |].
      * cbn [san]. now rewrite Ef.
      * intros _. cbn [strip btype_ok new_const h_info]. intros [(A & B & C) D].
        split; [split; [apply word_ok_0|split; [apply (kind_info_word KConst)|exact C]]|apply (kind_info_kind KConst)].
      * intros _. now apply refs_0.
  - (* Enum64 *)
    destruct (feat FEnum64) eqn:Ef.
    + apply ok_inj in H. subst st'. apply (step_same feat _ _ _ Hn Hids). cbn [san]. now rewrite Ef.
    + destruct (add_place st) as [st2 id] eqn:Ea. apply ok_inj in H. subst st'.
      destruct (add_place_ext feat _ _ _ Ea (proj2 Hids)) as (A1 & A2 & A3 & A4 & A5).
      match goal with |- step_ok _ _ _ {| s_btf := set_type _ _ ?tt |} => set (t' := tt) end.
      exists (TEnum64 h variants), t', (s_btf st2). split; [exact Hn|]. split; [exact A1|]. split.
      { cbn [s_btf]. replace (type_info_size t') with (type_info_size (TEnum64 h variants)); [now rewrite resize_same|].
        unfold t', new_union. cbn [type_info_size]. now rewrite map_length. }
      split; [cbn [san]; rewrite Ef; exists id; reflexivity|]. split.
      { intros Hi _. pose proof (inv_type_ok _ _ _ Hi Hn ltac:(discriminate)) as [Hok _].
        cbn [strip btype_ok] in Hok. destruct Hok as ((A & B & C) & D & E & F).
        apply (new_union_ok (h_name h) (h_third h)); [exact A| |exact C|rewrite map_length; eapply vlen_short; exact F].
        apply member_words_all. rewrite triple_words_all in D. rewrite Forall_map. eapply Forall_impl; [|exact D].
        cbv beta. intros v (V1 & _). cbn [m_name m_type m_off]. split; [exact V1|]. split; [exact A4|apply word_ok_0]. }
      split; [discriminate|]. split.
      { split; cbn [s_btf s_filler s_place]; intros x Hx; unfold set_type, set_types; cbn [b_types]; rewrite upd_length.
        - rewrite A3 in Hx. destruct (proj1 Hids x Hx) as [B1 B2]. split; [exact B1|]. pose proof (ext_len _ _ _ A1). lia.
        - rewrite A2 in Hx. assert (x = id) as -> by congruence. auto. }
      apply refs_same; [eapply ext_slen; exact A1|reflexivity|exact I].
Qed.
