(** Proofs about enum and type relocations and the relocation loop. *)
From Verif Require Import Base Text Insn LinkModel BtfTypes BtfModel BtfExt CoreModel CoreSpec CoreProofs CoreProofs2 CoreProofs3.
Local Open Scope Z_scope.

Lemma lor_shift a b n : 0 <= n -> 0 <= b < 2 ^ n -> Z.lor (Z.shiftl a n) b = b + 2 ^ n * a.
Proof.
  intros Hn Hb.
  assert (Z.land (Z.shiftl a n) b = 0) as L.
  { apply Z.bits_inj'. intros i Hi. rewrite Z.land_spec, Z.bits_0.
    destruct (Z.lt_ge_cases i n).
    - rewrite Z.shiftl_spec_low by assumption. reflexivity.
    - assert (Z.testbit b i = false) as ->; [|apply andb_false_r].
      destruct (Z.eq_dec b 0) as [->|N]; [apply Z.bits_0|].
      apply Z.bits_above_log2; [lia|]. apply Z.lt_le_trans with n; [|assumption].
      apply Z.log2_lt_pow2; lia. }
  rewrite <- (Z.lxor_lor _ _ L), <- (Z.add_nocarry_lxor _ _ L), Z.shiftl_mul_pow2 by assumption. ring.
Qed.
Lemma u64_i64 x : 0 <= x < 2 ^ 64 -> u64 (i64 x) = x.
Proof.
  intros H. unfold u64, i64, swrap, wrap. cbv zeta. change (2 ^ (64 - 1)) with 9223372036854775808.
  change (2 ^ 64) with 18446744073709551616 in *. rewrite (Z.mod_small x) by assumption.
  destruct (Z.ltb_spec x 9223372036854775808); lia.
Qed.

Lemma variant_value_spec t i v : enum_words t -> variant_value t i = Some v ->
  0 <= i /\ exists x, enumerator t (Z.to_nat i) = Some x /\ v = u64 x.
Proof.
  intros W H. destruct t; try contradiction; cbn [variant_value enumerator enum_words] in *.
  - destruct (zget i variants) as [p|] eqn:E; [|discriminate]. apply zget_some in E. destruct E as (L & E).
    split; [apply L|]. rewrite E. apply nth_error_In in E. pose proof (W _ E) as W1.
    eexists. split; [reflexivity|]. apply some_inj in H; subst v. destruct (info_flag _); [reflexivity|].
    clear - W1. unfold u64, wrap. symmetry. apply Z.mod_small. lia.
  - destruct (zget i variants) as [p|] eqn:E; [|discriminate]. apply zget_some in E. destruct E as (L & E).
    split; [apply L|]. rewrite E. apply nth_error_In in E. destruct (W _ E) as [W1 W2].
    eexists. split; [reflexivity|]. apply some_inj in H; subst v. rewrite lor_shift by (clear - W1; lia).
    generalize dependent (snd (fst p)). intros lo W1. generalize dependent (snd p). intros hi W2. clear - W1 W2.
    assert (0 <= lo + 2 ^ 32 * hi < 2 ^ 64) as R by lia.
    destruct (info_flag _); [now rewrite u64_i64|]. unfold u64, wrap. symmetry. now apply Z.mod_small.
Qed.

(** The first variant of that essential name. *)
Lemma match_variant_spec tb lname tid : forall ns i sp ts, match_variant tb lname tid ns i sp = Ok (Some ts) ->
  exists j no n, nth_error ns j = Some no /\ string_at tb no = Ok n /\ flavorless n = flavorless lname /\
    (forall j' no' n', (j' < j)%nat -> nth_error ns j' = Some no' -> string_at tb no' = Ok n' -> flavorless n' <> flavorless lname) /\
    ts = push_acc {| ac_type := tid; ac_index := i + Z.of_nat j; ac_name := None |} (push_part (i + Z.of_nat j) sp).
Proof.
  induction ns as [|no ns IH]; intros i sp ts H; cbn [match_variant] in H; [discriminate|].
  apply bind_lift_ok in H. destruct H as (n & En & H).
  destruct (str_eqb (flavorless lname) (flavorless n)) eqn:E.
  - apply ok_inj, some_inj in H. subst ts. exists 0%nat, no, n. apply str_eqb_eq in E.
    split; [reflexivity|]. split; [exact En|]. split; [congruence|]. split; [intros; lia|]. rewrite Z.add_0_r. reflexivity.
  - apply IH in H. destruct H as (j & no' & n' & H1 & H2 & H3 & H4 & H5).
    exists (S j), no', n'. split; [exact H1|]. split; [exact H2|]. split; [exact H3|]. split.
    + intros [|j'] no2 n2 L Hn Hs.
      * cbn in Hn. apply some_inj in Hn. subst no2. rewrite En in Hs. apply ok_inj in Hs. subst n2.
        intros X. rewrite <- X in E. rewrite (proj2 (str_eqb_eq _ _) eq_refl) in E. discriminate.
      * apply (H4 j' no2 n2); [lia|exact Hn|exact Hs].
    + rewrite H5. f_equal; [|f_equal]; [|lia]. f_equal. lia.
Qed.

Lemma enum_value stack be lb tb root s ls cid ts c tid t :
  access_new lb EValue root s = Ok ls -> match_candidate stack lb tb EValue ls cid = Ok (Some ts) ->
  resolve_type (b_types tb) cid = Ok tid -> type_by_id (b_types tb) tid = Ok t -> enum_words t ->
  compute be lb tb EValue ls (Some ts) = Ok c ->
  exists i lid lt lns lno lname j ns no n x,
    parse_parts s = Ok [i] /\ resolve_type (b_types lb) root = Ok lid /\ type_by_id (b_types lb) lid = Ok lt /\
    variant_names lt = Some lns /\ zget i lns = Some lno /\ string_at lb lno = Ok lname /\
    variant_names t = Some ns /\ nth_error ns j = Some no /\ string_at tb no = Ok n /\ flavorless n = flavorless lname /\
    enumerator t j = Some x /\ c_target c = Some (only (u64 x)).
Proof.
  intros HA HM HR HT HW HC. unfold access_new in HA. apply bind_ok in HA. destruct HA as (parts & HP & HA).
  apply bind_lift_ok in HA. destruct HA as (lid & HL1 & HA). apply bind_lift_ok in HA. destruct HA as (lt & HL2 & HA).
  cbn [class_of] in HA. destruct (variant_names lt) as [lns|] eqn:HV; [|discriminate].
  destruct parts as [|i [|? ?]]; try discriminate. destruct (zget i lns) as [lno|] eqn:HZ; [|discriminate].
  apply bind_lift_ok in HA. destruct HA as (lname & HS & HA). apply ok_inj in HA. subst ls.
  unfold match_candidate in HM. cbn [class_of] in HM. rewrite HR in HM. cbn [lift bind] in HM. rewrite HT in HM. cbn [lift bind] in HM.
  destruct (variant_names t) as [ns|] eqn:HV2; [|discriminate]. cbn [sp_acc] in HM.
  apply match_variant_spec in HM. destruct HM as (j & no & n & M1 & M2 & M3 & _ & M5).
  unfold compute in HC. cbn [class_of] in HC. apply bind_ok in HC. destruct HC as (l & _ & HC).
  apply bind_ok in HC. destruct HC as (o & HC & Hc). apply ok_inj in Hc. subst c. cbn [c_target].
  cbn [compute_enum] in HC. subst ts. cbn [push_acc push_part sp_acc app ac_type ac_index] in HC. rewrite HT in HC. cbn [lift bind ac_type ac_index] in HC.
  exists i, lid, lt, lns, lno, lname, j, ns, no, n.
  destruct (variant_value t (0 + Z.of_nat j)) as [v|] eqn:VV; [|cbn in HC; discriminate].
  apply variant_value_spec in VV; [|exact HW]. destruct VV as (_ & x & Hx & ->). cbn [ok_opt] in HC. apply ok_inj in HC. subst o.
  exists x. rewrite Z.add_0_l, Nat2Z.id in Hx. auto 20.
Qed.

Lemma type_values tb k ls ts v : class_of k = CType -> compute_type tb k ls ts = Ok v ->
  v_value v = match k, ts with
              | TIdLocal, _ => sp_root ls
              | TIdTarget, Some t => sp_root t
              | TExists, Some _ => 1
              | TExists, None => 0
              | TSize, Some t => match type_size (b_types tb) (sp_root t) with Ok n => n | Err _ => 0 end
              | _, _ => 0
              end.
Proof.
  intros HK H. unfold compute_type in H.
  destruct k; try discriminate HK; destruct ts as [t|]; try discriminate H; try (apply ok_inj in H; subst v; reflexivity).
  apply bind_lift_ok in H. destruct H as (n & E & H). rewrite E. apply ok_inj in H. subst v. reflexivity.
Qed.

(** The loop. *)
Lemma inside_iff sec f r : inside sec f r = true <->
  f_sec f = sec /\ f_secoff f / 8 <= rl_ins_off r / 8 < f_secoff f / 8 + Z.of_nat (length (f_ins f)).
Proof.
  unfold inside. rewrite !andb_true_iff, Nat.eqb_eq, Z.leb_le, Z.ltb_lt. intuition congruence.
Qed.
Lemma find_fun_sound sec r : forall funs i j, find_fun sec r funs i = Some j ->
  exists f, (i <= j)%nat /\ nth_error funs (j - i) = Some f /\ inside sec f r = true.
Proof.
  induction funs as [|f funs IH]; intros i j H; cbn [find_fun] in H; [discriminate|].
  destruct (inside sec f r) eqn:E.
  - apply some_inj in H. subst j. exists f. rewrite Nat.sub_diag. auto.
  - apply IH in H. destruct H as (g & L & N & I). exists g. split; [lia|]. split; [|exact I].
    replace (j - i)%nat with (S (j - S i)) by lia. exact N.
Qed.
Lemma find_fun_none sec r : forall funs i, find_fun sec r funs i = None <-> forall f, In f funs -> inside sec f r = false.
Proof.
  induction funs as [|f funs IH]; intros i; cbn [find_fun].
  - split; [intros _ ? []|reflexivity].
  - destruct (inside sec f r) eqn:E.
    + split; [discriminate|]. intros H. rewrite (H f) in E by (now left). discriminate.
    + rewrite IH. split; [intros H g [<-|Hg]; auto|intros H g Hg; apply H; now right].
Qed.
Lemma pick_fun_sound sec r funs last i : pick_fun sec r funs last = Some i ->
  exists f, nth_error funs i = Some f /\ inside sec f r = true.
Proof.
  assert (forall j, find_fun sec r funs 0 = Some j -> exists f, nth_error funs j = Some f /\ inside sec f r = true) as F.
  { intros j H. apply find_fun_sound in H. destruct H as (f & _ & N & I). rewrite Nat.sub_0_r in N. eauto. }
  unfold pick_fun. destruct last as [k|]; [|apply F]. destruct (nth_error funs k) as [f|] eqn:E; [|apply F].
  destruct (inside sec f r) eqn:I; [|apply F]. intros H. apply some_inj in H. subst k. eauto.
Qed.
Lemma pick_fun_complete sec r funs last f : In f funs -> inside sec f r = true -> exists i, pick_fun sec r funs last = Some i.
Proof.
  intros HI I. assert (exists i, find_fun sec r funs 0 = Some i) as F.
  { destruct (find_fun sec r funs 0) as [i|] eqn:E; [eauto|]. rewrite find_fun_none in E. rewrite (E f HI) in I. discriminate. }
  unfold pick_fun. destruct last as [k|]; [|exact F]. destruct (nth_error funs k) as [g|]; [|exact F].
  destruct (inside sec g r); [eauto|exact F].
Qed.

Lemma aligned_upd funs i f ins : aligned funs -> nth_error funs i = Some f -> aligned (upd i (set_ins f ins) funs).
Proof.
  intros A N g Hg. apply In_nth_error in Hg. destruct Hg as [j Hj]. rewrite nth_error_upd in Hj.
  destruct (i =? j)%nat.
  - destruct (j <? length funs)%nat; [apply some_inj in Hj; subst g; apply nth_error_In in N; apply (A _ N)|].
    discriminate Hj.
  - apply nth_error_In in Hj. apply (A _ Hj).
Qed.
Lemma index_eq o s : s mod 8 = 0 -> 0 <= s -> 0 <= o < 2 ^ 32 -> s / 8 <= o / 8 -> u64 (o - s) / 8 = o / 8 - s / 8.
Proof.
  intros H1 H2 H3 H4. assert (s = 8 * (s / 8)) as E by (pose proof (Z.div_mod s 8); lia).
  generalize dependent (s / 8). intros q Hq E. subst s. clear H1.
  assert (8 * q <= o) as L by (pose proof (Z.div_mod o 8); pose proof (Z.mod_pos_bound o 8); lia).
  unfold u64, wrap. rewrite Z.mod_small by lia. replace (o - 8 * q) with (o + (- q) * 8) by ring. rewrite Z.div_add by lia. lia.
Qed.

Lemma relocate_funs_carried stack be lb tb sec : forall rs funs last ch funs' ch',
  aligned funs -> relos_ok rs -> cache_ok lb tb ch ->
  relocate_funs stack be lb tb sec rs funs last ch = Ok (funs', ch') ->
  carried stack be lb tb sec rs funs funs' /\ cache_ok lb tb ch'.
Proof.
  induction rs as [|r rs IH]; intros funs last ch funs' ch' A R C H; cbn [relocate_funs] in H.
  { apply ok_inj in H. injection H as <- <-. split; [constructor|exact C]. }
  destruct (pick_fun sec r funs last) as [i|] eqn:P; [|discriminate]. apply pick_fun_sound in P. destruct P as (f & N & I).
  rewrite N in H. apply inside_iff in I. destruct I as (Is & Ib). cbv zeta in H.
  assert (u64 (rl_ins_off r - f_secoff f) / 8 = rl_ins_off r / 8 - f_secoff f / 8) as EI.
  { destruct (A f) as [A1 A2]; [now apply nth_error_In in N|]. apply index_eq; [exact A1|exact A2|apply R; now left|apply Ib]. }
  rewrite EI in H. destruct (_ <=? _); [discriminate|].
  apply bind_ok in H. destruct H as ([c ch1] & HS & H). apply bind_ok in H. destruct H as (ins & HA & H). cbn [fst snd] in H, HA.
  pose proof (solve_cache stack be lb tb ch r C) as SC.
  destruct (solve stack be lb tb [] r) as [[c0 ch0]|e] eqn:S0; [|congruence].
  destruct SC as (ch2 & S2 & C2). rewrite HS in S2. apply ok_inj in S2. injection S2 as <- <-.
  apply IH in H.
  - destruct H as [H C']. split; [|exact C']. econstructor; eauto.
  - now apply aligned_upd.
  - intros r' Hr'. apply R. now right.
  - exact C2.
Qed.

Lemma relocate_secs_carried stack be lb tb sections : forall relos funs ch funs' ch',
  aligned funs -> (forall o rs, In (o, rs) relos -> relos_ok rs) -> cache_ok lb tb ch ->
  relocate_secs stack be lb tb sections relos funs ch = Ok (funs', ch') ->
  carried_all stack be lb tb sections relos funs funs'.
Proof.
  induction relos as [|[o rs] relos IH]; intros funs ch funs' ch' A R C H; cbn [relocate_secs] in H.
  { apply ok_inj in H. injection H as <- <-. constructor. }
  apply bind_lift_ok in H. destruct H as (name & Hn & H).
  destruct (assoc str_eqb name sections) as [sec|] eqn:Hs; [|discriminate].
  apply bind_ok in H. destruct H as ([mid ch1] & H1 & H). cbn [fst snd] in H.
  apply relocate_funs_carried in H1; [|exact A|apply (R o rs); now left|exact C]. destruct H1 as [H1 C1].
  apply carried_all_cons with (name := name) (sec := sec) (mid := mid); [exact Hn|exact Hs|exact H1|].
  apply IH in H; [exact H| |intros o' rs' Hr; apply (R o' rs'); now right|exact C1].
  clear - A H1. induction H1; [exact A|]. apply IHcarried. now apply aligned_upd.
Qed.
Lemma relocate_btf_carried stack be lb tb sections relos funs funs' :
  aligned funs -> (forall o rs, In (o, rs) relos -> relos_ok rs) ->
  relocate_btf stack be lb tb sections relos funs = Ok funs' -> carried_all stack be lb tb sections relos funs funs'.
Proof.
  intros A R H. unfold relocate_btf in H. apply bind_ok in H. destruct H as ([f ch] & H & E). apply ok_inj in E. cbn in E. subst f.
  eapply relocate_secs_carried; eauto. intros ? ? ?; discriminate.
Qed.

(** What stays. *)
Lemma carried_frame stack be lb tb sec rs funs funs' : carried stack be lb tb sec rs funs funs' ->
  length funs' = length funs /\
  forall i f, nth_error funs i = Some f -> exists f', nth_error funs' i = Some f' /\
    f_sec f' = f_sec f /\ f_addr f' = f_addr f /\ f_secoff f' = f_secoff f /\ f_finfo f' = f_finfo f /\ f_linfo f' = f_linfo f /\
    length (f_ins f') = length (f_ins f) /\
    forall j, (forall r, In r rs -> f_sec f = sec ->
                 rl_ins_off r / 8 <> f_secoff f / 8 + Z.of_nat j /\ rl_ins_off r / 8 + 1 <> f_secoff f / 8 + Z.of_nat j) ->
      nth_error (f_ins f') j = nth_error (f_ins f) j.
Proof.
  induction 1 as [funs|r rs funs funs' i f c ch ins N S B HS HA _ [IHl IH]].
  - split; [reflexivity|]. intros i f N. exists f. auto 10.
  - split; [rewrite IHl; apply upd_length|]. intros k g Hg.
    destruct (Nat.eq_dec i k) as [->|D].
    + assert (g = f) as -> by congruence.
      destruct (IH k (set_ins f ins)) as (f' & E1 & E2 & E3 & E4 & E5 & E6 & E7 & E8).
      { apply nth_error_upd_eq. apply nth_error_Some. congruence. }
      exists f'. split; [exact E1|]. cbn [set_ins f_sec f_addr f_secoff f_finfo f_linfo f_ins] in *.
      pose proof (apply_length _ _ _ _ _ _ HA) as HL.
      split; [exact E2|]. split; [exact E3|]. split; [exact E4|]. split; [exact E5|]. split; [exact E6|]. split; [congruence|].
      intros j Hj. rewrite E8 by (intros r' Hr'; apply Hj; now right).
      destruct (Hj r (or_introl eq_refl) S) as [J1 J2].
      unfold apply_at in HA. destruct (zget _ (f_ins f)) as [x|] eqn:Z; [|discriminate]. fold (apply_at lb tb c (f_ins f)) in HA.
      assert (apply_at lb tb c (f_ins f) (rl_ins_off r / 8 - f_secoff f / 8) = Ok ins) as HA'.
      { unfold apply_at. rewrite Z. exact HA. }
      eapply apply_frame; [exact HA'|exact Z| |]; [|intros _]; apply zget_some in Z; lia.
    + destruct (IH k g) as (f' & E1 & E2 & E3 & E4 & E5 & E6 & E7 & E8).
      { rewrite nth_error_upd_ne by exact D. exact Hg. }
      exists f'. split; [exact E1|]. do 6 (split; [assumption|]). intros j Hj. apply E8. intros r' Hr'. apply Hj. now right.
Qed.

Lemma pick_fun_unique sec r funs last i :
  (forall a b f g, nth_error funs a = Some f -> nth_error funs b = Some g -> inside sec f r = true -> inside sec g r = true -> a = b) ->
  (pick_fun sec r funs last = Some i <-> exists f, nth_error funs i = Some f /\ inside sec f r = true).
Proof.
  intros U. split; [apply pick_fun_sound|]. intros (f & N & I).
  destruct (pick_fun_complete sec r funs last f) as [j P]; [now apply nth_error_In in N|exact I|].
  rewrite P. apply pick_fun_sound in P. destruct P as (g & N' & I'). f_equal. eapply U; eauto.
Qed.
