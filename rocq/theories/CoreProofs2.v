(** Proofs about patching, candidate choice and names. *)
From Verif Require Import Base Text Insn LinkModel BtfTypes BtfModel BtfExt CoreModel CoreSpec CoreProofs.
Local Open Scope Z_scope.

Lemma zget_some {A} i (l : list A) x : zget i l = Some x ->
  0 <= i < Z.of_nat (length l) /\ nth_error l (Z.to_nat i) = Some x.
Proof. unfold zget. destruct (_ && _) eqn:E; [|discriminate]. intros H. split; [lia|exact H]. Qed.

(** Only the instruction, and the second slot of a 64-bit load. *)
Lemma apply_length lb tb c ins idx ins' : apply_at lb tb c ins idx = Ok ins' -> length ins' = length ins.
Proof.
  unfold apply_at. destruct (zget idx ins) as [x|]; [|discriminate]. cbv zeta.
  destruct (c_target c) as [t|].
  - destruct (_ || _); [destruct (src x =? 0); [|discriminate]; intros H; apply ok_inj in H; subst; now rewrite upd_length|].
    destruct (_ || _).
    { destruct (_ <? _); [discriminate|]. rewrite bind_ok. intros (cd & _ & H). apply ok_inj in H. subst. now rewrite upd_length. }
    destruct (_ =? _); [|discriminate]. destruct (nth_error _ _); [|discriminate].
    intros H; apply ok_inj in H; subst. now rewrite !upd_length.
  - destruct (_ =? _); [destruct (nth_error _ _); [|discriminate]|]; intros H; apply ok_inj in H; subst; now rewrite !upd_length.
Qed.

Lemma apply_frame lb tb c ins idx ins' x j : apply_at lb tb c ins idx = Ok ins' -> zget idx ins = Some x ->
  j <> Z.to_nat idx -> (is_ld_class (code x) = true -> j <> S (Z.to_nat idx)) ->
  nth_error ins' j = nth_error ins j.
Proof.
  unfold apply_at. intros H Ex Hj Hs. rewrite Ex in H. cbv zeta in H. unfold is_ld_class in Hs.
  destruct (c_target c) as [t|].
  - destruct (_ || _) in H.
    { destruct (src x =? 0) in H; [|discriminate]. apply ok_inj in H; subst. apply nth_error_upd_ne; congruence. }
    destruct (_ || _) in H.
    { destruct (_ <? _) in H; [discriminate|]. apply bind_ok in H as (cd & _ & H). apply ok_inj in H. subst.
      apply nth_error_upd_ne; congruence. }
    destruct (Z.land (code x) 7 =? 0); [|discriminate]. destruct (nth_error ins _) in H; [|discriminate].
    apply ok_inj in H; subst. specialize (Hs eq_refl). rewrite !nth_error_upd_ne by congruence. reflexivity.
  - destruct (code x =? LDDW_CODE) eqn:El in H.
    + apply Z.eqb_eq in El. rewrite El in Hs. specialize (Hs eq_refl).
      destruct (nth_error ins _) in H; [|discriminate].
      apply ok_inj in H; subst. rewrite !nth_error_upd_ne by congruence. reflexivity.
    + apply ok_inj in H; subst. apply nth_error_upd_ne; congruence.
Qed.

(** Missing target: the instruction is poisoned. *)
Lemma apply_poison lb tb c ins idx ins' x : apply_at lb tb c ins idx = Ok ins' -> zget idx ins = Some x ->
  c_target c = None ->
  nth_error ins' (Z.to_nat idx) = Some poison /\
  (code x = LDDW_CODE -> nth_error ins' (S (Z.to_nat idx)) = Some poison).
Proof.
  unfold apply_at. intros H Ex Hn. rewrite Ex, Hn in H. cbv zeta in H. apply zget_some in Ex as [Hr Hx].
  destruct (code x =? LDDW_CODE) eqn:El.
  - destruct (nth_error ins (S (Z.to_nat idx))) eqn:E2; [|discriminate]. apply ok_inj in H; subst.
    assert (S (Z.to_nat idx) < length ins)%nat by (apply nth_error_Some; congruence).
    split; [rewrite nth_error_upd_ne by lia; apply nth_error_upd_eq; lia|intros _].
    apply nth_error_upd_eq. rewrite upd_length. lia.
  - apply ok_inj in H; subst. split; [apply nth_error_upd_eq; lia|]. intros E. rewrite E in El. discriminate.
Qed.

Lemma apply_poison_total lb tb c ins idx x : zget idx ins = Some x -> c_target c = None ->
  (code x = LDDW_CODE -> idx + 1 < Z.of_nat (length ins)) -> exists ins', apply_at lb tb c ins idx = Ok ins'.
Proof.
  intros Ex Hn Hl. unfold apply_at. rewrite Ex, Hn. cbv zeta. destruct (Z.eqb_spec (code x) LDDW_CODE) as [El|]; [|eauto].
  destruct (nth_error ins (S (Z.to_nat idx))) eqn:E2; [eauto|].
  apply nth_error_None in E2. specialize (Hl El). apply zget_some in Ex as [Hr _]. lia.
Qed.

(** Arithmetic: the immediate is the value, everything else is kept. *)
Lemma apply_alu lb tb c ins idx ins' x t : apply_at lb tb c ins idx = Ok ins' -> zget idx ins = Some x ->
  c_target c = Some t -> is_alu_class (code x) = true ->
  src x = 0 /\ nth_error ins' (Z.to_nat idx) = Some (set_imm (i32 (v_value t)) x).
Proof.
  unfold apply_at, is_alu_class. intros H Ex Ht Hc. rewrite Ex, Ht in H. cbv zeta in H. rewrite Hc in H.
  apply zget_some in Ex as [Hr _]. destruct (Z.eqb_spec (src x) 0) as [E|E]; [|discriminate].
  apply ok_inj in H; subst. split; [exact E|]. apply nth_error_upd_eq. lia.
Qed.

Lemma class_excl c : is_mem_class c = true -> is_alu_class c = false /\ is_ld_class c = false.
Proof. unfold is_mem_class, is_alu_class, is_ld_class. lia. Qed.
Lemma class_excl_ld c : is_ld_class c = true -> is_alu_class c = false /\ is_mem_class c = false.
Proof. unfold is_mem_class, is_alu_class, is_ld_class. lia. Qed.

(** 64-bit immediate: the two halves are the value. *)
Lemma halves v : 0 <= v < 2 ^ 64 -> u32 (i32 v) + 2 ^ 32 * u32 (i32 (Z.shiftr v 32)) = v.
Proof.
  intros H. rewrite Z.shiftr_div_pow2 by lia.
  assert (forall w, u32 (i32 w) = w mod 2 ^ 32) as U.
  { intros w. unfold u32, i32, wrap, swrap. cbv zeta. destruct (_ <? _).
    - apply Z.mod_mod. lia.
    - replace (w mod 2 ^ 32 - 2 ^ 32) with (w mod 2 ^ 32 + (-1) * 2 ^ 32) by ring.
      rewrite Z.mod_add, Z.mod_mod by lia. reflexivity. }
  rewrite !U. lia.
Qed.
Lemma apply_ld lb tb c ins idx ins' x t : apply_at lb tb c ins idx = Ok ins' -> zget idx ins = Some x ->
  c_target c = Some t -> is_ld_class (code x) = true ->
  exists y, nth_error ins (S (Z.to_nat idx)) = Some y /\
    nth_error ins' (Z.to_nat idx) = Some (set_imm (i32 (v_value t)) x) /\
    nth_error ins' (S (Z.to_nat idx)) = Some (set_imm (i32 (Z.shiftr (v_value t) 32)) y).
Proof.
  intros H Ex Ht Hc. destruct (class_excl_ld _ Hc) as [Ha Hm]. unfold apply_at in H.
  rewrite Ex, Ht in H. cbv zeta in H. unfold is_ld_class, is_alu_class, is_mem_class in *. rewrite Ha, Hm, Hc in H.
  destruct (nth_error ins (S (Z.to_nat idx))) as [y|] eqn:E2; [|discriminate].
  apply ok_inj in H; subst. apply zget_some in Ex as [Hr _].
  assert (S (Z.to_nat idx) < length ins)%nat by (apply nth_error_Some; congruence).
  exists y. split; [reflexivity|]. split.
  - rewrite nth_error_upd_ne by lia. apply nth_error_upd_eq. lia.
  - apply nth_error_upd_eq. rewrite upd_length. lia.
Qed.

(** Loads and stores: the offset is the value, the width that of the target. *)
Lemma size_bits_cases n s : size_bits n = Some s ->
  (n = 8 /\ s = 24) \/ (n = 4 /\ s = 0) \/ (n = 2 /\ s = 8) \/ (n = 1 /\ s = 16).
Proof.
  unfold size_bits. destruct (Z.eqb_spec n 8); [intros H; inversion H; auto|].
  destruct (Z.eqb_spec n 4); [intros H; inversion H; auto|]. destruct (Z.eqb_spec n 2); [intros H; inversion H; auto|].
  destruct (Z.eqb_spec n 1); [intros H; inversion H; auto 6|discriminate].
Qed.

Definition recode (c s : Z) : Z := Z.lor (Z.lor (Z.land c 224) s) (Z.land c 7).
Lemma recode_bits c s : In s [0; 8; 16; 24] ->
  Z.land (recode c s) 24 = s /\ Z.land (recode c s) 7 = Z.land c 7 /\ Z.land (recode c s) 224 = Z.land c 224.
Proof.
  intros Hs. unfold recode.
  assert (forall a m, Z.land (Z.lor (Z.lor (Z.land c 224) a) (Z.land c 7)) m =
     Z.lor (Z.lor (Z.land c (Z.land 224 m)) (Z.land a m)) (Z.land c (Z.land 7 m))) as D.
  { intros a m. rewrite !Z.land_lor_distr_l, <- !Z.land_assoc. reflexivity. }
  rewrite !D. change (Z.land 224 24) with 0. change (Z.land 7 24) with 0.
  change (Z.land 224 7) with 0. change (Z.land 7 7) with 7. change (Z.land 224 224) with 224. change (Z.land 7 224) with 0.
  rewrite !Z.land_0_r.
  destruct Hs as [<-|[<-|[<-|[<-|[]]]]]; cbn [Z.land Z.lor]; rewrite ?Z.lor_0_r, ?Z.lor_0_l; repeat split; reflexivity.
Qed.

Lemma resize_spec lb tb local target c c' : resize lb tb local target c = Ok c' ->
  (v_size local = v_size target /\ c' = c) \/
  (v_size local <> v_size target /\ word_size (v_size target) /\
   Z.land c' 7 = Z.land c 7 /\ Z.land c' 224 = Z.land c 224 /\ insn_width c' = v_size target).
Proof.
  unfold resize. destruct (Z.eqb_spec (v_size local) (v_size target)) as [E|E].
  { intros H; apply ok_inj in H; auto. }
  destruct (v_type local) as [lt|]; [|discriminate]. rewrite bind_lift_ok. intros (lty & _ & H).
  destruct (v_type target) as [tt'|]; [|discriminate]. apply bind_lift_ok in H as (tty & _ & H).
  destruct (match lty with TPtr _ => _ | _ => _ end) in H; [|discriminate].
  destruct (size_bits (v_size target)) as [s|] eqn:Es; [|discriminate]. apply ok_inj in H. right.
  apply size_bits_cases in Es.
  assert (In s [0; 8; 16; 24]) as Hs by (cbn; lia).
  destruct (recode_bits c s Hs) as (B1 & B2 & B3). subst c'. fold (recode c s).
  split; [exact E|]. split; [unfold word_size; lia|]. split; [exact B2|]. split; [exact B3|].
  unfold insn_width. rewrite B1. cbv zeta. destruct Es as [[-> ->]|[[-> ->]|[[-> ->]|[-> ->]]]]; reflexivity.
Qed.

Lemma i16_small v : 0 <= v <= 32767 -> i16 v = v.
Proof. intros H. unfold i16, swrap. rewrite Z.mod_small by lia. cbv zeta. destruct (Z.ltb_spec v (2 ^ (16 - 1))); lia. Qed.

Lemma apply_mem lb tb c ins idx ins' x t : apply_at lb tb c ins idx = Ok ins' -> zget idx ins = Some x ->
  c_target c = Some t -> is_mem_class (code x) = true -> 0 <= v_value t ->
  v_value t <= 32767 /\
  exists cd, nth_error ins' (Z.to_nat idx) = Some (set_code cd (set_off (v_value t) x)) /\
    Z.land cd 7 = Z.land (code x) 7 /\ Z.land cd 224 = Z.land (code x) 224 /\
    (v_size (c_local c) = v_size t -> cd = code x) /\
    (v_size (c_local c) <> v_size t -> insn_width cd = v_size t).
Proof.
  intros H Ex Ht Hc H0. destruct (class_excl _ Hc) as [Ha Hl]. unfold apply_at in H.
  rewrite Ex, Ht in H. cbv zeta in H. unfold is_ld_class, is_alu_class, is_mem_class in *. rewrite Ha, Hc in H.
  destruct (Z.ltb_spec 32767 (v_value t)) as [L|L]; [discriminate|].
  apply bind_ok in H as (cd & R & H). apply ok_inj in H. apply zget_some in Ex as [Hr _].
  split; [exact L|]. exists cd. subst ins'. rewrite i16_small by lia.
  split; [apply nth_error_upd_eq; lia|].
  destruct (resize_spec _ _ _ _ _ _ R) as [[E ->]|(E & W & B1 & B2 & B3)]; repeat split; auto; congruence.
Qed.

(** Candidate choice. *)
Lemma choose_uniform_perm ms ms' : Permutation ms ms' -> uniform ms ->
  match choose ms, choose ms' with
  | Ok (Some c), Ok (Some c') => target_value c = target_value c'
  | Ok None, Ok None => ms = []
  | Err e, Err e' => e = RConflict /\ e' = RConflict
  | _, _ => False
  end.
Proof.
  intros HP HU.
  assert (forall a b, In a ms -> In b ms -> agrees a b = true -> fst a = fst b /\ target_value (snd a) = target_value (snd b)) as A1.
  { intros a b Ha Hb. unfold agrees, target_value. destruct HU as [U|U].
    - pose proof (U a Ha). pose proof (U b Hb). destruct (c_target (snd a)), (c_target (snd b)); try congruence.
      intros H'. split; [lia|]. f_equal. lia.
    - rewrite (U a Ha), (U b Hb). intros H'. split; [lia|reflexivity]. }
  assert (forall a b, In a ms -> In b ms -> fst a = fst b -> target_value (snd a) = target_value (snd b) -> agrees a b = true) as A2.
  { intros a b Ha Hb E1 E2. unfold agrees, target_value in *. rewrite E1, Z.eqb_refl. cbn [andb].
    destruct (c_target (snd a)), (c_target (snd b)); try reflexivity. inversion E2. lia. }
  destruct ms as [|a r].
  { apply Permutation_nil in HP. subst ms'. reflexivity. }
  destruct ms' as [|a' r']; [apply Permutation_sym, Permutation_nil in HP; discriminate|].
  assert (forall x y l l', In x (a :: r) -> In y (a :: r) -> (forall z, In z (a :: r) -> z = y \/ In z l') ->
     incl (x :: l) (a :: r) -> incl l' (a :: r) ->
     forallb (agrees y) l' = true -> forallb (agrees x) l = true /\ target_value (snd x) = target_value (snd y)) as K.
  { intros x y l l' Hx Hy Hcov Hl Hl' HF. rewrite forallb_forall in HF.
    assert (forall z, In z (a :: r) -> fst z = fst y /\ target_value (snd z) = target_value (snd y)) as G.
    { intros z Hz. destruct (Hcov z Hz) as [->|Hz']; [auto|]. destruct (A1 y z Hy Hz (HF z Hz')) as [E1 E2]. auto. }
    split; [|apply G; exact Hx]. apply forallb_forall. intros z Hz.
    assert (In z (a :: r)) as Hz2 by (apply Hl; now right).
    destruct (G x Hx) as [P1 P2], (G z Hz2) as [Q1 Q2]. apply A2; auto; congruence. }
  assert (In a' (a :: r)) as Ha' by (apply (Permutation_in a' (Permutation_sym HP)); now left).
  assert (incl (a' :: r') (a :: r)) as Hi by (intros z Hz; now apply (Permutation_in z (Permutation_sym HP))).
  cbn [choose]. destruct (forallb (agrees a) r) eqn:F1.
  - destruct (K a' a r' r Ha' (or_introl eq_refl)) as [F2 E]; auto.
    + intros z [->|Hz]; auto.
    + intros z Hz. now right.
    + rewrite F2. congruence.
  - destruct (forallb (agrees a') r') eqn:F2; [|auto].
    destruct (K a a' r r' (or_introl eq_refl) Ha') as [F3 _]; auto; try congruence.
    + intros z Hz. apply (Permutation_in z HP) in Hz. destruct Hz as [->|Hz]; auto.
    + intros z Hz. apply Hi. now right.
Qed.

Lemma choose_agree ms c : choose ms = Ok (Some c) ->
  forall m, In m ms -> fst m = match ms with m0 :: _ => fst m0 | [] => 0 end /\
    (forall v, c_target c <> None -> c_target (snd m) = Some v -> Some (v_value v) = target_value c).
Proof.
  destruct ms as [|a r]; [discriminate|]. cbn [choose]. destruct (forallb (agrees a) r) eqn:F; [|discriminate].
  intros H. apply ok_inj in H. inversion H; subst c; clear H. rewrite forallb_forall in F.
  intros m [->|Hm].
  - split; [reflexivity|]. intros v _ E. unfold target_value. now rewrite E.
  - specialize (F m Hm). unfold agrees in F. split; [lia|]. intros v Hn E. rewrite E in F. unfold target_value.
    destruct (c_target (snd a)) as [f|]; [f_equal; lia|congruence].
Qed.

Lemma match_all_perm stack be lb tb k ls c c' : Permutation c c' -> forall ms,
  match_all stack be lb tb k ls c = Ok ms ->
  exists ms', match_all stack be lb tb k ls c' = Ok ms' /\ Permutation ms ms'.
Proof.
  induction 1 as [|x c c' HP IH|x y c|c c2 c3 HP1 IH1 HP2 IH2]; intros ms H.
  - exists ms. split; [exact H|reflexivity].
  - cbn [match_all] in *. apply bind_ok in H as (r & Er & H). rewrite Er. cbn [bind]. destruct r as [ts|].
    + apply bind_ok in H as (cr & Ec & H). rewrite Ec. cbn [bind]. apply bind_ok in H as (ms1 & E1 & H).
      apply ok_inj in H. subst ms. destruct (IH _ E1) as (ms' & -> & P). cbn [bind]. eexists; split; [reflexivity|]. now constructor.
    + apply IH. exact H.
  - cbn [match_all] in *. apply bind_ok in H as (r & Er & H). destruct r as [ts|].
    + apply bind_ok in H as (cr & Ec & H). apply bind_ok in H as (ms1 & E1 & H). apply ok_inj in H. subst ms.
      apply bind_ok in E1 as (r2 & Er2 & E1). rewrite Er2. cbn [bind]. destruct r2 as [ts2|].
      * apply bind_ok in E1 as (cr2 & Ec2 & E1). rewrite Ec2. cbn [bind]. apply bind_ok in E1 as (ms2 & E2 & E1).
        apply ok_inj in E1. subst ms1. rewrite Er. cbn [bind]. rewrite Ec. cbn [bind]. rewrite E2. cbn [bind].
        eexists; split; [reflexivity|constructor].
      * rewrite Er. cbn [bind]. rewrite Ec. cbn [bind]. rewrite E1. cbn [bind]. eexists; split; reflexivity.
    + apply bind_ok in H as (r2 & Er2 & H). rewrite Er2. cbn [bind]. destruct r2 as [ts2|].
      * apply bind_ok in H as (cr2 & Ec2 & H). rewrite Ec2. cbn [bind]. apply bind_ok in H as (ms2 & E2 & H).
        apply ok_inj in H. subst ms. rewrite Er. cbn [bind]. rewrite E2. cbn [bind]. eexists; split; reflexivity.
      * rewrite Er. cbn [bind]. rewrite H. eexists; split; reflexivity.
  - destruct (IH1 _ H) as (ms2 & H2 & P2). destruct (IH2 _ H2) as (ms3 & H3 & P3).
    exists ms3. split; [exact H3|]. now transitivity ms2.
Qed.

Lemma decide_perm stack be lb tb k ls c c' ms : Permutation c c' ->
  match_all stack be lb tb k ls c = Ok ms -> uniform ms ->
  match decide stack be lb tb k ls c, decide stack be lb tb k ls c' with
  | Ok r, Ok r' => target_value r = target_value r'
  | Err e, Err e' => e = e'
  | _, _ => False
  end.
Proof.
  intros HP Hm HU. destruct (match_all_perm _ _ _ _ _ _ _ _ HP _ Hm) as (ms' & Hm' & P).
  unfold decide. rewrite Hm, Hm'. cbn [bind].
  pose proof (choose_uniform_perm ms ms' P HU) as H.
  destruct (choose ms) as [[r|]|e], (choose ms') as [[r'|]|e']; try contradiction; cbn [bind].
  - exact H.
  - destruct (compute be lb tb k ls None); auto.
  - destruct H; congruence.
Qed.

(** Candidates are exactly the target types of a fitting kind whose essential
    name is that of the local type. *)
Lemma find_cands_spec tb l lname ts : forall i cs, find_cands tb l lname ts i = Ok cs ->
  forall id n, In (id, n) cs <->
    exists j t, nth_error ts j = Some t /\ id = u32 (i + Z.of_nat j) /\ cand_kind l t = true /\
      type_name tb t = Ok n /\ flavorless lname = flavorless n.
Proof.
  induction ts as [|t ts IH]; intros i cs H id n; cbn [find_cands] in H.
  - apply ok_inj in H. subst cs. split; [intros []|intros (j & t & E & _)]. destruct j; discriminate.
  - assert (forall r, find_cands tb l lname ts (i + 1) = Ok r -> (In (id, n) r <-> exists j t', nth_error (t :: ts) (S j) = Some t' /\
        id = u32 (i + Z.of_nat (S j)) /\ cand_kind l t' = true /\ type_name tb t' = Ok n /\ flavorless lname = flavorless n)) as T.
    { intros r Hr. rewrite (IH _ _ Hr). split; intros (j & t' & E1 & E2 & E3); exists j, t';
        (split; [exact E1|split; [|exact E3]]); rewrite E2; f_equal; lia. }
    destruct (cand_kind l t) eqn:Ek.
    + apply bind_lift_ok in H as (n0 & En & H). apply bind_ok in H as (r & Hr & H). apply ok_inj in H.
      specialize (T r Hr). destruct (str_eqb (flavorless lname) (flavorless n0)) eqn:Ef; subst cs.
      * apply str_eqb_eq in Ef. cbn [In]. rewrite T. split.
        -- intros [E|(j & t' & E)]; [inversion E; subst; exists 0%nat, t; rewrite Z.add_0_r; auto|exists (S j), t'; exact E].
        -- intros ([|j] & t' & E1 & E2 & E3 & E4 & E5).
           ++ left. cbn in E1. inversion E1; subst t'. rewrite En in E4. inversion E4; subst n0. now rewrite E2, Z.add_0_r.
           ++ right. exists j, t'. auto.
      * apply str_eqb_neq in Ef. rewrite T. split.
        -- intros (j & t' & E). exists (S j), t'. exact E.
        -- intros ([|j] & t' & E1 & E2 & E3 & E4 & E5); [|exists j, t'; auto].
           cbn in E1. inversion E1; subst t'. congruence.
    + specialize (T cs H). rewrite T. split.
      * intros (j & t' & E). exists (S j), t'. exact E.
      * intros ([|j] & t' & E1 & E2 & E3 & E4 & E5); [|exists j, t'; auto].
        cbn in E1. inversion E1; subst t'. congruence.
Qed.

Lemma find_candidates_spec tb l lname cs : find_candidates tb l lname = Ok cs -> forall id n, In (id, n) cs <->
  exists j t, nth_error (b_types tb) j = Some t /\ id = u32 (Z.of_nat j) /\ cand_kind l t = true /\
    type_name tb t = Ok n /\ flavorless lname = flavorless n.
Proof. intros H id n. rewrite (find_cands_spec _ _ _ _ _ _ H). reflexivity. Qed.

(** The cache does not change results. *)
Definition cache_ok (lb tb : btf) (ch : cache) : Prop :=
  forall id cs, assoc Z.eqb id ch = Some cs -> forall l n,
    type_by_id (b_types lb) id = Ok l -> type_name lb l = Ok n -> find_candidates tb l n = Ok cs.

Lemma cached_cands_ok lb tb ch id l n : cache_ok lb tb ch ->
  type_by_id (b_types lb) id = Ok l -> type_name lb l = Ok n ->
  match find_candidates tb l n with
  | Ok cs => exists ch', cached_cands tb ch id l n = Ok (cs, ch') /\ cache_ok lb tb ch'
  | Err e => cached_cands tb ch id l n = Err e
  end.
Proof.
  intros Hc H1 H2. unfold cached_cands. destruct (assoc Z.eqb id ch) as [cs|] eqn:E.
  - rewrite (Hc _ _ E _ _ H1 H2). eauto.
  - destruct (find_candidates tb l n) as [cs|e] eqn:F; cbn [bind]; [|reflexivity].
    eexists; split; [reflexivity|]. intros id' cs' E' l' n' H1' H2'. cbn [assoc] in E'.
    destruct (Z.eqb_spec id' id) as [->|]; [|now apply (Hc _ _ E' _ _ H1' H2')].
    inversion E'; subst. congruence.
Qed.

Lemma solve_cache stack be lb tb ch r : cache_ok lb tb ch ->
  match solve stack be lb tb [] r with
  | Ok (c, _) => exists ch', solve stack be lb tb ch r = Ok (c, ch') /\ cache_ok lb tb ch'
  | Err e => solve stack be lb tb ch r = Err e
  end.
Proof.
  intros Hc. unfold solve. cbv zeta. set (k := rkind_of (rl_kind r)).
  destruct (type_by_id (b_types lb) (rl_type r)) as [l|e] eqn:E1; cbn [lift bind]; [|reflexivity].
  destruct (type_name lb l) as [n|e] eqn:E2; cbn [lift bind]; [|reflexivity].
  destruct (string_at lb (rl_access r)) as [a|e]; cbn [lift bind]; [|reflexivity].
  destruct (access_new lb k (rl_type r) a) as [ls|e]; cbn [bind]; [|reflexivity].
  assert (cache_ok lb tb []) as Hn by (intros ? ? ?; discriminate).
  pose proof (cached_cands_ok lb tb ch _ l n Hc E1 E2) as P1.
  pose proof (cached_cands_ok lb tb [] _ l n Hn E1 E2) as P2.
  assert (match bind (cached_cands tb [] (rl_type r) l n) (fun cc => bind (decide stack be lb tb k ls (fst cc)) (fun c => Ok (c, snd cc))) with
    | Ok (c, _) => exists ch', bind (cached_cands tb ch (rl_type r) l n) (fun cc => bind (decide stack be lb tb k ls (fst cc)) (fun c => Ok (c, snd cc))) = Ok (c, ch') /\ cache_ok lb tb ch'
    | Err e => bind (cached_cands tb ch (rl_type r) l n) (fun cc => bind (decide stack be lb tb k ls (fst cc)) (fun c => Ok (c, snd cc))) = Err e end) as M.
  { destruct (find_candidates tb l n) as [cs|e].
    - destruct P1 as (ch1 & -> & C1), P2 as (ch2 & -> & C2). cbn [bind fst snd].
      destruct (decide stack be lb tb k ls cs); cbn [bind]; eauto.
    - rewrite P1, P2. reflexivity. }
  destruct k; try exact M. destruct (compute be lb tb TIdLocal ls None); cbn [bind]; eauto.
Qed.

(** Names. *)
Lemma sep_head a b c r : (a =? US) && (b =? US) && (c =? US) = true <-> exists t, a :: b :: c :: r = SEP ++ t.
Proof.
  unfold SEP, US. split.
  - intros H. exists r. assert (a = 95 /\ b = 95 /\ c = 95) as (-> & -> & ->) by lia. reflexivity.
  - intros [t H]. inversion H. reflexivity.
Qed.
Lemma sep_head_no a b c r : (a =? US) && (b =? US) && (c =? US) = false -> forall t, a :: b :: c :: r <> SEP ++ t.
Proof. intros H t E. assert (exists t, a :: b :: c :: r = SEP ++ t) as X by eauto. apply sep_head in X. congruence. Qed.

Lemma flavorless_cons x r : flavorless (x :: r) = x :: flavorless r \/
  (flavorless (x :: r) = [] /\ exists t, x :: r = SEP ++ t).
Proof.
  cbn [flavorless]. destruct r as [|b [|c r]]; auto. destruct (_ && _) eqn:E; [|auto].
  right. split; [reflexivity|]. now apply sep_head.
Qed.

Lemma flavorless_essential n : essential n (flavorless n).
Proof.
  induction n as [|x r IH].
  { right. split; [|reflexivity]. intros (a & b & E). destruct a; discriminate. }
  destruct (flavorless_cons x r) as [E|[E [t Ht]]].
  - assert (forall t, x :: r <> SEP ++ t) as Hno.
    { intros t Ht. cbn in Ht. inversion Ht; subst. cbn in E. discriminate. }
    rewrite E. destruct IH as [(t & E1 & Hmin)|[Hno' E1]].
    + left. exists t. split; [cbn [app]; now rewrite <- E1|]. intros a b Hab. destruct a as [|y a]; [now apply Hno in Hab|].
      cbn [app] in Hab. cbn [length]. apply le_n_S. apply (Hmin a b). congruence.
    + right. split; [|now rewrite E1]. intros (a & b & Hab). destruct a as [|y a]; [now apply Hno in Hab|].
      cbn [app] in Hab. apply Hno'. exists a, b. congruence.
  - left. rewrite E. exists t. split; [exact Ht|]. intros. cbn. lia.
Qed.

Lemma essential_unique n e e' : essential n e -> essential n e' -> e = e'.
Proof.
  intros [(r & E & M)|[N E]] [(r' & E' & M')|[N' E']].
  - assert (length e = length e') as L by (pose proof (M _ _ E'); pose proof (M' _ _ E); lia).
    rewrite E in E'. apply (f_equal (firstn (length e))) in E'.
    rewrite firstn_app_exact in E' by reflexivity. rewrite L, firstn_app_exact in E' by reflexivity. exact E'.
  - destruct N'. exists e, r. exact E.
  - destruct N. exists e', r'. exact E'.
  - congruence.
Qed.

Lemma flavorless_iff n e : flavorless n = e <-> essential n e.
Proof.
  split; [intros <-; apply flavorless_essential|]. intros H. apply (essential_unique n); [apply flavorless_essential|exact H].
Qed.

Lemma flavorless_suffix base flavour : ~ has_sep (base ++ [95; 95]) -> flavorless (base ++ SEP ++ flavour) = base.
Proof.
  intros H. apply flavorless_iff. left. exists flavour. split; [reflexivity|]. intros a b E.
  destruct (Nat.le_gt_cases (length base) (length a)) as [|L]; [assumption|]. exfalso. apply H.
  exists a. exists (firstn (length base + 2 - length a - 3) b).
  assert (firstn (length base + 2) (base ++ SEP ++ flavour) = base ++ [95; 95]) as F.
  { rewrite firstn_app. rewrite (firstn_all2 base) by lia. replace (length base + 2 - length base)%nat with 2%nat by lia. reflexivity. }
  rewrite <- F, E, firstn_app. rewrite firstn_all2 by lia. f_equal. rewrite firstn_app.
  rewrite (firstn_all2 SEP) by (cbn; lia). f_equal.
Qed.

Lemma split_once_flavorless n : split_once n = if (if split_once n then true else false) then Some (flavorless n) else None.
Proof.
  induction n as [|x r IH]; [reflexivity|]. cbn [split_once flavorless].
  destruct r as [|b [|c r']].
  - destruct (split_once []) eqn:E; [cbn in E; discriminate|reflexivity].
  - destruct (split_once [b]) as [p|]; [inversion IH; subst; reflexivity|reflexivity].
  - destruct (_ && _); [reflexivity|]. destruct (split_once (b :: c :: r')) as [p|]; [inversion IH; subst; reflexivity|reflexivity].
Qed.
Lemma split_once_none n : split_once n = None <-> ~ has_sep n.
Proof.
  induction n as [|x r IH].
  - split; [intros _ (a & b & E); destruct a; discriminate|reflexivity].
  - assert (split_once (x :: r) = None <-> split_once r = None /\ forall t, x :: r <> SEP ++ t) as S.
    { cbn [split_once]. destruct r as [|b [|c r']].
      - cbn. split; [intros _; split; [reflexivity|intros t E; inversion E]|reflexivity].
      - split.
        + intros H. split; [destruct (split_once [b]); [discriminate|reflexivity]|intros t E; inversion E].
        + intros [-> _]. reflexivity.
      - destruct (_ && _) eqn:E.
        + split; [discriminate|]. intros [_ H]. apply (sep_head x b c r') in E as [t E]. now apply H in E.
        + split.
          * intros H. split; [destruct (split_once (b :: c :: r')); [discriminate|reflexivity]|now apply sep_head_no].
          * intros [-> _]. reflexivity. }
    rewrite S, IH. split.
    + intros [N1 N2] (a & b & E). destruct a as [|y a]; [now apply N2 in E|]. cbn in E. inversion E. subst. apply N1. exists a, b. reflexivity.
    + intros N. split.
      * intros (a & b & ->). apply N. exists (x :: a), b. reflexivity.
      * intros t E. apply N. exists [], t. exact E.
Qed.
