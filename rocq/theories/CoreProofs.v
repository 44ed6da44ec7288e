(** Proofs about the field arithmetic: the shifts extract exactly the field. *)
From Verif Require Import Base Text Insn LinkModel BtfTypes BtfModel BtfExt CoreModel CoreSpec.
Local Open Scope Z_scope.

Lemma le_dec_app a b : le_dec (a ++ b) = le_dec a + 256 ^ Z.of_nat (length a) * le_dec b.
Proof.
  induction a as [|x a IH]; [cbn; lia|]. cbn [le_dec app length]. rewrite IH, Nat2Z.inj_succ, Z.pow_succ_r by lia. ring.
Qed.

Lemma pow256 n : 0 <= n -> 256 ^ n = 2 ^ (8 * n).
Proof. intros H. change 256 with (2 ^ 8). now rewrite <- Z.pow_mul_r by lia. Qed.

Lemma le_dec_slice mem o n : bytes_ok mem = true -> (o + n <= length mem)%nat ->
  le_dec (slice o n mem) = (le_dec mem / 2 ^ (8 * Z.of_nat o)) mod 2 ^ (8 * Z.of_nat n).
Proof.
  intros Hb Hl.
  assert (mem = firstn o mem ++ slice o n mem ++ skipn (o + n) mem) as E.
  { unfold slice. rewrite <- skipn_skipn', firstn_skipn, firstn_skipn. reflexivity. }
  set (p := firstn o mem) in *. set (q := slice o n mem) in *. set (s := skipn (o + n) mem) in *.
  assert (length p = o) as Lp by (subst p; rewrite firstn_length; lia).
  assert (length q = n) as Lq by (subst q; rewrite slice_length; lia).
  assert (bytes_ok p = true /\ bytes_ok q = true) as [Bp Bq].
  { rewrite E, !bytes_ok_app, !andb_true_iff in Hb. tauto. }
  rewrite E, !le_dec_app, Lp, Lq, !pow256 by lia.
  pose proof (le_dec_bound p Bp) as H1. pose proof (le_dec_bound q Bq) as H2.
  rewrite Lp, pow256 in H1 by lia. rewrite Lq, pow256 in H2 by lia.
  rewrite (Z.mul_comm (2 ^ (8 * Z.of_nat o))), Z.div_add, (Z.div_small (le_dec p)) by lia.
  rewrite Z.add_0_l, (Z.mul_comm (2 ^ (8 * Z.of_nat n))), Z.mod_add, Z.mod_small by lia. reflexivity.
Qed.

Lemma rev_slice {A} o n (l : list A) : (o + n <= length l)%nat ->
  rev (slice o n l) = slice (length l - o - n) n (rev l).
Proof.
  intros H.
  assert (l = firstn o l ++ slice o n l ++ skipn (o + n) l) as E.
  { unfold slice. rewrite <- skipn_skipn', firstn_skipn, firstn_skipn. reflexivity. }
  rewrite E at 3. rewrite !rev_app_distr, <- app_assoc.
  symmetry. apply slice_app_exact'; rewrite rev_length.
  - rewrite skipn_length. lia.
  - rewrite slice_length; lia.
Qed.

Lemma bytes_ok_rev l : bytes_ok l = true -> bytes_ok (rev l) = true.
Proof. unfold bytes_ok. rewrite !forallb_forall. intros H x Hx. apply H. now apply in_rev. Qed.

(** A load as bits of the memory number. *)
Lemma load_spec be mem o n : bytes_ok mem = true -> 0 <= o -> 0 <= n -> o + n <= Z.of_nat (length mem) ->
  load be mem o n =
  (mem_val be mem / 2 ^ (if be then 8 * (Z.of_nat (length mem) - o - n) else 8 * o)) mod 2 ^ (8 * n).
Proof.
  intros Hb Ho Hn Hl. unfold load, mem_val. destruct be.
  - rewrite rev_slice by lia. rewrite le_dec_slice by (rewrite ?rev_length; try apply bytes_ok_rev; auto; lia).
    repeat f_equal; lia.
  - rewrite le_dec_slice by (auto; lia). repeat f_equal; lia.
Qed.

(** The shifts on a value [v] of which bits [d .. d + s - 1] are wanted. *)
Lemma shift_core v d s : 0 <= v -> 0 <= d -> 1 <= s -> d + s <= 64 ->
  let x := u64 (Z.shiftl v (64 - (d + s))) in
  0 <= x < 2 ^ 64 /\ Z.shiftr x (64 - s) = (v / 2 ^ d) mod 2 ^ s.
Proof.
  intros Hv Hd Hs Hds x. assert (0 <= x < 2 ^ 64) as Hx by (subst x; unfold u64, wrap; apply Z.mod_pos_bound; lia).
  split; [exact Hx|]. apply Z.bits_inj'. intros i Hi.
  rewrite Z.shiftr_spec by lia. subst x. unfold u64, wrap.
  destruct (Z.lt_ge_cases i s) as [Hlt|Hge].
  - rewrite Z.mod_pow2_bits_low by lia. rewrite Z.shiftl_spec by lia.
    rewrite Z.mod_pow2_bits_low by lia. rewrite Z.div_pow2_bits by lia. f_equal; lia.
  - rewrite !Z.mod_pow2_bits_high by lia. reflexivity.
Qed.

Lemma shifts_spec sg v d s : 0 <= v -> 0 <= d -> 1 <= s -> d + s <= 64 ->
  shifts sg (64 - (d + s)) (64 - s) v =
  if sg then u64 (swrap s ((v / 2 ^ d) mod 2 ^ s)) else (v / 2 ^ d) mod 2 ^ s.
Proof.
  intros Hv Hd Hs Hds. unfold shifts.
  rewrite (Z.mod_small (64 - (d + s))), (Z.mod_small (64 - s)) by lia.
  destruct (shift_core v d s Hv Hd Hs Hds) as [Hx E].
  set (x := u64 (Z.shiftl v (64 - (d + s)))) in *. cbv zeta.
  destruct sg; [|exact E].
  set (f := (v / 2 ^ d) mod 2 ^ s) in *. f_equal.
  rewrite Z.shiftr_div_pow2 in * by lia.
  assert (0 <= f < 2 ^ s) as Hf by (subst f; apply Z.mod_pos_bound; lia).
  unfold i64, swrap. rewrite (Z.mod_small x) by lia. rewrite (Z.mod_small f) by lia.
  assert (2 ^ 63 = 2 ^ (s - 1) * 2 ^ (64 - s)) as P by (rewrite <- Z.pow_add_r by lia; f_equal; lia).
  assert (2 ^ 64 = 2 ^ s * 2 ^ (64 - s)) as Q by (rewrite <- Z.pow_add_r by lia; f_equal; lia).
  assert (0 < 2 ^ (64 - s)) as HP by lia.
  change (64 - 1) with 63.
  assert ((x <? 2 ^ 63) = (f <? 2 ^ (s - 1))) as ->.
  { rewrite P, <- E. apply eq_true_iff_eq. rewrite !Z.ltb_lt. split; intros H.
    - apply Z.div_lt_upper_bound; lia.
    - destruct (Z.lt_ge_cases x (2 ^ (s - 1) * 2 ^ (64 - s))) as [|G]; [assumption|].
      apply Z.div_le_mono with (c := 2 ^ (64 - s)) in G; [|lia]. rewrite Z.div_mul in G by lia. lia. }
  destruct (f <? 2 ^ (s - 1)); [exact E|].
  rewrite Q. replace (x - 2 ^ s * 2 ^ (64 - s)) with (x + (- 2 ^ s) * 2 ^ (64 - s)) by ring.
  rewrite Z.div_add by lia. lia.
Qed.

Lemma div_mod_div a p q r : 0 <= p -> 0 <= q -> 0 <= r -> q + r <= p ->
  (a mod 2 ^ p / 2 ^ q) mod 2 ^ r = (a / 2 ^ q) mod 2 ^ r.
Proof.
  intros Hp Hq Hr H. apply Z.bits_inj'. intros i Hi.
  destruct (Z.lt_ge_cases i r).
  - rewrite !Z.mod_pow2_bits_low, !Z.div_pow2_bits, Z.mod_pow2_bits_low by lia. reflexivity.
  - rewrite !Z.mod_pow2_bits_high by lia. reflexivity.
Qed.

Lemma mem_val_nonneg be mem : bytes_ok mem = true -> 0 <= mem_val be mem.
Proof. intros H. unfold mem_val. apply le_dec_bound. destruct be; [now apply bytes_ok_rev|exact H]. Qed.

(** The load and the two shifts read exactly the field. *)
Lemma place_sequence be sg mem p : bytes_ok mem = true -> covers p ->
  p_byte_off p + p_byte_size p <= Z.of_nat (length mem) ->
  shifts sg (lshift64 be p) (rshift64 p) (load be mem (p_byte_off p) (p_byte_size p)) =
  field_reg be sg mem (p_bit_off p) (p_bit_size p).
Proof.
  intros Hb (H0 & H1 & H2 & H3 & H4 & H5) Hl.
  set (bo := p_byte_off p) in *. set (n := p_byte_size p) in *.
  set (fo := p_bit_off p) in *. set (s := p_bit_size p) in *.
  assert (0 <= n) by lia.
  assert (rshift64 p = 64 - s) as -> by (unfold rshift64, u64, wrap; fold s; rewrite Z.mod_small; lia).
  set (d := if be then (bo + n) * 8 - fo - s else fo - bo * 8).
  assert (lshift64 be p = 64 - (d + s)) as ->.
  { unfold lshift64. fold bo n fo s. subst d. unfold u32, u64, wrap. destruct be.
    - rewrite !(Z.mod_small _ (2 ^ 32)) by (rewrite ?Z.mod_small by lia; lia). lia.
    - rewrite (Z.mod_small _ (2 ^ 32)) by lia. rewrite Z.mod_small by lia. lia. }
  assert (0 <= d /\ d + s <= 8 * n) as [D1 D2] by (subst d; destruct be; lia).
  pose proof (mem_val_nonneg be mem Hb) as Hm.
  rewrite load_spec by (auto; lia).
  rewrite shifts_spec by (try apply Z.mod_pos_bound; lia).
  rewrite div_mod_div by lia.
  assert ((mem_val be mem / 2 ^ (if be then 8 * (Z.of_nat (length mem) - bo - n) else 8 * bo) / 2 ^ d) mod 2 ^ s
          = field_bits be mem fo s) as ->.
  { unfold field_bits. rewrite Z.div_div by (destruct be; lia). rewrite <- Z.pow_add_r by (destruct be; lia).
    do 2 f_equal. subst d. destruct be; f_equal; lia. }
  reflexivity.
Qed.

(** The storage unit search. *)
Lemma unit_loop_spec fuel : forall bit bs size, 0 <= bit -> 1 <= bs -> bit + bs < 2 ^ 32 ->
  word_size size -> 16 <= size * 2 ^ (Z.of_nat fuel) ->
  match unit_loop fuel bit bs size with
  | Ok (o, n) => word_size n /\ size <= n /\ o mod n = 0 /\ 0 <= o /\ o * 8 <= bit /\ bit + bs <= (o + n) * 8 /\
                 bit / 8 < o + n /\
                 (forall n', word_size n' -> size <= n' -> n' < n -> bit / 8 / n' * n' * 8 + n' * 8 < bit + bs)
  | Err e => e = RBtf BInvalidTypeInfo /\ 64 < bit mod 64 + bs
  end.
Proof.
  induction fuel as [|fuel IH]; intros bit bs size Hb Hs Hw Hz Hf.
  - cbn in Hf. unfold word_size in Hz. lia.
  - cbn [unit_loop]. assert (size <> 0) as Hnz by (unfold word_size in Hz; lia).
    destruct (Z.eqb_spec size 0); [lia|]. cbv zeta.
    assert (0 < size <= 8) as Hr by (unfold word_size in Hz; lia).
    set (q := bit / 8 / size * size).
    assert (0 <= q /\ q <= bit / 8 /\ bit / 8 < q + size) as (Q1 & Q2 & Q3).
    { subst q. pose proof (Z.div_mod (bit / 8) size ltac:(lia)). pose proof (Z.mod_pos_bound (bit / 8) size ltac:(lia)).
      assert (0 <= bit / 8) by lia. assert (0 <= bit / 8 / size) by (apply Z.div_pos; lia). nia. }
    assert (u32 (bit + bs - q * 8) = bit + bs - q * 8) as -> by (unfold u32, wrap; rewrite Z.mod_small; lia).
    assert (u32 (size * 8) = size * 8) as -> by (unfold u32, wrap; rewrite Z.mod_small; lia).
    destruct (Z.ltb_spec (size * 8) (bit + bs - q * 8)) as [L|L].
    + destruct (Z.leb_spec 8 size) as [G|G].
      * split; [reflexivity|]. assert (size = 8) by lia. subst q size. lia.
      * assert (word_size (size * 2)) as Hz2 by (unfold word_size in *; lia).
        assert (16 <= size * 2 * 2 ^ Z.of_nat fuel) as Hf2.
        { rewrite Nat2Z.inj_succ, Z.pow_succ_r in Hf by lia. lia. }
        specialize (IH bit bs (size * 2) Hb Hs Hw Hz2 Hf2).
        destruct (unit_loop fuel bit bs (size * 2)) as [[o n0]|e]; [|exact IH].
        destruct IH as (A1 & A2 & A3 & A4 & A5 & A6 & A6' & A7).
        split; [assumption|]. split; [lia|]. do 5 (split; [assumption|]).
        intros n' Hn' Hge Hlt. destruct (Z.eq_dec n' size) as [->|NE]; [subst q; lia|].
        apply A7; auto. clear - Hz Hn' Hge NE. unfold word_size in *. lia.
    + split; [assumption|]. split; [lia|]. split; [subst q; apply Z.mod_mul; lia|].
      split; [lia|]. split; [lia|]. split; [lia|]. split; [lia|]. intros n' _ ? ?. lia.
Qed.

Lemma load_unit_spec bit bs size : 0 <= bit -> 1 <= bs -> bit + bs < 2 ^ 32 -> word_size size ->
  match load_unit bit bs size with
  | Ok (o, n) => word_size n /\ size <= n /\ o mod n = 0 /\ 0 <= o /\ o * 8 <= bit /\ bit + bs <= (o + n) * 8 /\
                 bit / 8 < o + n /\
                 (forall n', word_size n' -> size <= n' -> n' < n -> bit / 8 / n' * n' * 8 + n' * 8 < bit + bs)
  | Err e => e = RBtf BInvalidTypeInfo /\ 64 < bit mod 64 + bs
  end.
Proof. intros. apply unit_loop_spec; auto. unfold word_size in *. change (2 ^ Z.of_nat 5) with 32. lia. Qed.

(** A field that does not cross an 8-byte boundary is always reachable. *)
Lemma load_unit_fits bit bs size : 0 <= bit -> 1 <= bs -> bit + bs < 2 ^ 32 -> word_size size ->
  bit mod 64 + bs <= 64 -> exists r, load_unit bit bs size = Ok r.
Proof.
  intros H1 H2 H3 H4 H5. pose proof (load_unit_spec bit bs size H1 H2 H3 H4) as H.
  destruct (load_unit bit bs size) as [r|e]; [eauto|]. lia.
Qed.

(** Shape of [compute_field] for a named last accessor. *)
Lemma lift_ok {A} (r : res berr A) a : lift r = Ok a <-> r = Ok a.
Proof. destruct r; cbn; split; congruence. Qed.
Lemma bind_ok {E A B} (r : res E A) (f : A -> res E B) b : bind r f = Ok b <-> exists a, r = Ok a /\ f a = Ok b.
Proof.
  destruct r; cbn; split; intros H.
  - eauto.
  - destruct H as (x & E1 & E2). congruence.
  - discriminate.
  - destruct H as (x & E1 & E2). discriminate.
Qed.
Lemma bind_lift_ok {A B} (r : res berr A) (f : A -> res rerr B) b :
  bind (lift r) f = Ok b <-> exists a, r = Ok a /\ f a = Ok b.
Proof. rewrite bind_ok. setoid_rewrite lift_ok. reflexivity. Qed.

Lemma compute_field_member be b k s info m : last_member b s info m -> k <> FExists ->
  compute_field be b k (Some s) =
  bind (field_place b (sp_bit s) info m) (fun r => let '(p, mid, mty) := r in field_value be k p mid mty).
Proof.
  intros (a & n & ty & ms & E1 & E2 & E3 & E4 & E5) Hk. unfold compute_field.
  rewrite E1, E2, E3. cbn [lift bind]. rewrite E4, E5. destruct k; congruence.
Qed.

Lemma compute_lshift_member be b s v : compute_field be b FLShift64 (Some s) = Ok v ->
  exists info m, last_member b s info m.
Proof.
  unfold compute_field. destruct (last_acc (sp_acc s)) as [a|] eqn:E1; [|discriminate].
  destruct (ac_name a) as [n|] eqn:E2.
  - rewrite bind_lift_ok. intros (ty & E3 & H). destruct (members_of ty) as [[info ms]|] eqn:E4; [|discriminate].
    destruct (zget (ac_index a) ms) as [m|] eqn:E5; [|discriminate].
    exists info, m, a, n, ty, ms. auto.
  - rewrite bind_lift_ok. intros (ty & _ & H). discriminate.
Qed.

Lemma type_size_sized ts id t size : type_by_id ts id = Ok t -> size_of t = Some size ->
  type_size ts id = Ok (u32 size).
Proof.
  intros H1 H2. unfold type_size, MAX_RESOLVE_DEPTH. generalize 31%nat. intros fuel. cbn [type_size_loop].
  rewrite H1. cbn [bind]. rewrite H2, Z.mul_1_r. destruct t; try discriminate H2; reflexivity.
Qed.

(** Where the field lies and how much the load takes. *)
Lemma field_place_covers b bit info m p mid mty size :
  field_place b bit info m = Ok (p, mid, mty) ->
  0 <= bit -> 0 <= member_bit_field_size info m -> bit + 256 < 2 ^ 32 ->
  size_of mty = Some size -> word_size size ->
  member_bit_field_size info m <= 64 -> (member_bit_field_size info m = 0 -> bit mod 8 = 0) ->
  covers p /\ p_bit_off p = bit /\ p_bit_size p = declared_bits info m size /\ word_size (p_byte_size p) /\
  resolve_type (b_types b) (m_type m) = Ok mid /\ type_by_id (b_types b) mid = Ok mty.
Proof.
  intros H Hb Hm0 Hlim Hsz Hw Hm64 Hal. unfold field_place in H.
  assert (u32 bit = bit) as Eb by (unfold u32, wrap; rewrite Z.mod_small; lia). rewrite Eb in H.
  apply bind_lift_ok in H as (mid' & R1 & H). apply bind_lift_ok in H as (mty' & R2 & H).
  cbv zeta in H. unfold declared_bits. destruct (Z.ltb_spec 0 (member_bit_field_size info m)) as [L|L].
  - destruct (size_of mty') as [sz|] eqn:Es; [|discriminate].
    apply bind_ok in H as ([o n] & U & H). apply ok_inj in H. inversion H; subst p mid' mty'; clear H.
    assert (sz = size) as -> by congruence.
    pose proof (load_unit_spec bit (member_bit_field_size info m) size Hb ltac:(lia) ltac:(lia) Hw) as S.
    rewrite U in S. destruct S as (S1 & S2 & S3 & S4 & S5 & S6 & S6' & _). unfold covers; cbn [fst snd p_bitfield p_byte_off p_byte_size p_bit_off p_bit_size].
    repeat split; auto; unfold word_size in S1; lia.
  - apply bind_lift_ok in H as (sz & Ts & H). apply ok_inj in H. inversion H; subst p mid' mty'; clear H.
    assert (sz = size) as ->.
    { rewrite (type_size_sized _ _ _ _ R2 Hsz) in Ts. apply ok_inj in Ts. subst sz.
      unfold u32, wrap, word_size in *. rewrite Z.mod_small; lia. }
    assert (u32 size = size) as -> by (unfold u32, wrap, word_size in *; rewrite Z.mod_small; lia).
    assert (u32 (size * 8) = 8 * size) as -> by (unfold u32, wrap, word_size in *; rewrite Z.mod_small; lia).
    unfold covers; cbn [p_bitfield p_byte_off p_byte_size p_bit_off p_bit_size].
    assert (bit mod 8 = 0) by (apply Hal; lia).
    repeat split; auto; unfold word_size in Hw; lia.
Qed.

Lemma type_signed_spec t : c_encoding t -> (type_signed t =? 1) = c_signed t.
Proof.
  destruct t; cbn [type_signed c_signed c_encoding]; intros H; try reflexivity;
    try (destruct (info_flag _); reflexivity).
  cbn in H. destruct H as [E|[E|[E|[E|[]]]]]; rewrite <- E; reflexivity.
Qed.

Lemma field_sequence be b s info m mid mty size vo vs vl vr vg :
  last_member b s info m ->
  resolve_type (b_types b) (m_type m) = Ok mid -> type_by_id (b_types b) mid = Ok mty ->
  size_of mty = Some size -> word_size size -> c_encoding mty ->
  0 <= sp_bit s -> sp_bit s + 256 < 2 ^ 32 ->
  0 <= member_bit_field_size info m <= 64 -> (member_bit_field_size info m = 0 -> sp_bit s mod 8 = 0) ->
  compute_field be b FByteOffset (Some s) = Ok vo -> compute_field be b FByteSize (Some s) = Ok vs ->
  compute_field be b FLShift64 (Some s) = Ok vl -> compute_field be b FRShift64 (Some s) = Ok vr ->
  compute_field be b FSigned (Some s) = Ok vg ->
  word_size (v_value vs) /\ v_value vo * 8 <= sp_bit s /\
  sp_bit s + declared_bits info m size <= (v_value vo + v_value vs) * 8 /\
  forall mem, bytes_ok mem = true -> v_value vo + v_value vs <= Z.of_nat (length mem) ->
    shifts (v_value vg =? 1) (v_value vl) (v_value vr) (load be mem (v_value vo) (v_value vs)) =
    field_reg be (c_signed mty) mem (sp_bit s) (declared_bits info m size).
Proof.
  intros Hm R1 R2 Hs Hw Hc H0 Hl Hf Ha C1 C2 C3 C4 C5.
  rewrite (compute_field_member _ _ _ _ _ _ Hm) in C1 by discriminate.
  rewrite (compute_field_member _ _ _ _ _ _ Hm) in C2 by discriminate.
  rewrite (compute_field_member _ _ _ _ _ _ Hm) in C3 by discriminate.
  rewrite (compute_field_member _ _ _ _ _ _ Hm) in C4 by discriminate.
  rewrite (compute_field_member _ _ _ _ _ _ Hm) in C5 by discriminate.
  destruct (field_place b (sp_bit s) info m) as [[[p mid'] mty']|e] eqn:F; [|discriminate].
  cbn [bind field_value] in *. apply ok_inj in C1, C2, C3, C4, C5. subst vo vs vl vr vg.
  cbn [only v_value].
  assert (mid' = mid /\ mty' = mty) as [-> ->].
  { pose proof F as G. unfold field_place in G. rewrite R1 in G. cbn [lift bind] in G. rewrite R2 in G. cbn [lift bind] in G.
    cbv zeta in G. destruct (0 <? _).
    - rewrite Hs in G. apply bind_ok in G as (r & _ & G). apply ok_inj in G. inversion G. auto.
    - apply bind_ok in G as (r & _ & G). apply ok_inj in G. inversion G. auto. }
  destruct (field_place_covers _ _ _ _ _ _ _ size F H0 ltac:(lia) Hl Hs Hw ltac:(lia) Ha) as (Cv & E1 & E2 & W & _).
  pose proof Cv as (K0 & K1 & K2 & K3 & K4 & K5).
  split; [exact W|]. split; [lia|]. split; [lia|]. intros mem Hb Hlen.
  rewrite type_signed_spec by exact Hc. rewrite <- E1, <- E2. now apply place_sequence.
Qed.

(** The five relocations of an existing field succeed when the field does not
    cross an aligned 8-byte boundary. *)
Lemma field_computed be b s info m mid mty size k :
  last_member b s info m -> class_of k = CField ->
  resolve_type (b_types b) (m_type m) = Ok mid -> type_by_id (b_types b) mid = Ok mty ->
  size_of mty = Some size -> word_size size ->
  0 <= sp_bit s -> sp_bit s + 256 < 2 ^ 32 -> 0 <= member_bit_field_size info m <= 64 ->
  sp_bit s mod 64 + member_bit_field_size info m <= 64 ->
  exists v, compute_field be b k (Some s) = Ok v.
Proof.
  intros Hm Hk R1 R2 Hs Hw H0 Hl Hf Hfit.
  assert (k = FExists \/ k <> FExists) as [->|Hne] by (destruct k; auto; right; discriminate).
  { cbn. eauto. }
  rewrite (compute_field_member _ _ _ _ _ _ Hm) by exact Hne.
  assert (exists p, field_place b (sp_bit s) info m = Ok (p, mid, mty)) as (p & ->).
  { unfold field_place. rewrite R1. cbn [lift bind]. rewrite R2. cbn [lift bind]. cbv zeta.
    assert (u32 (sp_bit s) = sp_bit s) as -> by (unfold u32, wrap; rewrite Z.mod_small; lia).
    destruct (Z.ltb_spec 0 (member_bit_field_size info m)).
    - rewrite Hs. destruct (load_unit_fits (sp_bit s) (member_bit_field_size info m) size H0 ltac:(lia) ltac:(lia) Hw Hfit) as ([o n] & ->).
      cbn [bind]. eauto.
    - rewrite (type_size_sized _ _ _ _ R2 Hs). cbn [lift bind]. eauto. }
  cbn [bind]. destruct k; try discriminate Hk; try congruence; cbn [field_value]; eauto.
Qed.
