(** Proofs about bit fields and perf event requests. *)
From Coq Require Import String.
From Verif Require Import Base Text TextParse TextSplit EventModel EventSpec.
Local Open Scope Z_scope.

(** * Bit fields *)
Lemma testbit_small b j : 0 <= b < 256 -> 8 <= j -> Z.testbit b j = false.
Proof. intros H J. destruct (Z.eq_dec b 0) as [->|N]; [apply Z.bits_0|]. apply Z.bits_above_log2; [lia|]. assert (Z.log2 b < 8) by (apply Z.log2_lt_pow2; lia). lia. Qed.
Lemma testbit_cons b u j : 0 <= b < 256 -> 0 <= j -> Z.testbit (b + 256 * u) j = if j <? 8 then Z.testbit b j else Z.testbit u (j - 8).
Proof.
  intros B J. destruct (Z.ltb_spec j 8) as [H|H].
  - rewrite <- (Z.mod_pow2_bits_low (b + 256 * u) 8 j) by lia. change (2 ^ 8) with 256. rewrite Z.mul_comm, Z_mod_plus_full, Z.mod_small by lia. reflexivity.
  - replace j with (j - 8 + 8) at 1 by lia. rewrite <- Z.div_pow2_bits by lia. change (2 ^ 8) with 256. rewrite Z.mul_comm, Z.div_add, Z.div_small by lia. reflexivity.
Qed.
Lemma unit_bit l j : bytes_ok l = true -> 0 <= j -> Z.testbit (le_dec l) j = Z.testbit (nth (Z.to_nat (j / 8)) l 0) (j mod 8).
Proof.
  revert j. induction l as [|b l IH]; intros j B J.
  - cbn [le_dec]. rewrite Z.bits_0. destruct (Z.to_nat (j / 8)); cbn [nth]; now rewrite Z.bits_0.
  - cbn [le_dec]. unfold bytes_ok in B. cbn [forallb] in B. apply andb_true_iff in B as [B1 B2]. apply byte_ok_iff in B1. rewrite testbit_cons by lia.
    destruct (Z.ltb_spec j 8) as [H|H].
    + rewrite Z.div_small, Z.mod_small by lia. reflexivity.
    + rewrite IH by (auto; lia). replace (j / 8) with ((j - 8) / 8 + 1) by (replace j with (j - 8 + 1 * 8) at 2 by lia; rewrite Z.div_add by lia; reflexivity).
      assert (0 <= (j - 8) / 8) by (apply Z.div_pos; lia).
      replace (Z.to_nat ((j - 8) / 8 + 1)) with (S (Z.to_nat ((j - 8) / 8))) by lia. cbn [nth]. f_equal.
      replace j with (j - 8 + 1 * 8) at 2 by lia. now rewrite Z.mod_add by lia.
Qed.

Definition pos (be : bool) (n : nat) (index : nat) : Z := if be then 8 * Z.of_nat n - 1 - Z.of_nat index else Z.of_nat index.
Lemma bit_index_range be index : 0 <= bit_index be index < 8.
Proof. unfold bit_index. pose proof (Nat.mod_upper_bound index 8). destruct be; lia. Qed.
Lemma change_bit_testbit be b index v j : 0 <= j -> Z.testbit (change_bit be b index v) j = if j =? bit_index be index then v else Z.testbit b j.
Proof.
  intros J. pose proof (bit_index_range be index) as R. unfold change_bit. set (m := bit_index be index) in *. destruct v.
  - rewrite Z.lor_spec, Z.pow2_bits_eqb by lia. rewrite (Z.eqb_sym m j). destruct (j =? m); [apply orb_true_r|apply orb_false_r].
  - rewrite Z.ldiff_spec, Z.pow2_bits_eqb by lia. rewrite (Z.eqb_sym m j). destruct (j =? m); cbn; [apply andb_false_r|apply andb_true_r].
Qed.
Lemma change_bit_ok be b index v : byte_ok b = true -> byte_ok (change_bit be b index v) = true.
Proof.
  rewrite !byte_ok_iff. intros B. pose proof (bit_index_range be index) as R.
  assert (0 <= change_bit be b index v) as NN.
  { unfold change_bit. destruct v; [apply Z.lor_nonneg; split; [lia|apply Z.pow_nonneg; lia]|apply Z.ldiff_nonneg; left; lia]. }
  split; [exact NN|]. destruct (Z.eq_dec (change_bit be b index v) 0) as [->|NZ]; [lia|].
  change 256 with (2 ^ 8). apply Z.log2_lt_pow2; [lia|]. destruct (Z.lt_ge_cases (Z.log2 (change_bit be b index v)) 8) as [|L]; [assumption|exfalso].
  pose proof (Z.bit_log2 (change_bit be b index v)) as T. rewrite change_bit_testbit in T by lia.
  destruct (Z.eqb_spec (Z.log2 (change_bit be b index v)) (bit_index be index)); [lia|]. rewrite testbit_small in T by lia. discriminate T. lia.
Qed.
Lemma bytes_ok_upd st i b : bytes_ok st = true -> byte_ok b = true -> bytes_ok (upd i b st) = true.
Proof.
  unfold bytes_ok. revert i. induction st as [|x st IH]; intros i B H; [now destruct i|]. cbn [forallb] in B. apply andb_true_iff in B as [B1 B2].
  destruct i; cbn [upd forallb]; [now rewrite H, B2|]. now rewrite B1, IH.
Qed.
Lemma bytes_ok_nth st i : bytes_ok st = true -> byte_ok (nth i st 0) = true.
Proof. unfold bytes_ok. revert i. induction st as [|x st IH]; intros i B; [now destruct i|]. cbn [forallb] in B. apply andb_true_iff in B as [B1 B2]. destruct i; cbn [nth]; auto. Qed.
Lemma set_bit_ok be st i v : bytes_ok st = true -> bytes_ok (set_bit be st i v) = true.
Proof. intros B. apply bytes_ok_upd; [exact B|]. now apply change_bit_ok, bytes_ok_nth. Qed.
Lemma set_bit_length be st i v : length (set_bit be st i v) = length st.
Proof. apply upd_length. Qed.
Lemma bytes_ok_rev st : bytes_ok (rev st) = bytes_ok st.
Proof. unfold bytes_ok. induction st as [|x st IH]; [reflexivity|]. cbn [rev forallb]. rewrite forallb_app, IH. cbn. rewrite andb_true_r. apply andb_comm. Qed.
Lemma nth_upd_full (st : list Z) i j b : (i < length st)%nat -> nth j (upd i b st) 0 = if (i =? j)%nat then b else nth j st 0.
Proof.
  revert i j. induction st as [|x st IH]; intros i j H; [cbn in H; lia|]. destruct i, j; cbn [upd nth Nat.eqb]; auto.
  apply IH. cbn in H. lia.
Qed.

(** Bit [j] of the unit, by byte and bit of the storage. *)
Lemma unit_value_bit be st j : bytes_ok st = true -> 0 <= j < 8 * Z.of_nat (length st) ->
  Z.testbit (unit_value be st) j =
  let index := Z.to_nat (if be then 8 * Z.of_nat (length st) - 1 - j else j) in Z.testbit (nth (index / 8) st 0) (bit_index be index).
Proof.
  intros B J. cbv zeta. unfold unit_value. destruct be.
  - rewrite unit_bit by (rewrite ?bytes_ok_rev; auto; lia). set (n := length st) in *. pose proof (Z.div_mod j 8 ltac:(lia)) as D. pose proof (Z.mod_pos_bound j 8 ltac:(lia)) as M.
    set (q := j / 8) in *. set (r := j mod 8) in *. assert (0 <= q < Z.of_nat n) as Q by nia. rewrite rev_nth by (fold n; lia). fold n.
    set (index := Z.to_nat (8 * Z.of_nat n - 1 - j)).
    assert (Z.of_nat index = 8 * (Z.of_nat n - 1 - q) + (7 - r)) as E by (unfold index; lia).
    assert (index / 8 = n - S (Z.to_nat q))%nat as ->. { apply Nat2Z.inj. rewrite Nat2Z.inj_div, E. change (Z.of_nat 8) with 8. rewrite Z.mul_comm, Z.div_add_l, Z.div_small by lia. lia. }
    f_equal. unfold bit_index. rewrite Nat2Z.inj_mod, E. change (Z.of_nat 8) with 8. rewrite Z.add_comm, Z.mul_comm, Z_mod_plus_full, Z.mod_small by lia. lia.
  - rewrite unit_bit by (auto; lia). f_equal.
    + f_equal. apply Nat2Z.inj. rewrite Nat2Z.inj_div, !Z2Nat.id; [reflexivity|lia|apply Z.div_pos; lia].
    + unfold bit_index. rewrite Nat2Z.inj_mod, Z2Nat.id by lia. reflexivity.
Qed.
Lemma unit_value_high be st j : bytes_ok st = true -> 8 * Z.of_nat (length st) <= j -> Z.testbit (unit_value be st) j = false.
Proof.
  intros B J. unfold unit_value. rewrite unit_bit by (try lia; destruct be; rewrite ?bytes_ok_rev; auto). rewrite nth_overflow; [apply Z.bits_0|].
  assert (length (if be then rev st else st) = length st) as -> by (destruct be; [apply rev_length|reflexivity]).
  assert (Z.of_nat (length st) <= j / 8) by (apply Z.div_le_lower_bound; lia). lia.
Qed.
Lemma set_bit_unit be st index v j : bytes_ok st = true -> (index < 8 * length st)%nat -> 0 <= j ->
  Z.testbit (unit_value be (set_bit be st index v)) j = if j =? pos be (length st) index then v else Z.testbit (unit_value be st) j.
Proof.
  intros B I J. destruct (Z.lt_ge_cases j (8 * Z.of_nat (length st))) as [L|L].
  - rewrite !unit_value_bit by (rewrite ?set_bit_length; auto using set_bit_ok; lia). rewrite set_bit_length. cbv zeta.
    set (k := Z.to_nat (if be then 8 * Z.of_nat (length st) - 1 - j else j)).
    assert (index / 8 < length st)%nat as D by (apply Nat.div_lt_upper_bound; lia).
    unfold set_bit. rewrite nth_upd_full by exact D.
    destruct (Z.eqb_spec j (pos be (length st) index)) as [->|N].
    + assert (k = index) as ->. { unfold k, pos. destruct be; lia. } rewrite Nat.eqb_refl, change_bit_testbit, Z.eqb_refl by apply bit_index_range. reflexivity.
    + assert (k <> index) as NK. { intros E. apply N. unfold pos. rewrite <- E. unfold k. destruct be; lia. }
      destruct (Nat.eqb_spec (index / 8) (k / 8)) as [E|E]; [|reflexivity]. rewrite change_bit_testbit by apply bit_index_range.
      destruct (Z.eqb_spec (bit_index be k) (bit_index be index)) as [M|M]; [exfalso|now rewrite E]. apply NK.
      assert (k mod 8 = index mod 8)%nat as M'. { unfold bit_index in M. pose proof (Nat.mod_upper_bound k 8). pose proof (Nat.mod_upper_bound index 8). destruct be; lia. }
      rewrite (Nat.div_mod_eq k 8), (Nat.div_mod_eq index 8), <- E, M'. reflexivity.
  - rewrite !unit_value_high by (rewrite ?set_bit_length; auto using set_bit_ok).
    destruct (Z.eqb_spec j (pos be (length st) index)) as [E|]; [|reflexivity]. unfold pos in E. destruct be; lia.
Qed.

Lemma land_pow_bit v i : 0 <= i -> (Z.land v (2 ^ i) =? 2 ^ i) = Z.testbit v i.
Proof.
  intros I. assert (Z.land v (2 ^ i) = if Z.testbit v i then 2 ^ i else 0) as ->.
  { apply Z.bits_inj'. intros j J. rewrite Z.land_spec, Z.pow2_bits_eqb by lia. destruct (Z.eqb_spec i j) as [<-|N].
    - rewrite andb_true_r. destruct (Z.testbit v i) eqn:E; [now rewrite Z.pow2_bits_true by lia|now rewrite Z.bits_0].
    - rewrite andb_false_r. destruct (Z.testbit v i); [now rewrite Z.pow2_bits_false by lia|now rewrite Z.bits_0]. }
  pose proof (Z.pow_pos_nonneg 2 i ltac:(lia) I). destruct (Z.testbit v i); [apply Z.eqb_refl|]. apply Z.eqb_neq. lia.
Qed.

Definition shift_ok (n off width : nat) : Prop := (off + width <= 8 * n)%nat.
Lemma place_pos be n off width i : shift_ok n off width -> (i < width)%nat -> pos be n (place be width i + off) = field_shift be n off width + Z.of_nat i.
Proof. unfold shift_ok, pos, place, field_shift. intros. destruct be; lia. Qed.
Lemma bf_set_fold be off width val l st : bytes_ok st = true -> shift_ok (length st) off width -> Forall (fun i => (i < width)%nat) l -> NoDup l ->
  let st' := fold_left (fun st i => set_bit be st (place be width i + off) (Z.land val (2 ^ Z.of_nat i) =? 2 ^ Z.of_nat i)) l st in
  bytes_ok st' = true /\ length st' = length st /\
  forall j, 0 <= j -> Z.testbit (unit_value be st') j =
    let i := j - field_shift be (length st) off width in
    if (0 <=? i) && existsb (fun x => i =? Z.of_nat x) l then Z.testbit val i else Z.testbit (unit_value be st) j.
Proof.
  revert st. induction l as [|x l IH]; intros st B S F N; cbn [fold_left].
  - repeat split; auto. intros j J. cbn [existsb]. cbv zeta. now rewrite andb_false_r.
  - pose proof (Forall_inv F) as Fx. cbv beta in Fx. apply Forall_inv_tail in F. apply NoDup_cons_iff in N as [Nx N].
    set (st1 := set_bit be st (place be width x + off) (Z.land val (2 ^ Z.of_nat x) =? 2 ^ Z.of_nat x)).
    assert (length st1 = length st) as L1 by apply set_bit_length. assert (bytes_ok st1 = true) as B1 by now apply set_bit_ok.
    destruct (IH st1) as (I1 & I2 & I3); auto; [now rewrite L1|]. split; [exact I1|]. split; [congruence|]. intros j J. rewrite (I3 j J). rewrite L1. cbv zeta.
    cbn [existsb]. set (i := j - field_shift be (length st) off width).
    unfold st1. rewrite set_bit_unit; auto; [|unfold shift_ok, place in *; destruct be; lia]. rewrite place_pos by auto. rewrite land_pow_bit by lia.
    destruct (Z.eqb_spec j (field_shift be (length st) off width + Z.of_nat x)) as [E|E].
    + assert (i = Z.of_nat x) as Ei by (unfold i; lia). rewrite Ei, Z.eqb_refl. cbn [orb]. replace (0 <=? Z.of_nat x) with true by (symmetry; lia). cbn [andb].
      destruct (existsb (fun x0 => Z.of_nat x =? Z.of_nat x0) l); reflexivity.
    + destruct (Z.eqb_spec i (Z.of_nat x)) as [Ei|_]; [exfalso; apply E; unfold i in Ei; lia|]. reflexivity.
Qed.
Lemma existsb_seq w i : 0 <= i -> existsb (fun x => i =? Z.of_nat x) (seq 0 w) = (i <? Z.of_nat w).
Proof.
  intros I. destruct (Z.ltb_spec i (Z.of_nat w)) as [H|H].
  - apply existsb_exists. exists (Z.to_nat i). split; [apply in_seq; lia|]. apply Z.eqb_eq. lia.
  - apply Bool.not_true_is_false. intros E. apply existsb_exists in E as (x & Ix & E). apply in_seq in Ix. apply Z.eqb_eq in E. lia.
Qed.
Lemma seq_lt w : Forall (fun i => (i < w)%nat) (seq 0 w).
Proof. apply Forall_forall. intros x I. apply in_seq in I. lia. Qed.
Lemma bf_set_spec be st off width val : bytes_ok st = true -> (off + width <= 8 * length st)%nat ->
  bytes_ok (bf_set be st off width val) = true /\ length (bf_set be st off width val) = length st /\
  forall j, 0 <= j -> Z.testbit (unit_value be (bf_set be st off width val)) j =
    let i := j - field_shift be (length st) off width in
    if (0 <=? i) && (i <? Z.of_nat width) then Z.testbit val i else Z.testbit (unit_value be st) j.
Proof.
  intros B S. destruct (bf_set_fold be off width val (seq 0 width) st B S (seq_lt width) (seq_NoDup width 0)) as (H1 & H2 & H3).
  split; [exact H1|]. split; [exact H2|]. intros j J. unfold bf_set. rewrite (H3 j J). cbv zeta.
  destruct (Z.leb_spec 0 (j - field_shift be (length st) off width)) as [P|P]; [|reflexivity]. cbn [andb]. now rewrite existsb_seq.
Qed.
Lemma bf_get_fold be st off width l v : bytes_ok st = true -> shift_ok (length st) off width -> Forall (fun i => (i < width)%nat) l ->
  forall m, 0 <= m -> Z.testbit (fold_left (fun v i => if get_bit be st (i + off) then Z.lor v (2 ^ Z.of_nat (place be width i)) else v) l v) m =
    Z.testbit v m || (existsb (fun x => m =? Z.of_nat (place be width x)) l && Z.testbit (unit_value be st) (field_shift be (length st) off width + m)).
Proof.
  intros B S. revert v. induction l as [|x l IH]; intros v F m M; cbn [fold_left existsb]; [now rewrite orb_false_r|].
  pose proof (Forall_inv F) as Fx. cbv beta in Fx. apply Forall_inv_tail in F. rewrite IH by auto.
  assert (get_bit be st (x + off) = Z.testbit (unit_value be st) (field_shift be (length st) off width + Z.of_nat (place be width x))) as G.
  { unfold get_bit, extract_bit. rewrite land_pow_bit by apply bit_index_range. unfold shift_ok in S. rewrite unit_value_bit; [cbv zeta|auto|unfold field_shift, place; destruct be; lia].
    assert (Z.to_nat (if be then 8 * Z.of_nat (length st) - 1 - (field_shift be (length st) off width + Z.of_nat (place be width x)) else field_shift be (length st) off width + Z.of_nat (place be width x)) = (x + off)%nat) as ->
      by (unfold field_shift, place; destruct be; lia). reflexivity. }
  rewrite G. destruct (Z.eqb_spec m (Z.of_nat (place be width x))) as [->|N].
  - set (b := Z.testbit (unit_value be st) _). cbn [orb]. destruct b; cbn [andb].
    + rewrite Z.lor_spec, Z.pow2_bits_true by lia. now rewrite !orb_true_r.
    + now rewrite !andb_false_r.
  - cbn [orb]. destruct (Z.testbit (unit_value be st) (field_shift be (length st) off width + Z.of_nat (place be width x))); [|reflexivity].
    rewrite Z.lor_spec, Z.pow2_bits_false by lia. now rewrite orb_false_r.
Qed.
Lemma existsb_place be w m : 0 <= m -> existsb (fun x => m =? Z.of_nat (place be w x)) (seq 0 w) = (m <? Z.of_nat w).
Proof.
  intros I. destruct (Z.ltb_spec m (Z.of_nat w)) as [H|H].
  - apply existsb_exists. exists (place be w (Z.to_nat m)). split; [apply in_seq; unfold place; destruct be; lia|]. apply Z.eqb_eq. unfold place. destruct be; lia.
  - apply Bool.not_true_is_false. intros E. apply existsb_exists in E as (x & Ix & E). apply in_seq in Ix. apply Z.eqb_eq in E. unfold place in E. destruct be; lia.
Qed.
Lemma bf_get_spec be st off width : bytes_ok st = true -> (off + width <= 8 * length st)%nat ->
  bf_get be st off width = (unit_value be st / 2 ^ field_shift be (length st) off width) mod 2 ^ Z.of_nat width.
Proof.
  intros B S. apply Z.bits_inj'. intros m M. unfold bf_get. rewrite bf_get_fold by (auto using seq_lt). rewrite Z.bits_0. cbn [orb]. rewrite existsb_place by lia.
  assert (0 <= field_shift be (length st) off width) by (unfold field_shift; destruct be; lia).
  destruct (Z.ltb_spec m (Z.of_nat width)) as [H1|H1]; cbn [andb].
  - rewrite Z.mod_pow2_bits_low, Z.div_pow2_bits by lia. f_equal. lia.
  - rewrite Z.mod_pow2_bits_high by lia. reflexivity.
Qed.
Lemma bf_get_set be st off width val : bytes_ok st = true -> (off + width <= 8 * length st)%nat ->
  bf_get be (bf_set be st off width val) off width = val mod 2 ^ Z.of_nat width.
Proof.
  intros B S. destruct (bf_set_spec be st off width val B S) as (H1 & H2 & H3). rewrite bf_get_spec by (rewrite ?H2; auto). rewrite H2.
  assert (0 <= field_shift be (length st) off width) by (unfold field_shift; destruct be; lia).
  apply Z.bits_inj'. intros m M. destruct (Z.lt_ge_cases m (Z.of_nat width)) as [L|L].
  - rewrite !Z.mod_pow2_bits_low, Z.div_pow2_bits by lia. rewrite H3 by lia. cbv zeta.
    replace (m + field_shift be (length st) off width - field_shift be (length st) off width) with m by lia.
    replace (0 <=? m) with true by (symmetry; lia). replace (m <? Z.of_nat width) with true by (symmetry; lia). reflexivity.
  - now rewrite !Z.mod_pow2_bits_high by lia.
Qed.
