(** Proofs about the bit field accessors. *)
From Verif Require Import Base Text BitModel BitSpec.
Open Scope Z_scope.

(** Bit [n] of a unit, in the order of the bindings. *)
Definition bitat (be : bool) (s : list Z) (n : nat) : bool :=
  Z.testbit (nth (n / 8) s 0) (Z.of_nat (bit_pos be n)).

Lemma bit_pos_lt be n : (bit_pos be n < 8)%nat.
Proof. unfold bit_pos. destruct be; lia. Qed.

Lemma land_one_shiftl x k : 0 <= k ->
  (Z.land x (Z.shiftl 1 k) =? Z.shiftl 1 k) = Z.testbit x k.
Proof.
  intros K. rewrite Z.shiftl_1_l. destruct (Z.eqb_spec (Z.land x (2 ^ k)) (2 ^ k)) as [E|E].
  - assert (T : Z.testbit (Z.land x (2 ^ k)) k = true).
    { rewrite E. apply Z.pow2_bits_true, K. }
    rewrite Z.land_spec in T. apply andb_true_iff in T as [T _]. now symmetry.
  - symmetry. destruct (Z.testbit x k) eqn:T; [|reflexivity]. exfalso. apply E.
    apply Z.bits_inj'. intros n N. rewrite Z.land_spec.
    destruct (Z.eq_dec n k) as [->|NE].
    + rewrite T. reflexivity.
    + rewrite Z.pow2_bits_false by lia. apply andb_false_r.
Qed.

Lemma extract_bit_spec be byte n :
  extract_bit be byte n = Z.testbit byte (Z.of_nat (bit_pos be n)).
Proof. unfold extract_bit. apply land_one_shiftl. lia. Qed.

Lemma byte_high b k : byte_ok b = true -> 8 <= k -> Z.testbit b k = false.
Proof.
  unfold byte_ok. intros B K. apply andb_true_iff in B as [B1 B2].
  destruct (Z.eq_dec b 0) as [->|NZ]; [apply Z.bits_0|].
  apply Z.bits_above_log2; [lia|]. assert (Z.log2 b < 8); [|lia].
  apply Z.log2_lt_pow2; [lia|]. change (2 ^ 8) with 256. lia.
Qed.

Lemma byte_of_bits b : 0 <= b -> (forall k, 8 <= k -> Z.testbit b k = false) ->
  byte_ok b = true.
Proof.
  intros B H. assert (E : b = b mod 2 ^ 8).
  { apply Z.bits_inj'. intros n N. destruct (Z_lt_dec n 8).
    - rewrite Z.mod_pow2_bits_low by lia. reflexivity.
    - rewrite Z.mod_pow2_bits_high by lia. apply H. lia. }
  unfold byte_ok. change (2 ^ 8) with 256 in E. lia.
Qed.

Lemma testbit_255_minus p k : (p < 8)%nat -> 0 <= k < 8 ->
  Z.testbit (255 - Z.shiftl 1 (Z.of_nat p)) k = negb (k =? Z.of_nat p).
Proof.
  intros P K.
  assert (C : (k = 0 \/ k = 1 \/ k = 2 \/ k = 3 \/ k = 4 \/ k = 5 \/ k = 6 \/ k = 7)) by lia.
  do 8 (destruct p as [|p]; [repeat (destruct C as [-> | C]; [reflexivity|]); subst; reflexivity|]).
  lia.
Qed.

Lemma shiftl_ok p : (p < 8)%nat -> 1 <= Z.shiftl 1 (Z.of_nat p) <= 128.
Proof. intros P. do 8 (destruct p as [|p]; [vm_compute; split; discriminate|]). lia. Qed.

Lemma change_bit_spec be b n v k : byte_ok b = true -> 0 <= k ->
  Z.testbit (change_bit be b n v) k
  = if k =? Z.of_nat (bit_pos be n) then v else Z.testbit b k.
Proof.
  intros B K. unfold change_bit. pose proof (bit_pos_lt be n) as P.
  set (p := bit_pos be n) in *. destruct v.
  - rewrite Z.lor_spec, Z.shiftl_1_l. destruct (Z.eqb_spec k (Z.of_nat p)) as [->|NE].
    + rewrite Z.pow2_bits_true by lia. apply orb_true_r.
    + rewrite Z.pow2_bits_false by lia. apply orb_false_r.
  - rewrite Z.land_spec. destruct (Z_lt_dec k 8).
    + rewrite testbit_255_minus by lia. destruct (k =? Z.of_nat p); cbn.
      * apply andb_false_r.
      * apply andb_true_r.
    + rewrite (byte_high b) by (assumption || lia). cbn.
      destruct (Z.eqb_spec k (Z.of_nat p)); [lia|reflexivity].
Qed.

Lemma change_bit_ok be b n v : byte_ok b = true -> byte_ok (change_bit be b n v) = true.
Proof.
  intros B. apply byte_of_bits.
  - unfold byte_ok in B. unfold change_bit. pose proof (bit_pos_lt be n) as P.
    pose proof (shiftl_ok _ P). destruct v.
    + apply Z.lor_nonneg. lia.
    + apply Z.land_nonneg. lia.
  - intros k K. rewrite change_bit_spec by (assumption || lia).
    pose proof (bit_pos_lt be n). destruct (Z.eqb_spec k (Z.of_nat (bit_pos be n))); [lia|].
    apply byte_high; assumption.
Qed.

Lemma nth_upd (s : list Z) i j v : (i < length s)%nat ->
  nth j (upd i v s) 0 = if (i =? j)%nat then v else nth j s 0.
Proof.
  intros I'. destruct (Nat.eqb_spec i j) as [<-|NE].
  - apply nth_error_nth. apply nth_error_upd_eq, I'.
  - destruct (nth_error s j) as [x|] eqn:E.
    + rewrite (nth_error_nth s j 0 E). apply nth_error_nth.
      rewrite nth_error_upd_ne by assumption. exact E.
    + apply nth_error_None in E. rewrite !nth_overflow; [reflexivity|assumption|].
      rewrite upd_length. assumption.
Qed.

Lemma byte_nth s i : bytes_ok s = true -> byte_ok (nth i s 0) = true.
Proof.
  intros B. destruct (Nat.lt_ge_cases i (length s)) as [L|L].
  - unfold bytes_ok in B. rewrite forallb_forall in B. apply B, nth_In, L.
  - rewrite nth_overflow by assumption. reflexivity.
Qed.

Lemma bytes_by_nth s : (forall i, byte_ok (nth i s 0) = true) -> bytes_ok s = true.
Proof.
  intros H. apply forallb_forall. intros x X. apply (In_nth _ _ 0) in X as (i & _ & <-). apply H.
Qed.

(** One bit. *)
Lemma get_bit_spec be s n : (n < 8 * length s)%nat -> get_bit be s n = Some (bitat be s n).
Proof.
  intros N. unfold get_bit, bitat. destruct (nth_error s (n / 8)) as [b|] eqn:E.
  - rewrite (nth_error_nth s _ 0 E), extract_bit_spec. reflexivity.
  - apply nth_error_None in E. lia.
Qed.
Lemma get_bit_out be s n : (8 * length s <= n)%nat -> get_bit be s n = None.
Proof.
  intros N. unfold get_bit. destruct (nth_error s (n / 8)) as [b|] eqn:E; [|reflexivity].
  assert (n / 8 < length s)%nat by (apply nth_error_Some; congruence). lia.
Qed.
Lemma set_bit_spec be s n v : bytes_ok s = true -> (n < 8 * length s)%nat ->
  exists s', set_bit be s n v = Some s' /\ length s' = length s /\ bytes_ok s' = true /\
    forall m, bitat be s' m = if (m =? n)%nat then v else bitat be s m.
Proof.
  intros B N. unfold set_bit. destruct (nth_error s (n / 8)) as [b|] eqn:E.
  2:{ apply nth_error_None in E. lia. }
  pose proof (nth_error_nth s _ 0 E) as EB.
  assert (L : (n / 8 < length s)%nat) by lia.
  eexists. split; [reflexivity|]. split; [apply upd_length|]. split.
  - apply bytes_by_nth. intros i. rewrite nth_upd by assumption.
    destruct (_ =? _)%nat; [|apply byte_nth, B].
    apply change_bit_ok. rewrite <- EB. apply byte_nth, B.
  - intros m. unfold bitat. rewrite nth_upd by assumption.
    destruct (Nat.eqb_spec (n / 8) (m / 8)) as [EQ|NE].
    + rewrite change_bit_spec; [|rewrite <- EB; apply byte_nth, B|lia].
      rewrite <- EQ, EB.
      destruct (Z.eqb_spec (Z.of_nat (bit_pos be m)) (Z.of_nat (bit_pos be n))) as [E1|E1];
        destruct (Nat.eqb_spec m n) as [E2|E2]; try reflexivity.
      * exfalso. apply E2. unfold bit_pos in E1. destruct be; lia.
      * subst. contradiction.
    + destruct (Nat.eqb_spec m n) as [->|_]; [contradiction|reflexivity].
Qed.
Lemma set_bit_out be s n v : (8 * length s <= n)%nat -> set_bit be s n v = None.
Proof.
  intros N. unfold set_bit. destruct (nth_error s (n / 8)) as [b|] eqn:E; [|reflexivity].
  assert (n / 8 < length s)%nat by (apply nth_error_Some; congruence). lia.
Qed.

(** The loop of [get]. *)
Lemma one_shl_bit k n : (k < 64)%nat -> 0 <= n ->
  Z.testbit (one_shl k) n = (n =? Z.of_nat k).
Proof.
  intros K N. unfold one_shl. rewrite Nat.mod_small by lia. rewrite Z.shiftl_1_l.
  destruct (Z.eqb_spec n (Z.of_nat k)) as [->|NE].
  - apply Z.pow2_bits_true. lia.
  - apply Z.pow2_bits_false. lia.
Qed.

Lemma get_loop_spec be s o w : (w <= 64)%nat -> (o + w <= 8 * length s)%nat ->
  forall k a acc, (a + k = w)%nat ->
  exists v, get_loop be s o w (seq a k) acc = Some v /\
    forall n, 0 <= n -> Z.testbit v n = Z.testbit acc n ||
      existsb (fun i => bitat be s (i + o) && (n =? Z.of_nat (turn be w i))) (seq a k).
Proof.
  intros W R. induction k as [|k IH]; intros a acc A; cbn [seq get_loop existsb].
  - exists acc. split; [reflexivity|]. intros n N. now rewrite orb_false_r.
  - rewrite get_bit_spec by lia.
    destruct (IH (S a) (if bitat be s (a + o) then Z.lor acc (one_shl (turn be w a)) else acc)
                ltac:(lia)) as (v & E & V).
    exists v. split; [exact E|]. intros n N. rewrite V by assumption.
    rewrite orb_assoc. f_equal. destruct (bitat be s (a + o)); cbn [andb].
    + rewrite Z.lor_spec, one_shl_bit by (assumption || (unfold turn; destruct be; lia)).
      reflexivity.
    + now rewrite orb_false_r.
Qed.

Lemma get_loop_bits be s o w : (w <= 64)%nat -> (o + w <= 8 * length s)%nat ->
  exists v, get_loop be s o w (seq 0 w) 0 = Some v /\
    forall n, Z.testbit v (Z.of_nat n)
      = (n <? w)%nat && bitat be s (turn be w n + o).
Proof.
  intros W R. destruct (get_loop_spec be s o w W R w 0 0 ltac:(lia)) as (v & E & V).
  exists v. split; [exact E|]. intros n. rewrite V by lia. rewrite Z.bits_0. cbn [orb].
  destruct (Nat.ltb_spec n w) as [L|L]; cbn [andb].
  - destruct (bitat be s (turn be w n + o)) eqn:B.
    + apply existsb_exists. exists (turn be w n). split.
      * apply in_seq. unfold turn. destruct be; lia.
      * rewrite B. cbn. apply Z.eqb_eq. unfold turn. destruct be; lia.
    + apply not_true_iff_false. intros T. apply existsb_exists in T as (i & I1 & I2).
      apply in_seq in I1. apply andb_true_iff in I2 as [I2 I3]. apply Z.eqb_eq in I3.
      assert (i = turn be w n) as -> by (unfold turn in *; destruct be; lia). congruence.
  - apply not_true_iff_false. intros T. apply existsb_exists in T as (i & I1 & I2).
    apply in_seq in I1. apply andb_true_iff in I2 as [I2 I3]. apply Z.eqb_eq in I3.
    unfold turn in *; destruct be; lia.
Qed.

(** The bits of the number a unit holds. *)
Lemma le_dec_bits s n : bytes_ok s = true ->
  Z.testbit (le_dec s) (Z.of_nat n) = bitat false s n.
Proof.
  unfold bitat, bit_pos. revert n; induction s as [|b s IH]; intros n B.
  - cbn [le_dec]. rewrite Z.bits_0. destruct (n / 8)%nat; cbn [nth]; now rewrite Z.bits_0.
  - cbn [bytes_ok forallb] in B. apply andb_true_iff in B as [B1 B2]. cbn [le_dec].
    destruct (Nat.lt_ge_cases n 8) as [L|L].
    + rewrite Nat.div_small, Nat.mod_small by lia. cbn [nth].
      rewrite <- (Z.mod_pow2_bits_low _ 8) by lia. f_equal.
      change (2 ^ 8) with 256. unfold byte_ok in B1. lia.
    + replace (n / 8)%nat with (S ((n - 8) / 8))%nat by lia. cbn [nth].
      replace (n mod 8)%nat with ((n - 8) mod 8)%nat by lia.
      rewrite <- IH by exact B2.
      replace (Z.of_nat n) with (Z.of_nat (n - 8) + 8) by lia.
      rewrite <- Z.div_pow2_bits by lia. f_equal. change (2 ^ 8) with 256.
      unfold byte_ok in B1. lia.
Qed.

Lemma bytes_ok_rev s : bytes_ok s = true -> bytes_ok (rev s) = true.
Proof.
  unfold bytes_ok. rewrite !forallb_forall. intros H x X. apply H. now apply in_rev.
Qed.

Lemma number_bits be s n : bytes_ok s = true -> (n < 8 * length s)%nat ->
  Z.testbit (number be s) (Z.of_nat n)
  = bitat be s (if be then 8 * length s - 1 - n else n)%nat.
Proof.
  intros B N. unfold number. destruct be.
  - rewrite le_dec_bits by (apply bytes_ok_rev, B). unfold bitat, bit_pos.
    rewrite rev_nth by lia. f_equal.
    + f_equal. lia.
    + lia.
  - apply le_dec_bits, B.
Qed.
Lemma number_bound be s : bytes_ok s = true ->
  0 <= number be s < 2 ^ (8 * Z.of_nat (length s)).
Proof.
  intros B. rewrite Z.pow_mul_r by lia. change (2 ^ 8) with 256. unfold number.
  destruct be; [rewrite <- rev_length|]; apply le_dec_bound; [apply bytes_ok_rev|]; exact B.
Qed.
Lemma number_high be s n : bytes_ok s = true -> (8 * length s <= n)%nat ->
  Z.testbit (number be s) (Z.of_nat n) = false.
Proof.
  intros B N. pose proof (number_bound be s B) as NB.
  rewrite <- (Z.mod_small _ _ NB). apply Z.mod_pow2_bits_high. lia.
Qed.

(** [get]. *)
Lemma bits_nat a b : (forall n : nat, Z.testbit a (Z.of_nat n) = Z.testbit b (Z.of_nat n)) ->
  a = b.
Proof.
  intros H. apply Z.bits_inj'. intros n N. rewrite <- (Z2Nat.id n N). apply H.
Qed.

Lemma value_bits be s o w n : bytes_ok s = true -> (o + w <= 8 * length s)%nat ->
  Z.testbit (value be s o w) (Z.of_nat n) = (n <? w)%nat && bitat be s (turn be w n + o).
Proof.
  intros B R. unfold value. destruct (Nat.ltb_spec n w) as [L|L]; cbn [andb].
  - rewrite Z.mod_pow2_bits_low by lia. rewrite Z.div_pow2_bits by lia.
    rewrite <- Nat2Z.inj_add. rewrite number_bits.
    + f_equal. unfold above, turn. destruct be; lia.
    + exact B.
    + unfold above. destruct be; lia.
  - apply Z.mod_pow2_bits_high. lia.
Qed.

Lemma get_loop_value be s o w : bytes_ok s = true -> inside (length s) o w ->
  get_loop be s o w (seq 0 w) 0 = Some (value be s o w).
Proof.
  intros B [R W]. destruct (get_loop_bits be s o w W R) as (v & E & V). rewrite E. f_equal.
  apply bits_nat. intros n. rewrite V, value_bits by assumption. reflexivity.
Qed.

Lemma asserts_inside len o w : inside len o w -> (0 < w)%nat -> asserts len o w = true.
Proof. unfold inside, asserts. lia. Qed.

Lemma get_value dbg be s o w : bytes_ok s = true -> inside (length s) o w -> (0 < w)%nat ->
  get dbg be s o w = Some (value be s o w).
Proof.
  intros B R W. unfold get. rewrite asserts_inside by assumption. rewrite andb_false_r.
  apply get_loop_value; assumption.
Qed.

(** The loop of [set]. *)
Lemma set_loop_bits be o w v : (w <= 64)%nat ->
  forall k a s, bytes_ok s = true -> (o + w <= 8 * length s)%nat -> (a + k = w)%nat ->
  exists s', set_loop be s o w v (seq a k) = Some s' /\ length s' = length s /\
    bytes_ok s' = true /\
    (forall m, (forall i, (a <= i < a + k)%nat -> m <> (turn be w i + o)%nat) ->
      bitat be s' m = bitat be s m) /\
    forall i, (a <= i < a + k)%nat -> bitat be s' (turn be w i + o) = Z.testbit v (Z.of_nat i).
Proof.
  intros W. induction k as [|k IH]; intros a s B R A; cbn [seq set_loop].
  - exists s. repeat split; auto. intros; lia.
  - destruct (set_bit_spec be s (turn be w a + o) (Z.land v (one_shl a) =? one_shl a) B
                ltac:(unfold turn; destruct be; lia)) as (s1 & E1 & L1 & B1 & H1).
    rewrite E1. destruct (IH (S a) s1 B1 ltac:(lia) ltac:(lia)) as (s2 & E2 & L2 & B2 & H2 & H3).
    exists s2. split; [exact E2|]. split; [lia|]. split; [exact B2|]. split.
    + intros m M. rewrite H2 by (intros i I'; apply M; lia). rewrite H1.
      destruct (Nat.eqb_spec m (turn be w a + o)) as [->|_]; [|reflexivity].
      exfalso. apply (M a); [lia|reflexivity].
    + intros i I'. destruct (Nat.eq_dec i a) as [->|NE]; [|apply H3; lia].
      rewrite H2 by (intros j J; unfold turn; destruct be; lia).
      rewrite H1, Nat.eqb_refl. unfold one_shl. rewrite Nat.mod_small by lia.
      apply land_one_shiftl. lia.
Qed.

Lemma set_loop_all be s o w v : bytes_ok s = true -> inside (length s) o w ->
  exists s', set_loop be s o w v (seq 0 w) = Some s' /\ length s' = length s /\
    bytes_ok s' = true /\
    (forall m, (m < o \/ o + w <= m)%nat -> bitat be s' m = bitat be s m) /\
    (forall i, (i < w)%nat -> bitat be s' (turn be w i + o) = Z.testbit v (Z.of_nat i)).
Proof.
  intros B [R W]. destruct (set_loop_bits be o w v W w 0 s B R ltac:(lia))
    as (s' & E & L & B' & H1 & H2).
  exists s'. repeat split; auto.
  - intros m M. apply H1. intros i I'. unfold turn. destruct be; lia.
  - intros i I'. apply H2. lia.
Qed.

(** A number is its part below, its part in and its part above a field. *)
Lemma three_parts x a w : 0 <= a -> 0 <= w ->
  x = x mod 2 ^ a + 2 ^ a * (x / 2 ^ a mod 2 ^ w + 2 ^ w * (x / 2 ^ (a + w))).
Proof.
  intros A W. rewrite Z.pow_add_r by lia. rewrite <- Z.div_div by lia.
  pose proof (Z.div_mod x (2 ^ a) ltac:(lia)) as E1.
  pose proof (Z.div_mod (x / 2 ^ a) (2 ^ w) ltac:(lia)) as E2. nia.
Qed.

Lemma set_replaced_loop be s o w v : bytes_ok s = true -> inside (length s) o w ->
  exists s', set_loop be s o w v (seq 0 w) = Some s' /\ replaced be s o w v s'.
Proof.
  intros B R. destruct (set_loop_all be s o w v B R) as (s' & E & L & B' & H1 & H2).
  exists s'. split; [exact E|]. destruct R as [R W]. split; [exact L|]. split; [exact B'|].
  set (a := above be (length s) o w).
  assert (LO : number be s' mod 2 ^ Z.of_nat a = number be s mod 2 ^ Z.of_nat a).
  { apply bits_nat. intros n. destruct (Nat.lt_ge_cases n a) as [N|N].
    - rewrite !Z.mod_pow2_bits_low by lia.
      assert (n < 8 * length s)%nat by (unfold a, above in N; destruct be; lia).
      rewrite !number_bits by (assumption || lia). rewrite L. apply H1.
      unfold a, above in N. destruct be; lia.
    - rewrite !Z.mod_pow2_bits_high by lia. reflexivity. }
  assert (MI : number be s' / 2 ^ Z.of_nat a mod 2 ^ Z.of_nat w = v mod 2 ^ Z.of_nat w).
  { change (number be s' / 2 ^ Z.of_nat a mod 2 ^ Z.of_nat w)
      with (number be s' / 2 ^ Z.of_nat (above be (length s) o w) mod 2 ^ Z.of_nat w).
    rewrite <- L.
    apply bits_nat. intros n. fold (value be s' o w). rewrite value_bits by (assumption || lia).
    destruct (Nat.ltb_spec n w) as [N|N]; cbn [andb].
    - rewrite H2 by exact N. rewrite Z.mod_pow2_bits_low by lia. reflexivity.
    - rewrite Z.mod_pow2_bits_high by lia. reflexivity. }
  assert (HI : number be s' / 2 ^ (Z.of_nat a + Z.of_nat w)
             = number be s / 2 ^ (Z.of_nat a + Z.of_nat w)).
  { apply bits_nat. intros n. rewrite !Z.div_pow2_bits by lia. rewrite <- !Nat2Z.inj_add.
    destruct (Nat.lt_ge_cases (n + (a + w)) (8 * length s)) as [N|N].
    - rewrite !number_bits by (assumption || lia). rewrite L. apply H1.
      unfold a, above in *. destruct be; lia.
    - rewrite !number_high by (assumption || lia). reflexivity. }
  pose proof (three_parts (number be s') (Z.of_nat a) (Z.of_nat w) ltac:(lia) ltac:(lia)) as T'.
  pose proof (three_parts (number be s) (Z.of_nat a) (Z.of_nat w) ltac:(lia) ltac:(lia)) as T.
  rewrite LO, MI, HI in T'. unfold value. fold a.
  set (m := number be s / 2 ^ Z.of_nat a mod 2 ^ Z.of_nat w) in *.
  set (lo := number be s mod 2 ^ Z.of_nat a) in *.
  set (h := number be s / 2 ^ (Z.of_nat a + Z.of_nat w)) in *.
  clearbody m lo h. rewrite T', T. ring.
Qed.

Lemma set_replaced dbg be s o w v : bytes_ok s = true -> inside (length s) o w -> (0 < w)%nat ->
  exists s', set dbg be s o w v = Some s' /\ replaced be s o w v s'.
Proof.
  intros B R W. unfold set. rewrite asserts_inside by assumption. rewrite andb_false_r.
  apply set_replaced_loop; assumption.
Qed.
