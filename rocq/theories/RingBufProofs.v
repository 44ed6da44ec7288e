From Verif Require Import Base RingBufModel RingBufSpec.
Local Open Scope Z_scope.

(* ---------- arithmetic ---------- *)
Lemma land_pow2 x n : 0 <= n -> Z.land x (2 ^ n) = if Z.testbit x n then 2 ^ n else 0.
Proof.
  intros Hn. apply Z.bits_inj'. intros m Hm. rewrite Z.land_spec, Z.pow2_bits_eqb by lia.
  destruct (Z.eqb_spec n m) as [->|Hne].
  - rewrite andb_true_r. destruct (Z.testbit x m) eqn:E.
    + now rewrite Z.pow2_bits_true.
    + now rewrite Z.bits_0.
  - rewrite andb_false_r. destruct (Z.testbit x n).
    + now rewrite Z.pow2_bits_false.
    + now rewrite Z.bits_0.
Qed.

Lemma land_bit_zero x n : 0 <= n -> (Z.land x (2 ^ n) =? 0) = negb (Z.testbit x n).
Proof.
  intros Hn. rewrite land_pow2 by exact Hn.
  pose proof (Z.pow_pos_nonneg 2 n). destruct (Z.testbit x n); cbn [negb]; lia.
Qed.

Lemma land_mask x e : 0 <= e -> Z.land x (2 ^ e - 1) = x mod 2 ^ e.
Proof. intros He. rewrite <- Z.land_ones by exact He. f_equal. rewrite Z.ones_equiv. lia. Qed.

Lemma rec_len_pos n : 0 <= n -> n + 8 <= rec_len n < n + 16.
Proof. unfold rec_len, HDR_SZ. lia. Qed.

Lemma u64_mod_pow x e : 0 <= e <= 64 -> u64 x mod 2 ^ e = x mod 2 ^ e.
Proof.
  intros He. unfold u64, wrap.
  replace 64 with (e + (64 - e)) at 1 by lia. rewrite Z.pow_add_r by lia.
  pose proof (Z.pow_pos_nonneg 2 e). pose proof (Z.pow_pos_nonneg 2 (64 - e)).
  rewrite Z.rem_mul_r by lia.
  rewrite (Z.mul_comm (2 ^ e)), Z_mod_plus_full. apply Z.mod_mod. lia.
Qed.

Lemma u64_add_l x y : u64 (u64 x + y) = u64 (x + y).
Proof. unfold u64, wrap. now rewrite Zplus_mod_idemp_l. Qed.

Lemma u64_sub x y : u64 (u64 x - u64 y) = u64 (x - y).
Proof. unfold u64, wrap. symmetry. apply Zminus_mod. Qed.

Lemma u64_small x : 0 <= x < 2 ^ 64 -> u64 x = x.
Proof. intros H. unfold u64, wrap. apply Z.mod_small, H. Qed.

Lemma u64_inj x y : u64 x = u64 y -> 0 <= y - x < 2 ^ 64 -> x = y.
Proof.
  intros H Hr. assert (u64 (y - x) = 0) as E.
  { rewrite <- u64_sub, H, Z.sub_diag. reflexivity. }
  rewrite u64_small in E by exact Hr. lia.
Qed.

Lemma mod_add_neq size a b : 0 < size -> 0 < b - a < size -> a mod size <> b mod size.
Proof.
  intros Hs Hd E.
  pose proof (Z.div_mod a size ltac:(lia)). pose proof (Z.div_mod b size ltac:(lia)).
  assert (size * (b / size - a / size) = b - a) by nia.
  assert (b / size - a / size <= 0 \/ b / size - a / size >= 1) as [|] by lia; nia.
Qed.

(* ---------- memory ranges ---------- *)
Section Mem.
Variable size : Z.
Hypothesis Hsize : 0 < size.

Lemma rd_range_length m o n : length (rd_range size m o n) = n.
Proof using Hsize. unfold rd_range. rewrite map_length, seq_length. reflexivity. Qed.

Lemma rd_range_cong m o o' n :
  o mod size = o' mod size -> rd_range size m o n = rd_range size m o' n.
Proof using Hsize.
  intros H. unfold rd_range. apply map_ext. intros i. unfold rd. f_equal.
  rewrite (Z.add_mod o), (Z.add_mod o') by lia. now rewrite H.
Qed.

Lemma rd_range_nth m o n i :
  nth_error (rd_range size m o n) i =
  if (i <? n)%nat then Some (m ((o + Z.of_nat i) mod size)) else None.
Proof using Hsize.
  unfold rd_range. rewrite nth_error_map. destruct (Nat.ltb_spec i n) as [H|H].
  - assert (nth_error (seq 0 n) i = Some i) as ->.
    { rewrite (nth_error_nth' _ O) by (rewrite seq_length; lia). now rewrite seq_nth. }
    reflexivity.
  - assert (nth_error (seq 0 n) i = None) as -> by (apply nth_error_None; rewrite seq_length; lia).
    reflexivity.
Qed.

Lemma rd_range_ext m m' o n :
  (forall i, 0 <= i < Z.of_nat n -> m ((o + i) mod size) = m' ((o + i) mod size)) ->
  rd_range size m o n = rd_range size m' o n.
Proof using Hsize.
  intros H. apply list_eq_nth_error. intros i. rewrite !rd_range_nth.
  destruct (Nat.ltb_spec i n); [|reflexivity]. now rewrite H by lia.
Qed.

Lemma wr_range_cong m o o' l x :
  o mod size = o' mod size -> wr_range size m o l x = wr_range size m o' l x.
Proof using Hsize.
  revert m o o'. induction l as [|b l IH]; intros m o o' H; cbn [wr_range]; [reflexivity|].
  rewrite H. apply IH. rewrite (Z.add_mod o), (Z.add_mod o') by lia. now rewrite H.
Qed.

Lemma wr_range_other m o l x :
  (forall i, 0 <= i < Z.of_nat (length l) -> (o + i) mod size <> x) ->
  wr_range size m o l x = m x.
Proof using Hsize.
  revert m o; induction l as [|b l IH]; intros m o H; cbn [wr_range]; [reflexivity|].
  rewrite IH.
  - destruct (Z.eqb_spec x (o mod size)) as [E|E]; [|reflexivity].
    exfalso. apply (H 0); [cbn [length]; lia|]. now rewrite Z.add_0_r.
  - intros i Hi. replace (o + 1 + i) with (o + (i + 1)) by lia. apply H. cbn [length]. lia.
Qed.

Lemma wr_range_at m o l i b :
  Z.of_nat (length l) <= size -> nth_error l i = Some b ->
  wr_range size m o l ((o + Z.of_nat i) mod size) = b.
Proof using Hsize.
  revert m o i; induction l as [|c l IH]; intros m o i Hl Hi; [destruct i; discriminate|].
  cbn [length] in Hl. cbn [wr_range]. destruct i as [|i]; cbn [nth_error] in Hi.
  - inversion Hi; subst. rewrite wr_range_other.
    + rewrite Z.add_0_r, Z.eqb_refl. reflexivity.
    + intros i Hi'. rewrite Z.add_0_r. intros E. symmetry in E.
      revert E. apply mod_add_neq; lia.
  - replace (o + Z.of_nat (S i)) with (o + 1 + Z.of_nat i) by lia. apply IH; [lia|exact Hi].
Qed.

Lemma rd_wr_same m o l : Z.of_nat (length l) <= size ->
  rd_range size (wr_range size m o l) o (length l) = l.
Proof using Hsize.
  intros Hl. apply list_eq_nth_error. intros i. rewrite rd_range_nth.
  destruct (Nat.ltb_spec i (length l)) as [H|H].
  - destruct (nth_error l i) as [b|] eqn:E.
    + now rewrite (wr_range_at m o l i b).
    + apply nth_error_None in E. lia.
  - symmetry. now apply nth_error_None.
Qed.

(** Disjoint ranges inside one window of [size] bytes. *)
Definition apart (o n o' n' : Z) : Prop :=
  (o + n <= o' /\ o' + n' <= o + size) \/ (o' + n' <= o /\ o + n <= o' + size).

Lemma rd_wr_apart m o l o' n :
  apart o (Z.of_nat (length l)) o' (Z.of_nat n) ->
  rd_range size (wr_range size m o l) o' n = rd_range size m o' n.
Proof using Hsize.
  intros H. apply rd_range_ext. intros i Hi. apply wr_range_other. intros j Hj.
  destruct H as [H|H].
  - apply mod_add_neq; lia.
  - intros E. symmetry in E. revert E. apply mod_add_neq; lia.
Qed.
End Mem.

(* ---------- the invariant ---------- *)
Definition total (l : list rentry) : Z := fold_right (fun e a => rec_len (r_len e) + a) 0 l.
(** Logical (unwrapped) position of the [j]-th record. *)
Definition P (b : Z) (l : list rentry) (j : nat) : Z := b + total (firstn j l).

Definition held (s : sys) : list (list Z) := match holding s with Some d => [d] | None => [] end.

Record entry_ok (s : sys) (b : Z) (j : nat) (e : rentry) : Prop := {
  eo_at : r_at e = u64 (P b (log s) j);
  eo_len : 0 <= r_len e < 2 ^ 30;
  eo_fit : rec_len (r_len e) <= sz s;
  eo_content : length (r_content e) = Z.to_nat (r_len e)
}.

Record Inv (s : sys) (b : Z) (k m : nat) : Prop := {
  i_size : ring_size_ok (sz s);
  i_km : (k <= m <= length (log s))%nat;
  i_entries : forall j e, nth_error (log s) j = Some e -> entry_ok s b j e;
  i_pos : pos (reader s) = u64 (P b (log s) k);
  i_cpos : cpos (shared s) = u64 (P b (log s) k);
  i_ppos : ppos (shared s) = u64 (P b (log s) (length (log s)));
  i_cache : pos_cache (reader s) = u64 (P b (log s) m);
  i_room : P b (log s) (length (log s)) - P b (log s) k <= sz s - 1;
  i_hdr : forall j e, (k <= j)%nat -> nth_error (log s) j = Some e ->
      rd_range (sz s) (mem (shared s)) (P b (log s) j) 4 = le_enc 4 (header_of e);
  i_dat : forall j e, (k <= j)%nat -> nth_error (log s) j = Some e ->
      rd_range (sz s) (mem (shared s)) (P b (log s) j + 8) (Z.to_nat (r_len e)) = r_content e;
  i_settled : forall j e, (j < k)%nat -> nth_error (log s) j = Some e -> r_status e <> Reserved;
  i_deliv : delivered s = payloads (firstn k (log s)) ++ held s;
  i_held : forall d, holding s = Some d ->
      (k < m)%nat /\ exists e, nth_error (log s) k = Some e /\ r_status e = Committed /\ d = r_content e
}.

Lemma total_app a b : total (a ++ b) = total a + total b.
Proof. unfold total. induction a as [|x a IH]; cbn [fold_right app]; [reflexivity|rewrite IH; lia]. Qed.

Lemma firstn_S {A} j (l : list A) e : nth_error l j = Some e -> firstn (S j) l = firstn j l ++ [e].
Proof.
  revert l; induction j as [|j IH]; intros [|x l] H; try discriminate.
  - cbn in *. now inversion H.
  - cbn [nth_error] in H. cbn [firstn app]. f_equal. now apply IH.
Qed.

Lemma P_S b l j e : nth_error l j = Some e -> P b l (S j) = P b l j + rec_len (r_len e).
Proof. intros H. unfold P. rewrite (firstn_S j l e H), total_app. cbn [total fold_right]. lia. Qed.

Lemma P_app b l x j : (j <= length l)%nat -> P b (l ++ [x]) j = P b l j.
Proof. intros H. unfold P. rewrite firstn_app. replace (j - length l)%nat with O by lia. cbn [firstn]. now rewrite app_nil_r. Qed.

Lemma P_mono b l j j' : (forall i e, nth_error l i = Some e -> 0 <= r_len e) ->
  (j <= j' <= length l)%nat -> P b l j + 8 * Z.of_nat (j' - j) <= P b l j'.
Proof.
  intros Hl [H1 H2]. induction j' as [|j' IH].
  - replace j with O by lia. cbn. lia.
  - destruct (Nat.eq_dec j (S j')) as [->|Hne]; [lia|].
    destruct (nth_error l j') as [e|] eqn:E; [|apply nth_error_None in E; lia].
    rewrite (P_S b l j' e E). pose proof (rec_len_pos _ (Hl j' e E)).
    assert (P b l j + 8 * Z.of_nat (j' - j) <= P b l j') by (apply IH; lia). lia.
Qed.

Lemma total_upd i e e' l : nth_error l i = Some e -> r_len e' = r_len e -> forall j,
  total (firstn j (upd i e' l)) = total (firstn j l).
Proof.
  revert i; induction l as [|x l IH]; intros [|i] H Hl j; try discriminate; destruct j as [|j]; try reflexivity.
  - cbn in H. inversion H; subst. cbn. now rewrite Hl.
  - cbn [nth_error] in H. cbn [upd firstn total fold_right]. f_equal.
    specialize (IH i H Hl j). exact IH.
Qed.

Lemma P_upd b i e e' l j : nth_error l i = Some e -> r_len e' = r_len e -> P b (upd i e' l) j = P b l j.
Proof. intros H Hl. unfold P. now rewrite (total_upd i e). Qed.

Lemma firstn_upd_ge {A} k i (v : A) l : (k <= i)%nat -> firstn k (upd i v l) = firstn k l.
Proof.
  revert i l; induction k as [|k IH]; intros i l H; [reflexivity|].
  destruct l as [|x l]; [reflexivity|]. destruct i as [|i]; [lia|]. cbn [upd firstn]. f_equal. apply IH. lia.
Qed.

Section InvFacts.
Variables (s : sys) (b : Z) (k m : nat).
Hypothesis I : Inv s b k m.

Lemma inv_lens : forall i e, nth_error (log s) i = Some e -> 0 <= r_len e.
Proof. intros i e H. pose proof (eo_len _ _ _ _ (i_entries _ _ _ _ I i e H)). lia. Qed.

Lemma inv_mono j j' : (j <= j' <= length (log s))%nat ->
  P b (log s) j + 8 * Z.of_nat (j' - j) <= P b (log s) j'.
Proof. apply P_mono. exact inv_lens. Qed.

Lemma inv_size_pos : 8 <= sz s <= 2 ^ 30.
Proof.
  destruct (i_size _ _ _ _ I) as (e & He & ->). split.
  - change 8 with (2 ^ 3). apply Z.pow_le_mono_r; lia.
  - apply Z.pow_le_mono_r; lia.
Qed.

Lemma inv_window j e : (k <= j)%nat -> nth_error (log s) j = Some e ->
  P b (log s) k <= P b (log s) j /\ P b (log s) j + rec_len (r_len e) <= P b (log s) (length (log s)) /\
  P b (log s) (length (log s)) < P b (log s) k + sz s.
Proof.
  intros Hj He. assert (j < length (log s))%nat by (apply nth_error_Some; congruence).
  pose proof (inv_mono k j). rewrite <- (P_S b (log s) j e He).
  pose proof (inv_mono (S j) (length (log s))). pose proof (i_room _ _ _ _ I).
  lia.
Qed.

(** Two distinct live records occupy separate ranges. *)
Lemma inv_sep i j ei ej : (k <= i)%nat -> (k <= j)%nat -> i <> j ->
  nth_error (log s) i = Some ei -> nth_error (log s) j = Some ej ->
  apart (sz s) (P b (log s) i) (rec_len (r_len ei)) (P b (log s) j) (rec_len (r_len ej)).
Proof.
  intros Hi Hj Hne Ei Ej.
  assert (i < length (log s))%nat by (apply nth_error_Some; congruence).
  assert (j < length (log s))%nat by (apply nth_error_Some; congruence).
  pose proof (inv_window i ei Hi Ei). pose proof (inv_window j ej Hj Ej).
  pose proof (P_S b (log s) i ei Ei). pose proof (P_S b (log s) j ej Ej).
  unfold apart. destruct (Nat.lt_ge_cases i j).
  - left. pose proof (inv_mono (S i) j). lia.
  - right. pose proof (inv_mono (S j) i). lia.
Qed.
End InvFacts.

Lemma apart_sub size o n o' n' a na c nc :
  apart size o n o' n' -> o <= a -> 0 <= na -> a + na <= o + n -> o' <= c -> 0 <= nc -> c + nc <= o' + n' -> apart size a na c nc.
Proof. unfold apart. lia. Qed.

Lemma r_at_mod s b k m j e : Inv s b k m -> nth_error (log s) j = Some e ->
  r_at e mod sz s = P b (log s) j mod sz s.
Proof.
  intros I He. rewrite (eo_at _ _ _ _ (i_entries _ _ _ _ I j e He)).
  destruct (i_size _ _ _ _ I) as (x & Hx & ->). apply u64_mod_pow. lia.
Qed.

(* ---------- read_item on an invariant state ---------- *)
Lemma header_bits e : 0 <= r_len e < 2 ^ 30 ->
  Z.testbit (header_of e) 31 = (match r_status e with Reserved => true | _ => false end) /\
  (r_status e <> Reserved -> Z.testbit (header_of e) 30 = match r_status e with Discarded => true | _ => false end).
Proof.
  intros H. unfold header_of, BUSY_BIT, DISCARD_BIT.
  assert (forall x n, 0 <= n -> Z.testbit x n = (Z.odd (x / 2 ^ n))) as T.
  { intros x n Hn. rewrite Z.testbit_odd, Z.shiftr_div_pow2; auto. }
  rewrite !T by lia.
  destruct (r_status e); (split; [|intros Hn]); try congruence.
  - replace ((r_len e + 2 ^ 31) / 2 ^ 31) with 1; [reflexivity|]. lia.
  - replace (r_len e / 2 ^ 31) with 0; [reflexivity|]. lia.
  - replace (r_len e / 2 ^ 30) with 0; [reflexivity|]. lia.
  - replace ((r_len e + 2 ^ 30) / 2 ^ 31) with 0; [reflexivity|]. lia.
  - replace ((r_len e + 2 ^ 30) / 2 ^ 30) with 1; [reflexivity|]. lia.
Qed.

Lemma read_item_spec s b k m e : Inv s b k m -> nth_error (log s) k = Some e ->
  read_item (sz s) (mem (shared s)) (pos (reader s)) =
  match r_status e with
  | Reserved => Busy
  | Discarded => Discard (r_len e)
  | Committed => Data (r_content e)
  end.
Proof.
  intros I He. pose proof (i_entries _ _ _ _ I k e He) as [Hat Hlen Hfit Hc].
  pose proof (inv_size_pos _ _ _ _ I) as Hs.
  destruct (i_size _ _ _ _ I) as (x & Hx & Ex).
  unfold read_item.
  assert (Z.land (pos (reader s)) (sz s - 1) = P b (log s) k mod sz s) as ->.
  { rewrite Ex at 1. rewrite land_mask by lia. rewrite (i_pos _ _ _ _ I), u64_mod_pow by lia. now rewrite Ex. }
  set (o := P b (log s) k mod sz s).
  assert (0 <= o < sz s) as Ho by (apply Z.mod_pos_bound; lia).
  assert (o mod sz s = P b (log s) k mod sz s) as Hom by (apply Z.mod_mod; lia).
  unfold must_get. destruct (Z.leb_spec (o + 4) (2 * sz s)) as [_|?]; [|lia].
  change (Z.to_nat 4) with 4%nat.
  rewrite (rd_range_cong (sz s) ltac:(lia) _ o (P b (log s) k) 4 Hom).
  rewrite (i_hdr _ _ _ _ I k e (le_n _) He).
  assert (0 <= header_of e < 2 ^ 32) as Hh.
  { unfold header_of, BUSY_BIT, DISCARD_BIT. destruct (r_status e); lia. }
  rewrite le_dec_enc_small by (change (256 ^ Z.of_nat 4) with (2 ^ 32); exact Hh).
  destruct (header_bits e Hlen) as [Hb Hd].
  unfold BUSY_BIT, DISCARD_BIT. rewrite !land_bit_zero by lia. rewrite !negb_involutive, Hb.
  destruct (r_status e) eqn:Est; [reflexivity| |]; rewrite Hd by discriminate.
  - (* Committed *)
    assert (Z.land (header_of e) (sz s - 1) = r_len e) as ->.
    { rewrite Ex, land_mask by lia. unfold header_of. rewrite Est. rewrite <- Ex.
      pose proof (rec_len_pos (r_len e)). apply Z.mod_small. lia. }
    pose proof (rec_len_pos (r_len e)) as Hr.
    destruct (Z.leb_spec (o + HDR_SZ + r_len e) (2 * sz s)) as [_|Hbad]; [|unfold HDR_SZ in Hbad; lia].
    f_equal. rewrite (rd_range_cong (sz s) ltac:(lia) _ (o + HDR_SZ) (P b (log s) k + 8)).
    + apply (i_dat _ _ _ _ I k e (le_n _) He).
    + unfold HDR_SZ. rewrite (Z.add_mod o), (Z.add_mod (P b (log s) k)) by lia. now rewrite Hom.
  - (* Discarded *)
    f_equal. rewrite Ex, land_mask by lia. unfold header_of. rewrite Est. rewrite <- Ex.
    pose proof (rec_len_pos (r_len e)).
    unfold DISCARD_BIT. replace (2 ^ 30) with (2 ^ (30 - x) * sz s).
    2:{ rewrite Ex, <- Z.pow_add_r by lia. f_equal. lia. }
    rewrite Z_mod_plus_full. apply Z.mod_small. lia.
Qed.

Lemma inv_pos_eq s b k m j j' : Inv s b k m -> (k <= j <= j')%nat -> (j' <= length (log s))%nat ->
  u64 (P b (log s) j) = u64 (P b (log s) j') -> j = j'.
Proof.
  intros I [Hk Hj] Hn E. destruct (Nat.eq_dec j j') as [->|Hne]; [reflexivity|exfalso].
  pose proof (inv_mono s b k m I j j' (conj Hj Hn)). pose proof (inv_mono s b k m I k j ltac:(lia)).
  pose proof (inv_mono s b k m I j' (length (log s)) ltac:(lia)).
  pose proof (i_room _ _ _ _ I). pose proof (inv_size_pos _ _ _ _ I).
  apply u64_inj in E; lia.
Qed.

(* ---------- preservation ---------- *)
Lemma payloads_app a c : payloads (a ++ c) = payloads a ++ payloads c.
Proof. unfold payloads. now rewrite filter_app, map_app. Qed.

Lemma inv_init size p mm : ring_size_ok size -> Inv (init size p mm) p 0 0.
Proof.
  intros Hs. assert (P p (@nil rentry) 0 = p) as HP by (unfold P, total; cbn [firstn fold_right]; lia).
  constructor; cbn [init log sz shared reader holding delivered length mem cpos ppos new_cons pos pos_cache]; auto.
  - intros j e H. destruct j; discriminate.
  - now rewrite HP.
  - now rewrite HP.
  - now rewrite HP.
  - now rewrite HP.
  - rewrite HP. destruct Hs as (e & He & ->). pose proof (Z.pow_pos_nonneg 2 e). lia.
  - intros j e _ H. destruct j; discriminate.
  - intros j e _ H. destruct j; discriminate.
  - intros j e H. lia.
  - discriminate.
Qed.

Lemma inv_reserve s b k m len pg : Inv s b k m -> exists m', Inv (reserve s len pg) b k m'.
Proof.
  intros I. unfold reserve.
  destruct ((0 <=? len) && (len <? 2 ^ 30) && (rec_len len <=? sz s) &&
            (u64 (u64 (ppos (shared s) + rec_len len) - cpos (shared s)) <=? sz s - 1)) eqn:G; [|eauto].
  rewrite !andb_true_iff in G. destruct G as [[[G1 G2] G3] G4].
  apply Z.leb_le in G1, G3, G4. apply Z.ltb_lt in G2.
  exists m. pose proof (inv_size_pos _ _ _ _ I) as Hs.
  set (n := length (log s)) in *.
  pose proof (rec_len_pos len G1) as Hrl.
  assert (P b (log s) n + rec_len len - P b (log s) k <= sz s - 1) as Hroom.
  { rewrite (i_ppos _ _ _ _ I), (i_cpos _ _ _ _ I) in G4.
    rewrite u64_add_l, u64_sub in G4. fold n in G4.
    pose proof (inv_mono s b k m I k n ltac:(pose proof (i_km _ _ _ _ I); lia)).
    pose proof (i_room _ _ _ _ I). fold n in H0.
    rewrite u64_small in G4; lia. }
  set (e := {| r_at := _; r_len := len; r_status := Reserved; r_content := _ |}).
  set (l' := log s ++ [e]).
  assert (Hlen' : length l' = S n) by (unfold l', n; rewrite app_length; cbn; lia).
  assert (HPn : P b l' (S n) = P b (log s) n + rec_len len).
  { rewrite (P_S b l' n e). 2:{ unfold l', n. rewrite nth_error_app2, Nat.sub_diag by lia. reflexivity. }
    unfold l'. rewrite P_app by (unfold n; lia). reflexivity. }
  assert (HPle : forall j, (j <= n)%nat -> P b l' j = P b (log s) j) by (intros; unfold l'; apply P_app; assumption).
  assert (Hnth : forall j x, nth_error l' j = Some x -> (nth_error (log s) j = Some x /\ (j < n)%nat) \/ (j = n /\ x = e)).
  { intros j x H. unfold l' in H. destruct (Nat.lt_ge_cases j n).
    - rewrite nth_error_app1 in H by assumption. auto.
    - rewrite nth_error_app2 in H by assumption. fold n in H.
      destruct (j - n)%nat as [|q] eqn:Eq; cbn in H; [|destruct q; discriminate].
      inversion H; subst. right. split; [lia|reflexivity]. }
  assert (Hpm : ppos (shared s) mod sz s = P b (log s) n mod sz s).
  { rewrite (i_ppos _ _ _ _ I). destruct (i_size _ _ _ _ I) as (x & Hx & ->). apply u64_mod_pow. lia. }
  assert (Hwl : Z.of_nat (length (le_enc 4 (header_of e) ++ firstn 4 pg)) <= 8).
  { rewrite app_length, le_enc_length, firstn_length. lia. }
  assert (Hrdw : forall o q, (apart (sz s) (P b (log s) n) 8 o (Z.of_nat q)) ->
     rd_range (sz s) (wr_range (sz s) (mem (shared s)) (ppos (shared s)) (le_enc 4 (header_of e) ++ firstn 4 pg)) o q
     = rd_range (sz s) (mem (shared s)) o q).
  { intros o q Ha. rewrite <- (rd_wr_apart (sz s) ltac:(lia) (mem (shared s)) (P b (log s) n) (le_enc 4 (header_of e) ++ firstn 4 pg)).
    2:{ unfold apart in *. lia. }
    apply rd_range_ext; [lia|]. intros. apply wr_range_cong; [lia|exact Hpm]. }
  assert (Hkm := i_km _ _ _ _ I). fold n in Hkm.
  assert (Hcl : length (r_content e) = Z.to_nat len) by (unfold e; cbn [r_content]; apply rd_range_length; lia).
  constructor; cbn [sz shared reader holding log delivered mem cpos ppos]; fold e; fold l'.
  - apply (i_size _ _ _ _ I).
  - rewrite Hlen'. lia.
  - intros j x Hx. destruct (Hnth j x Hx) as [[Ho Hj]|[-> ->]].
    + destruct (i_entries _ _ _ _ I j x Ho) as [A B C D]. constructor; cbn [log]; auto.
      rewrite HPle by lia. exact A.
    + constructor; cbn [log sz].
      * rewrite HPle by lia. unfold e; cbn [r_at]. apply (i_ppos _ _ _ _ I).
      * unfold e; cbn [r_len]. lia.
      * exact G3.
      * exact Hcl.
  - rewrite HPle by lia. apply (i_pos _ _ _ _ I).
  - rewrite HPle by lia. apply (i_cpos _ _ _ _ I).
  - rewrite Hlen', HPn, (i_ppos _ _ _ _ I). apply u64_add_l.
  - rewrite HPle by lia. apply (i_cache _ _ _ _ I).
  - rewrite Hlen', HPn, HPle by lia. lia.
  - intros j x Hj Hx. destruct (Hnth j x Hx) as [[Ho Hjn]|[-> ->]].
    + rewrite HPle by lia. rewrite Hrdw; [apply (i_hdr _ _ _ _ I j x Hj Ho)|].
      pose proof (inv_window s b k m I j x Hj Ho). fold n in H.
      pose proof (inv_lens _ _ _ _ I j x Ho). pose proof (rec_len_pos (r_len x) ltac:(lia)).
      unfold apart. lia.
    + rewrite HPle by lia.
      apply list_eq_nth_error. intros i. rewrite rd_range_nth by lia.
      destruct (Nat.ltb_spec i 4) as [Hi|Hi].
      2:{ symmetry. apply nth_error_None. rewrite le_enc_length. lia. }
      destruct (nth_error (le_enc 4 (header_of e)) i) as [v|] eqn:Ev.
      2:{ apply nth_error_None in Ev. rewrite le_enc_length in Ev. lia. }
      f_equal. rewrite (wr_range_cong (sz s) ltac:(lia) _ _ (P b (log s) n) _ _ Hpm).
      apply wr_range_at; [lia|lia|]. rewrite nth_error_app1; [exact Ev|rewrite le_enc_length; lia].
  - intros j x Hj Hx. destruct (Hnth j x Hx) as [[Ho Hjn]|[-> ->]].
    + rewrite HPle by lia. rewrite Hrdw; [apply (i_dat _ _ _ _ I j x Hj Ho)|].
      pose proof (inv_window s b k m I j x Hj Ho). fold n in H.
      pose proof (inv_lens _ _ _ _ I j x Ho).
      pose proof (rec_len_pos (r_len x) ltac:(lia)).
      unfold apart. lia.
    + rewrite HPle by lia. rewrite Hrdw.
      * unfold e; cbn [r_content r_len]. apply rd_range_cong; [lia|].
        unfold HDR_SZ. rewrite (Z.add_mod (ppos (shared s))), (Z.add_mod (P b (log s) n)) by lia. now rewrite Hpm.
      * unfold e; cbn [r_len]. unfold apart. lia.
  - intros j x Hj Hx. destruct (Hnth j x Hx) as [[Ho Hjn]|[-> ->]]; [|lia].
    apply (i_settled _ _ _ _ I j x Hj Ho).
  - unfold l'. rewrite firstn_app. replace (k - length (log s))%nat with O by (fold n; lia).
    cbn [firstn]. rewrite app_nil_r. apply (i_deliv _ _ _ _ I).
  - intros d Hd. destruct (i_held _ _ _ _ I d Hd) as [Hkm' (x & Hx & Hst & Hdx)]. split; [exact Hkm'|].
    exists x. split; [|auto]. unfold l'. rewrite nth_error_app1; [exact Hx|]. apply nth_error_Some. congruence.
Qed.

(** Producer-side updates of a record still being written. *)
Lemma inv_upd s b k m i e e' mm : Inv s b k m ->
  nth_error (log s) i = Some e -> r_status e = Reserved ->
  r_at e' = r_at e -> r_len e' = r_len e -> length (r_content e') = length (r_content e) ->
  (forall o q, apart (sz s) (P b (log s) i) (rec_len (r_len e)) o (Z.of_nat q) ->
     rd_range (sz s) mm o q = rd_range (sz s) (mem (shared s)) o q) ->
  (rd_range (sz s) mm (P b (log s) i) 4 = le_enc 4 (header_of e')) ->
  (rd_range (sz s) mm (P b (log s) i + 8) (Z.to_nat (r_len e)) = r_content e') ->
  Inv {| sz := sz s; shared := {| mem := mm; cpos := cpos (shared s); ppos := ppos (shared s) |};
         reader := reader s; holding := holding s; log := upd i e' (log s); delivered := delivered s |} b k m.
Proof.
  intros I He Hst Hat Hlen Hcl Hframe Hh Hd.
  assert (HP : forall j, P b (upd i e' (log s)) j = P b (log s) j) by (intros; eapply P_upd; eauto).
  assert (Hik : (k <= i)%nat).
  { destruct (Nat.lt_ge_cases i k) as [H|H]; [|exact H]. exfalso. exact (i_settled _ _ _ _ I i e H He Hst). }
  assert (Hin : (i < length (log s))%nat) by (apply nth_error_Some; congruence).
  assert (Hnth : forall j x, nth_error (upd i e' (log s)) j = Some x ->
     (j = i /\ x = e') \/ (j <> i /\ nth_error (log s) j = Some x)).
  { intros j x Hx. destruct (Nat.eq_dec i j) as [<-|Hne].
    - rewrite nth_error_upd_eq in Hx by exact Hin. inversion Hx. auto.
    - rewrite nth_error_upd_ne in Hx by exact Hne. auto. }
  assert (Hsep : forall j x, (k <= j)%nat -> j <> i -> nth_error (log s) j = Some x ->
     apart (sz s) (P b (log s) i) (rec_len (r_len e)) (P b (log s) j) (rec_len (r_len x))).
  { intros j x Hj Hne Hx. eapply inv_sep; eauto. }
  constructor; cbn [sz shared reader holding log delivered mem cpos ppos]; rewrite ?upd_length, ?HP.
  - apply (i_size _ _ _ _ I).
  - apply (i_km _ _ _ _ I).
  - intros j x Hx. destruct (Hnth j x Hx) as [[-> ->]|[Hne Ho]].
    + destruct (i_entries _ _ _ _ I i e He) as [A B C D]. constructor; cbn [log sz]; rewrite ?HP; congruence.
    + destruct (i_entries _ _ _ _ I j x Ho) as [A B C D]. constructor; cbn [log sz]; rewrite ?HP; auto.
  - apply (i_pos _ _ _ _ I).
  - apply (i_cpos _ _ _ _ I).
  - apply (i_ppos _ _ _ _ I).
  - apply (i_cache _ _ _ _ I).
  - apply (i_room _ _ _ _ I).
  - intros j x Hj Hx. rewrite HP. destruct (Hnth j x Hx) as [[-> ->]|[Hne Ho]]; [exact Hh|].
    rewrite Hframe; [apply (i_hdr _ _ _ _ I j x Hj Ho)|].
    pose proof (inv_lens _ _ _ _ I j x Ho) as Hl0. pose proof (rec_len_pos _ Hl0).
    pose proof (inv_lens _ _ _ _ I i e He) as Hl1. pose proof (rec_len_pos _ Hl1).
    eapply apart_sub; [apply (Hsep j x Hj Hne Ho)|..]; lia.
  - intros j x Hj Hx. rewrite HP. destruct (Hnth j x Hx) as [[-> ->]|[Hne Ho]]; [rewrite Hlen; exact Hd|].
    rewrite Hframe; [apply (i_dat _ _ _ _ I j x Hj Ho)|].
    pose proof (inv_lens _ _ _ _ I j x Ho) as Hl0. pose proof (rec_len_pos _ Hl0).
    pose proof (inv_lens _ _ _ _ I i e He) as Hl1. pose proof (rec_len_pos _ Hl1).
    eapply apart_sub; [apply (Hsep j x Hj Hne Ho)|..]; lia.
  - intros j x Hj Hx. destruct (Hnth j x Hx) as [[-> ->]|[Hne Ho]]; [lia|].
    apply (i_settled _ _ _ _ I j x Hj Ho).
  - rewrite firstn_upd_ge by exact Hik. apply (i_deliv _ _ _ _ I).
  - intros d Hdd. destruct (i_held _ _ _ _ I d Hdd) as [Hkm' (x & Hx & Hsx & Hdx)]. split; [exact Hkm'|].
    exists x. split; [|auto]. rewrite nth_error_upd_ne; [exact Hx|]. intros ->. congruence.
Qed.

Lemma inv_write s b k m i off v : Inv s b k m -> Inv (write_byte s i off v) b k m.
Proof.
  intros I. unfold write_byte. destruct (nth_error (log s) i) as [e|] eqn:He; [|exact I].
  destruct (r_status e) eqn:Hst; try exact I.
  destruct (Nat.ltb_spec off (length (r_content e))) as [Hoff|_]; [|exact I].
  destruct (i_entries _ _ _ _ I i e He) as [A B C D].
  pose proof (inv_size_pos _ _ _ _ I) as Hs. pose proof (r_at_mod s b k m i e I He) as Hmod.
  pose proof (rec_len_pos (r_len e) ltac:(lia)) as Hrl.
  assert (Hik : (k <= i)%nat).
  { destruct (Nat.lt_ge_cases i k) as [H|H]; [|exact H]. exfalso. exact (i_settled _ _ _ _ I i e H He Hst). }
  assert (Hmod' : (r_at e + HDR_SZ + Z.of_nat off) mod sz s = (P b (log s) i + 8 + Z.of_nat off) mod sz s).
  { unfold HDR_SZ. rewrite <- !Z.add_assoc, (Z.add_mod (r_at e)), (Z.add_mod (P b (log s) i)) by lia. now rewrite Hmod. }
  assert (Hw : forall x, wr_range (sz s) (mem (shared s)) (r_at e + HDR_SZ + Z.of_nat off) [v] x =
                         wr_range (sz s) (mem (shared s)) (P b (log s) i + 8 + Z.of_nat off) [v] x).
  { intros x. apply wr_range_cong; [lia|exact Hmod']. }
  eapply inv_upd; eauto; cbn [r_at r_len r_content]; rewrite ?upd_length; auto.
  - intros o q Ha. rewrite <- (rd_wr_apart (sz s) ltac:(lia) (mem (shared s)) (P b (log s) i + 8 + Z.of_nat off) [v]).
    2:{ cbn [length]. unfold apart in *. lia. }
    apply rd_range_ext; [lia|]. intros. apply Hw.
  - rewrite (rd_range_ext (sz s) ltac:(lia) _ _ _ _ (fun i _ => Hw _)).
    rewrite rd_wr_apart; [|lia|cbn [length]; unfold apart; lia].
    rewrite (i_hdr _ _ _ _ I i e Hik He). unfold header_of. cbn [r_status r_len]. now rewrite Hst.
  - rewrite (rd_range_ext (sz s) ltac:(lia) _ _ _ _ (fun i _ => Hw _)).
    apply list_eq_nth_error. intros j. rewrite rd_range_nth by lia.
    pose proof (i_dat _ _ _ _ I i e Hik He) as Hdat.
    rewrite nth_error_upd. rewrite D.
    destruct (Nat.eqb_spec off j) as [<-|Hne].
    + destruct (Nat.ltb_spec off (Z.to_nat (r_len e))) as [_|?]; [|lia].
      f_equal. replace (P b (log s) i + 8 + Z.of_nat off) with (P b (log s) i + 8 + Z.of_nat off + Z.of_nat 0) at 2 by lia.
      apply wr_range_at; [lia|cbn; lia|reflexivity].
    + rewrite <- Hdat. rewrite rd_range_nth by lia.
      destruct (Nat.ltb_spec j (Z.to_nat (r_len e))) as [Hj|_]; [|reflexivity].
      f_equal. apply wr_range_other; [lia|cbn [length]].
      intros z Hz. assert (z = 0) as -> by lia. rewrite Z.add_0_r.
      destruct (Nat.lt_ge_cases off j).
      * apply mod_add_neq; lia.
      * intros E. symmetry in E. revert E. apply mod_add_neq; lia.
Qed.

Lemma inv_commit s b k m i d : Inv s b k m -> Inv (commit s i d) b k m.
Proof.
  intros I. unfold commit. destruct (nth_error (log s) i) as [e|] eqn:He; [|exact I].
  destruct (r_status e) eqn:Hst; try exact I.
  destruct (i_entries _ _ _ _ I i e He) as [A B C D].
  pose proof (inv_size_pos _ _ _ _ I) as Hs. pose proof (r_at_mod s b k m i e I He) as Hmod.
  pose proof (rec_len_pos (r_len e) ltac:(lia)) as Hrl.
  assert (Hik : (k <= i)%nat).
  { destruct (Nat.lt_ge_cases i k) as [H|H]; [|exact H]. exfalso. exact (i_settled _ _ _ _ I i e H He Hst). }
  set (e' := {| r_at := r_at e; r_len := r_len e; r_status := _; r_content := r_content e |}).
  assert (Hw : forall x, wr_range (sz s) (mem (shared s)) (r_at e) (le_enc 4 (header_of e')) x =
                         wr_range (sz s) (mem (shared s)) (P b (log s) i) (le_enc 4 (header_of e')) x).
  { intros x. apply wr_range_cong; [lia|exact Hmod]. }
  eapply inv_upd; eauto.
  - intros o q Ha. rewrite <- (rd_wr_apart (sz s) ltac:(lia) (mem (shared s)) (P b (log s) i) (le_enc 4 (header_of e'))).
    2:{ rewrite le_enc_length. unfold apart in *. lia. }
    apply rd_range_ext; [lia|]. intros. apply Hw.
  - rewrite (rd_range_ext (sz s) ltac:(lia) _ _ _ _ (fun i _ => Hw _)).
    rewrite <- (le_enc_length 4 (header_of e')) at 2. apply rd_wr_same; [lia|]. rewrite le_enc_length. lia.
  - rewrite (rd_range_ext (sz s) ltac:(lia) _ _ _ _ (fun i _ => Hw _)).
    rewrite rd_wr_apart; [apply (i_dat _ _ _ _ I i e Hik He)|lia|].
    rewrite le_enc_length. unfold apart. lia.
Qed.

(** Advancing the reader past a settled record. *)
Lemma inv_consume s b k m e nd h : Inv s b k m -> nth_error (log s) k = Some e ->
  r_status e <> Reserved -> (k < m)%nat ->
  nd = payloads (firstn (S k) (log s)) -> h = None ->
  Inv {| sz := sz s; shared := snd (consume (reader s) (shared s) (r_len e));
         reader := fst (consume (reader s) (shared s) (r_len e));
         holding := h; log := log s; delivered := nd |} b (S k) m.
Proof.
  intros I He Hst Hkm -> ->.
  pose proof (i_km _ _ _ _ I). pose proof (rec_len_pos (r_len e) (inv_lens _ _ _ _ I k e He)).
  pose proof (P_S b (log s) k e He) as HPS.
  assert (Hp : u64 (pos (reader s) + rec_len (r_len e)) = u64 (P b (log s) (S k))).
  { rewrite (i_pos _ _ _ _ I), u64_add_l, HPS. reflexivity. }
  constructor; cbn [consume fst snd sz shared reader holding log delivered mem cpos ppos pos pos_cache held]; auto.
  - apply (i_size _ _ _ _ I).
  - lia.
  - intros j x Hx. destruct (i_entries _ _ _ _ I j x Hx). constructor; auto.
  - apply (i_ppos _ _ _ _ I).
  - apply (i_cache _ _ _ _ I).
  - rewrite HPS. pose proof (inv_lens _ _ _ _ I k e He). pose proof (i_room _ _ _ _ I). lia.
  - intros j x Hj. apply (i_hdr _ _ _ _ I). lia.
  - intros j x Hj. apply (i_dat _ _ _ _ I). lia.
  - intros j x Hj Hx. destruct (Nat.eq_dec j k) as [->|Hne]; [congruence|].
    apply (i_settled _ _ _ _ I j x); [lia|exact Hx].
  - symmetry. apply app_nil_r.
  - discriminate.
Qed.

Lemma payloads_S l k e : nth_error l k = Some e ->
  payloads (firstn (S k) l) = payloads (firstn k l) ++ (if is_committed e then [r_content e] else []).
Proof.
  intros H. rewrite (firstn_S k l e H), payloads_app. f_equal.
  unfold payloads. cbn [filter]. destruct (is_committed e); reflexivity.
Qed.

(** [data_available] re-reads the producer position only when caught up. *)
Lemma inv_avail s b k m c1 av : Inv s b k m -> holding s = None ->
  data_available (reader s) (shared s) = (c1, av) ->
  exists m', Inv {| sz := sz s; shared := shared s; reader := c1; holding := None;
                    log := log s; delivered := delivered s |} b k m'
    /\ (av = true -> (k < m')%nat) /\ (av = false -> k = length (log s))
    /\ (needs_wakeup c1 = true -> needs_wakeup (reader s) = true).
Proof.
  intros I Hh. unfold data_available. pose proof (i_km _ _ _ _ I) as Hkm.
  destruct (Z.eqb_spec (pos (reader s)) (pos_cache (reader s))) as [E|E].
  - cbn [pos pos_cache]. intros X; inversion X; subst c1 av; clear X.
    exists (length (log s)).
    assert (Hn : negb (pos (reader s) =? ppos (shared s)) = true -> (k < length (log s))%nat).
    { rewrite negb_true_iff, Z.eqb_neq. rewrite (i_pos _ _ _ _ I), (i_ppos _ _ _ _ I). intros Hne.
      destruct (Nat.eq_dec k (length (log s))) as [->|]; [congruence|lia]. }
    split; [|split; [exact Hn|split; [|cbn; discriminate]]].
    + destruct I. constructor; cbn [sz shared reader holding log delivered pos pos_cache held] in *; auto; try lia.
      * intros j x Hx. destruct (i_entries0 j x Hx). constructor; auto.
      * unfold held in i_deliv0. cbn. now rewrite Hh in i_deliv0.
      * discriminate.
    + rewrite negb_false_iff, Z.eqb_eq, (i_pos _ _ _ _ I), (i_ppos _ _ _ _ I).
      apply (inv_pos_eq s b k m); auto; lia.
  - cbn zeta. intros X; inversion X; subst c1 av; clear X.
    exists m. split; [|split; [|split; [|auto]]].
    + destruct I. constructor; cbn [sz shared reader holding log delivered pos pos_cache held] in *; auto.
      * intros j x Hx. destruct (i_entries0 j x Hx). constructor; auto.
      * unfold held in i_deliv0. cbn. now rewrite Hh in i_deliv0.
      * discriminate.
    + intros _. rewrite (i_pos _ _ _ _ I), (i_cache _ _ _ _ I) in E.
      destruct (Nat.eq_dec k m) as [->|]; [congruence|lia].
    + rewrite negb_false_iff, Z.eqb_eq. congruence.
Qed.

(** What one loop iteration does, on a state satisfying the invariant. *)
Inductive iter_res (s s' : sys) (b : Z) (k : nat) : outcome -> Prop :=
| IR_none : (forall e, nth_error (log s) k = Some e -> r_status e = Reserved) ->
    delivered s' = delivered s -> iter_res s s' b k RNone
| IR_item e : nth_error (log s) k = Some e -> r_status e = Committed ->
    delivered s' = delivered s ++ [r_content e] -> holding s' = Some (r_content e) ->
    iter_res s s' b k (RItem (r_content e))
| IR_busy e : nth_error (log s) k = Some e -> r_status e = Reserved ->
    needs_wakeup (reader s) = true -> needs_wakeup (reader s') = false ->
    delivered s' = delivered s -> holding s' = None -> iter_res s s' b k Continue
| IR_skip e : nth_error (log s) k = Some e -> r_status e = Discarded ->
    delivered s' = delivered s -> holding s' = None -> iter_res s s' b k Continue.

Lemma iter_step s b k m : Inv s b k m -> holding s = None ->
  exists s' r, step s ONextIter = (s', Some r) /\ iter_res s s' b k r /\ log s' = log s /\ sz s' = sz s /\
    exists k' m', Inv s' b k' m' /\
      (match r with
       | Continue => (k' = S k \/ (k' = k /\ needs_wakeup (reader s) = true /\ needs_wakeup (reader s') = false))
       | _ => k' = k
       end).
Proof.
  intros I Hh. unfold step. rewrite Hh. unfold next_iter.
  destruct (data_available (reader s) (shared s)) as [c1 av] eqn:Eav.
  destruct (inv_avail s b k m c1 av I Hh Eav) as (m' & I1 & Ht & Hf & Hnw).
  assert (Hdel : delivered s = payloads (firstn k (log s))).
  { rewrite (i_deliv _ _ _ _ I). unfold held. rewrite Hh. apply app_nil_r. }
  destruct av.
  - specialize (Ht eq_refl). pose proof (i_km _ _ _ _ I1) as Hkm. cbn [log] in Hkm.
    destruct (nth_error (log s) k) as [e|] eqn:He; [|apply nth_error_None in He; lia].
    pose proof (read_item_spec _ b k m' e I1 He) as Hrd. cbn [sz shared reader mem] in Hrd.
    rewrite Hrd. destruct (r_status e) eqn:Hst.
    + destruct (needs_wakeup c1) eqn:Enw.
      * eexists _, _. split; [reflexivity|]. split; [|split; [reflexivity|split; [reflexivity|]]].
        -- eapply IR_busy; cbn [reader delivered holding needs_wakeup]; eauto.
        -- exists k, m'. split; [|right; cbn; auto].
           destruct I1. constructor; cbn [sz shared reader holding log delivered pos pos_cache] in *; auto.
           intros j x Hx. destruct (i_entries0 j x Hx). constructor; auto.
      * eexists _, _. split; [reflexivity|]. split; [|split; [reflexivity|split; [reflexivity|]]].
        -- apply IR_none; [|reflexivity]. intros x Hx. congruence.
        -- exists k, m'. split; [exact I1|reflexivity].
    + eexists _, _. split; [reflexivity|]. split; [|split; [reflexivity|split; [reflexivity|]]].
      * eapply IR_item; eauto.
      * exists k, m'. split; [|reflexivity].
        destruct I1. constructor; cbn [sz shared reader holding log delivered pos pos_cache held] in *; auto.
        -- intros j x Hx. destruct (i_entries0 j x Hx). constructor; auto.
        -- cbn. now rewrite Hdel.
        -- intros d Hd. inversion Hd; subst. split; [lia|eauto].
    + destruct (consume c1 (shared s) (r_len e)) as [c2 m2] eqn:Ec.
      eexists _, _. split; [reflexivity|]. split; [|split; [reflexivity|split; [reflexivity|]]].
      * eapply IR_skip; eauto.
      * exists (S k), m'. split; [|left; reflexivity].
        pose proof (inv_consume _ b k m' e (delivered s) None I1 He) as HC.
        cbn [sz shared reader log] in HC. rewrite Ec in HC. cbn [fst snd] in HC. apply HC; auto; try congruence.
        rewrite (payloads_S _ k e He), Hdel. unfold is_committed. rewrite Hst. now rewrite app_nil_r.
  - specialize (Hf eq_refl).
    eexists _, _. split; [reflexivity|]. split; [|split; [reflexivity|split; [reflexivity|]]].
    + apply IR_none; [|reflexivity]. intros e He. exfalso.
      assert (k < length (log s))%nat by (apply nth_error_Some; congruence). lia.
    + exists k, m'. split; [exact I1|reflexivity].
Qed.

Lemma inv_step s b k m o : Inv s b k m -> exists k' m', Inv (fst (step s o)) b k' m'.
Proof.
  intros I. destruct o as [len pg|i off v|i d| | |]; cbn [step fst].
  - destruct (inv_reserve s b k m len pg I) as [m' H]; eauto.
  - exists k, m. now apply inv_write.
  - exists k, m. now apply inv_commit.
  - destruct (holding s) as [d|] eqn:Hh; [cbn; eauto|].
    destruct (iter_step s b k m I Hh) as (s' & r & Hs & _ & _ & _ & k' & m' & I' & _).
    unfold step in Hs. rewrite Hh in Hs.
    destruct (next_iter (sz s) (reader s) (shared s)) as [[c' mm'] rr].
    inversion Hs; subst. cbn [fst]. eauto.
  - destruct (holding s) as [d|] eqn:Hh; [|cbn; eauto].
    destruct (i_held _ _ _ _ I d Hh) as [Hkm (e & He & Hst & Hd)].
    destruct (i_entries _ _ _ _ I k e He) as [A B C D].
    assert (Z.of_nat (length d) = r_len e) as -> by (subst d; lia).
    destruct (consume (reader s) (shared s) (r_len e)) as [c' mm'] eqn:Ec. cbn [fst].
    exists (S k), m.
    pose proof (inv_consume s b k m e (delivered s) None I He) as HC. rewrite Ec in HC. cbn [fst snd] in HC.
    apply HC; auto; try congruence.
    rewrite (payloads_S _ k e He). unfold is_committed. rewrite Hst.
    rewrite (i_deliv _ _ _ _ I). unfold held. rewrite Hh. now subst d.
  - destruct (holding s) as [d|] eqn:Hh; [cbn; eauto|]. cbn [fst].
    exists k, (length (log s)). pose proof (i_km _ _ _ _ I).
    destruct I. constructor; cbn [sz shared reader holding log delivered pos pos_cache new_cons held] in *; auto; try lia.
    + intros j x Hx. destruct (i_entries0 j x Hx). constructor; auto.
    + unfold held in i_deliv0. rewrite Hh in i_deliv0. exact i_deliv0.
    + discriminate.
Qed.

Lemma inv_run s b k m ops : Inv s b k m -> exists k' m', Inv (run s ops) b k' m'.
Proof.
  revert s k m; induction ops as [|o ops IH]; intros s k m I; cbn [run]; [eauto|].
  destruct (inv_step s b k m o I) as (k' & m' & I'). eauto.
Qed.

Lemma inv_reach size p mm ops : ring_size_ok size -> exists k m, Inv (run (init size p mm) ops) p k m.
Proof. intros H. eapply inv_run. now apply inv_init. Qed.

(* ---------- consequences ---------- *)
Lemma settled_firstn k l :
  (forall j e, (j < k)%nat -> nth_error l j = Some e -> r_status e <> Reserved) ->
  (forall e, nth_error l k = Some e -> r_status e = Reserved) ->
  (k <= length l)%nat -> settled l = firstn k l.
Proof.
  revert l; induction k as [|k IH]; intros l H1 H2 Hk.
  - destruct l as [|e l]; [reflexivity|]. cbn. unfold is_reserved. now rewrite (H2 e eq_refl).
  - destruct l as [|e l]; [cbn in Hk; lia|]. cbn [settled firstn]. unfold is_reserved.
    pose proof (H1 O e ltac:(lia) eq_refl). destruct (r_status e) eqn:E; [congruence| |];
    f_equal; apply IH; try (cbn in Hk; lia); try (intros x Hx; apply H2; exact Hx);
    intros j x Hj Hx; apply (H1 (S j) x); try lia; exact Hx.
Qed.

Lemma settled_prefix k l :
  (forall j e, (j < k)%nat -> nth_error l j = Some e -> r_status e <> Reserved) ->
  exists r, settled l = firstn k l ++ r.
Proof.
  revert l; induction k as [|k IH]; intros l H1; [eexists; reflexivity|].
  destruct l as [|e l]; [exists []; reflexivity|]. cbn [settled firstn]. unfold is_reserved.
  pose proof (H1 O e ltac:(lia) eq_refl).
  destruct (IH l) as [r Hr]. { intros j x Hj Hx. apply (H1 (S j) x); [lia|exact Hx]. }
  exists r. destruct (r_status e); [congruence| |]; cbn; now rewrite Hr.
Qed.

(** Delivered items are a prefix of the settled, submitted records; nothing
    else, nothing twice, nothing reordered. *)
Lemma delivered_prefix s b k m : Inv s b k m -> exists rest, payloads (settled (log s)) = delivered s ++ rest.
Proof.
  intros I. rewrite (i_deliv _ _ _ _ I). unfold held. destruct (holding s) as [d|] eqn:Hh.
  - destruct (i_held _ _ _ _ I d Hh) as [Hkm (e & He & Hst & Hd)].
    destruct (settled_prefix (S k) (log s)) as [r Hr].
    { intros j x Hj Hx. destruct (Nat.eq_dec j k) as [->|]; [congruence|].
      apply (i_settled _ _ _ _ I j x); [lia|exact Hx]. }
    exists (payloads r). rewrite Hr, payloads_app, (payloads_S _ k e He). unfold is_committed. rewrite Hst.
    now subst d.
  - destruct (settled_prefix k (log s) (i_settled _ _ _ _ I)) as [r Hr].
    exists (payloads r). rewrite Hr, payloads_app, app_nil_r. reflexivity.
Qed.

Lemma none_complete s b k m s' : Inv s b k m -> step s ONextIter = (s', Some RNone) ->
  delivered s' = payloads (settled (log s')) /\ log s' = log s.
Proof.
  intros I Hs. assert (holding s = None) as Hh.
  { unfold step in Hs. destruct (holding s); [discriminate|reflexivity]. }
  destruct (iter_step s b k m I Hh) as (s1 & r & Hs1 & Hr & Hl & _ & _).
  rewrite Hs in Hs1. inversion Hs1; subst s1 r. split; [|exact Hl].
  inversion Hr as [Hres Hd| | |]; subst. rewrite Hl, Hd.
  rewrite (settled_firstn k (log s) (i_settled _ _ _ _ I) Hres) by (pose proof (i_km _ _ _ _ I); lia).
  rewrite (i_deliv _ _ _ _ I). unfold held. rewrite Hh. apply app_nil_r.
Qed.

Lemma no_panic s b k m : Inv s b k m -> snd (step s ONextIter) <> Some RPanic.
Proof.
  intros I. destruct (holding s) as [d|] eqn:Hh.
  - unfold step. rewrite Hh. discriminate.
  - destruct (iter_step s b k m I Hh) as (s1 & r & Hs1 & Hr & _). rewrite Hs1. cbn [snd].
    intros E. inversion E; subst. inversion Hr.
Qed.

(** [next()] on a ring nobody else touches meanwhile. *)
Definition iters (s : sys) (n : nat) : sys := run s (repeat ONextIter n).

Lemma next_terminates : forall n s b k m, Inv s b k m -> holding s = None ->
  (2 * (length (log s) - k) + (if needs_wakeup (reader s) then 1 else 0) < n)%nat ->
  exists c' m' r, next (sz s) n (reader s) (shared s) = Some (c', m', r) /\
    match nth_error (payloads (settled (log s))) (length (delivered s)) with
    | Some d => r = RItem d
    | None => r = RNone
    end.
Proof.
  induction n as [|n IH]; intros s b k m I Hh Hn; [lia|].
  destruct (iter_step s b k m I Hh) as (s1 & r & Hs1 & Hr & Hl & Hsz & k' & m' & I' & Hk).
  assert (Hdel : delivered s = payloads (firstn k (log s))).
  { rewrite (i_deliv _ _ _ _ I). unfold held. rewrite Hh. apply app_nil_r. }
  cbn [next]. unfold step in Hs1. rewrite Hh in Hs1.
  destruct (next_iter (sz s) (reader s) (shared s)) as [[c1 m1] r1] eqn:En.
  assert (r1 = r) as -> by (inversion Hs1; reflexivity).
  assert (reader s1 = c1 /\ shared s1 = m1) as [<- <-] by (inversion Hs1; subst; cbn; auto).
  pose proof (i_km _ _ _ _ I) as Hkm.
  inversion Hr; subst r.
  - (* none *)
    eexists _, _, _. split; [reflexivity|].
    rewrite (settled_firstn k (log s) (i_settled _ _ _ _ I) H) by lia. rewrite <- Hdel.
    assert (nth_error (delivered s) (length (delivered s)) = None) as ->; [|reflexivity].
    apply nth_error_None. lia.
  - eexists _, _, _. split; [reflexivity|].
    destruct (settled_prefix (S k) (log s)) as [q Hq].
    { intros j x Hj Hx. destruct (Nat.eq_dec j k) as [->|]; [congruence|].
      apply (i_settled _ _ _ _ I j x); [lia|exact Hx]. }
    rewrite Hq, payloads_app, (payloads_S _ k e H). unfold is_committed. rewrite H0, <- Hdel.
    rewrite <- app_assoc, nth_error_app2 by lia. rewrite Nat.sub_diag. reflexivity.
  - (* busy, retry *)
    assert (k' = k) as ->.
    { destruct Hk as [->|[-> _]]; [|reflexivity]. exfalso. rewrite <- Hl in H.
      refine (i_settled _ _ _ _ I' k e _ H H0). lia. }
    assert (holding s1 = None) as Hh1 by assumption.
    specialize (IH s1 b k m' I' Hh1). rewrite Hsz, Hl in IH.
    replace (delivered s1) with (delivered s) in IH by congruence.
    apply IH. rewrite H1 in Hn. rewrite H2. lia.
  - (* discarded *)
    assert (k' = S k) as ->.
    { destruct Hk as [->|(-> & _ & Hnw)]; [reflexivity|]. exfalso.
      cbn [next_iter] in En. unfold next_iter in En.
      destruct (data_available (reader s) (shared s)) as [cc av] eqn:Eav.
      destruct (inv_avail s b k m cc av I Hh Eav) as (mm & I1 & Ht & Hf & _).
      destruct av; [|inversion En].
      pose proof (read_item_spec _ b k mm e I1 H) as Hrd. cbn [sz shared reader mem] in Hrd.
      rewrite Hrd, H0 in En.
      inversion En as [[E1 E2]]. rewrite <- E1 in Hnw. cbn in Hnw. discriminate. }
    assert (holding s1 = None) as Hh1 by assumption.
    assert (k < length (log s))%nat by (apply nth_error_Some; congruence).
    specialize (IH s1 b (S k) m' I' Hh1). rewrite Hsz, Hl in IH.
    replace (delivered s1) with (delivered s) in IH by congruence.
    apply IH. destruct (needs_wakeup (reader s)), (needs_wakeup (reader s1)); lia.
Qed.

(** A held item is a view of memory: the view does not change. *)
Lemma held_intact s b k m d : Inv s b k m -> holding s = Some d ->
  rd_range (sz s) (mem (shared s)) (pos (reader s) + HDR_SZ) (length d) = d.
Proof.
  intros I Hh. destruct (i_held _ _ _ _ I d Hh) as [_ (e & He & Hst & ->)].
  destruct (i_entries _ _ _ _ I k e He) as [A B C D]. rewrite D.
  pose proof (i_dat _ _ _ _ I k e (le_n _) He) as Hd. rewrite <- Hd.
  pose proof (inv_size_pos _ _ _ _ I).
  apply rd_range_cong; [lia|]. unfold HDR_SZ.
  rewrite (Z.add_mod (pos (reader s))), (Z.add_mod (P b (log s) k)) by lia.
  rewrite (i_pos _ _ _ _ I). destruct (i_size _ _ _ _ I) as (x & Hx & ->). now rewrite u64_mod_pow by lia.
Qed.

Lemma overtake s b k m : Inv s b k m ->
  0 <= u64 (ppos (shared s) - cpos (shared s)) < sz s /\
  (cpos (shared s) = ppos (shared s) -> payloads (settled (log s)) = delivered s).
Proof.
  intros I. pose proof (i_km _ _ _ _ I). pose proof (i_room _ _ _ _ I). pose proof (inv_size_pos _ _ _ _ I).
  pose proof (inv_mono s b k m I k (length (log s)) ltac:(lia)).
  rewrite (i_ppos _ _ _ _ I), (i_cpos _ _ _ _ I). split.
  - rewrite u64_sub, u64_small; lia.
  - intros E. apply (inv_pos_eq s b k m) in E; auto; try lia.
    assert (Hn : nth_error (log s) k = None) by (apply nth_error_None; lia).
    rewrite (settled_firstn k (log s) (i_settled _ _ _ _ I)); [|congruence|lia].
    rewrite (i_deliv _ _ _ _ I). unfold held. destruct (holding s) as [d|] eqn:Hh; [|now rewrite app_nil_r].
    destruct (i_held _ _ _ _ I d Hh) as [_ (e & He & _)]. congruence.
Qed.

Lemma sz_run size p m ops : sz (run (init size p m) ops) = size.
Proof.
  change size with (sz (init size p m)) at 2. generalize (init size p m).
  induction ops as [|o ops IH]; intros s; [reflexivity|].
  cbn [run]. rewrite IH. clear IH. destruct o as [len pg|i off v|i d| | |]; cbn [step].
  - unfold reserve. destruct (_ && _); reflexivity.
  - unfold write_byte. destruct (nth_error _ _) as [e|]; [|reflexivity].
    destruct (r_status e); try reflexivity. destruct (_ <? _)%nat; reflexivity.
  - unfold commit. destruct (nth_error _ _) as [e|]; [|reflexivity]. destruct (r_status e); reflexivity.
  - destruct (holding s); [reflexivity|]. destruct (next_iter _ _ _) as [[c' m'] r]. reflexivity.
  - destruct (holding s); [|reflexivity]. destruct (consume _ _ _); reflexivity.
  - destruct (holding s); reflexivity.
Qed.

Lemma next_reach size p m ops : ring_size_ok size ->
  let s := run (init size p m) ops in
  holding s = None ->
  exists c' m' r,
    next size (2 * length (log s) + 2) (reader s) (shared s) = Some (c', m', r) /\
    match nth_error (payloads (settled (log s))) (length (delivered s)) with
    | Some d => r = RItem d
    | None => r = RNone
    end.
Proof.
  intros H. cbn zeta. intros Hh. destruct (inv_reach size p m ops H) as (k & mm & I).
  pose proof (next_terminates (2 * length (log (run (init size p m) ops)) + 2) _ _ _ _ I Hh) as X.
  rewrite sz_run in X. apply X. destruct (needs_wakeup _); lia.
Qed.

Lemma held_reach size p m ops d : ring_size_ok size ->
  let s := run (init size p m) ops in
  holding s = Some d ->
  rd_range size (mem (shared s)) (pos (reader s) + HDR_SZ) (length d) = d /\
  last (delivered s) [] = d.
Proof.
  intros H. cbn zeta. intros Hh. destruct (inv_reach size p m ops H) as (k & mm & I). split.
  - pose proof (held_intact _ _ _ _ d I Hh) as X. rewrite sz_run in X. exact X.
  - rewrite (i_deliv _ _ _ _ I). unfold held. rewrite Hh. apply last_last.
Qed.
