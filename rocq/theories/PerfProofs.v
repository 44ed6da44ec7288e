(** Proofs about the perf buffer reader. *)
From Verif Require Import Base RingBufModel RingBufSpec RingBufProofs PerfModel PerfSpec.
Local Open Scope Z_scope.

Lemma penc_length r : length (penc r) = plen r.
Proof. unfold penc, plen. rewrite !app_length, !le_enc_length. lia. Qed.

Lemma perf_size_pos size : perf_size_ok size -> 8 <= size <= 2 ^ 40 /\ size mod 8 = 0.
Proof.
  intros (e & He & ->).
  assert (2 ^ 3 <= 2 ^ e) by (apply Z.pow_le_mono_r; lia).
  assert (2 ^ e <= 2 ^ 40) by (apply Z.pow_le_mono_r; lia).
  replace e with (3 + (e - 3)) in * by lia. rewrite Z.pow_add_r in * by lia.
  change (2 ^ 3) with 8 in *. lia.
Qed.

Lemma u64_mod_size x size : perf_size_ok size -> u64 x mod size = x mod size.
Proof. intros (e & He & ->). apply u64_mod_pow. lia. Qed.

Section Reads.
Variable size : Z.
Hypothesis Hsize : 0 < size.

Lemma rd_range_slice m o n l i k :
  rd_range size m o n = l -> (i + k <= n)%nat ->
  rd_range size m (o + Z.of_nat i) k = slice i k l.
Proof using Hsize.
  intros <- H. apply list_eq_nth_error. intros j. rewrite rd_range_nth by exact Hsize.
  rewrite nth_error_slice. destruct (Nat.ltb_spec j k) as [Hj|Hj]; [|reflexivity].
  rewrite rd_range_nth by exact Hsize.
  destruct (Nat.ltb_spec (i + j) n); [|lia]. do 3 f_equal. lia.
Qed.

Lemma raw_read_ok m pos n : 0 <= n -> pos mod size + n <= size ->
  raw_read size m (pos mod size) n = Some (rd_range size m pos (Z.to_nat n)).
Proof using Hsize.
  intros Hn H. unfold raw_read. pose proof (Z.mod_pos_bound pos size Hsize).
  replace ((0 <=? pos mod size) && (0 <=? n) && (pos mod size + n <=? size)) with true by lia.
  f_equal. apply rd_range_cong; [exact Hsize|]. apply Z.mod_mod. lia.
Qed.
End Reads.

Lemma plen_pos r : (8 <= plen r)%nat.
Proof. unfold plen. lia. Qed.

Lemma align_room x size : size mod 8 = 0 -> 8 <= size -> x mod 8 = 0 -> (x mod size) + 8 <= size /\ (x mod size) mod 8 = 0.
Proof.
  intros H1 H2 H3. pose proof (Z.div_mod size 8 ltac:(lia)). pose proof (Z.div_mod x 8 ltac:(lia)).
  set (k := size / 8) in *. set (q := x / 8) in *.
  replace x with (8 * q) by lia. replace size with (8 * k) by lia.
  rewrite Z.mul_mod_distr_l by lia. pose proof (Z.mod_pos_bound q k ltac:(lia)). lia.
Qed.

Section Iter.
Variable size : Z.
Hypothesis Hok : perf_size_ok size.
Let Hsize : 0 < size := ltac:(pose proof (perf_size_pos size Hok); lia).

(** One iteration on a well-formed record. *)
Lemma perf_iter_spec m pos r :
  pos mod 8 = 0 -> prec_ok r = true -> Z.of_nat (plen r) <= size ->
  rd_range size m pos (plen r) = penc r ->
  exists ev, perf_iter size m (u64 pos) = Some (u64 (pos + Z.of_nat (plen r)), ev) /\
             option_map ev_view ev = rec_view r.
Proof using Hok Hsize.
  intros Hal Hr Hfit Hrd.
  pose proof (perf_size_pos size Hok) as [Hs1 Hs2].
  unfold prec_ok in Hr. apply andb_true_iff in Hr. destruct Hr as [Hr Hk].
  apply andb_true_iff in Hr. destruct Hr as [Hl16 Hl8].
  unfold perf_iter. rewrite u64_mod_size by exact Hok.
  destruct (align_room pos size Hs2 ltac:(lia) Hal) as [Hroom Hal'].
  rewrite raw_read_ok by (try exact Hsize; lia).
  change (Z.to_nat 8) with 8%nat.
  pose proof (rd_range_slice size Hsize m pos (plen r) _ 0 8 Hrd ltac:(pose proof (plen_pos r); lia)) as H8.
  change (Z.of_nat 0) with 0 in H8. rewrite Z.add_0_r in H8. rewrite H8.
  assert (slice 0 8 (penc r) = le_enc 4 (ptype r) ++ le_enc 2 (pmisc r) ++ le_enc 2 (Z.of_nat (plen r))) as E8
    by reflexivity.
  rewrite E8.
  replace (slice 0 4 (le_enc 4 (ptype r) ++ le_enc 2 (pmisc r) ++ le_enc 2 (Z.of_nat (plen r))))
    with (le_enc 4 (ptype r)) by reflexivity.
  replace (slice 6 2 (le_enc 4 (ptype r) ++ le_enc 2 (pmisc r) ++ le_enc 2 (Z.of_nat (plen r))))
    with (le_enc 2 (Z.of_nat (plen r))) by reflexivity.
  rewrite (le_dec_enc_small 2) by (change (256 ^ Z.of_nat 2) with (2 ^ 16); lia).
  assert (0 <= ptype r < 2 ^ 32) as Hty.
  { destruct r; cbn [ptype]; unfold T_SAMPLE, T_LOST; lia. }
  rewrite (le_dec_enc_small 4) by (change (256 ^ Z.of_nat 4) with (2 ^ 32); lia).
  rewrite u64_add_l.
  destruct r as [mi p pad|mi id c ex|t mi b]; cbn [ptype rec_view].
  - rewrite Z.eqb_refl.
    assert (plen (RSample mi p pad) = 12 + length p + length pad)%nat as El.
    { unfold plen. cbn [body]. rewrite !app_length, le_enc_length. lia. }
    rewrite El in *.
    assert (exists e, read_sample size m (pos mod size) = Some e /\ ev_view e = VSample p) as (e & He & Hv).
    2:{ rewrite He. exists (Some e). split; [reflexivity|]. cbn [option_map]. now rewrite Hv. }
    unfold read_sample.
    rewrite (Zplus_mod_idemp_l pos 8 size).
    destruct (align_room (pos + 8) size Hs2 ltac:(lia) ltac:(lia)) as [Hroom2 Hal2].
    rewrite raw_read_ok by (try exact Hsize; lia).
    change (Z.to_nat 4) with 4%nat.
    pose proof (rd_range_slice size Hsize m pos _ _ 8 4 Hrd ltac:(lia)) as Hsz.
    change (Z.of_nat 8) with 8 in Hsz. rewrite Hsz.
    replace (slice 8 4 (penc (RSample mi p pad))) with (le_enc 4 (Z.of_nat (length p))) by reflexivity.
    rewrite le_dec_enc_small by (change (256 ^ Z.of_nat 4) with (2 ^ 32); lia).
    replace (pos mod size + 8 + 4) with (pos mod size + 12) by lia.
    rewrite (Zplus_mod_idemp_l pos 12 size).
    set (s0 := (pos + 12) mod size). cbv zeta.
    pose proof (Z.mod_pos_bound (pos + 12) size Hsize) as Hs0. fold s0 in Hs0.
    pose proof (rd_range_slice size Hsize m pos _ _ 12 (length p) Hrd ltac:(lia)) as Hp.
    change (Z.of_nat 12) with 12 in Hp.
    assert (slice 12 (length p) (penc (RSample mi p pad)) = p) as Ep.
    { unfold penc. cbn [body]. rewrite !app_assoc. rewrite <- (app_assoc _ p pad).
      apply slice_app_exact'; [|reflexivity]. rewrite !app_length, !le_enc_length. reflexivity. }
    rewrite Ep in Hp.
    destruct (Z.leb_spec size (s0 + Z.of_nat (length p))) as [Hw|Hw].
    + unfold s0 at 1. rewrite raw_read_ok by (try exact Hsize; fold s0; lia). fold s0.
      assert (raw_read size m 0 (s0 + Z.of_nat (length p) - size) =
              Some (rd_range size m (pos + 12 + (size - s0)) (Z.to_nat (s0 + Z.of_nat (length p) - size)))) as E2.
      { unfold raw_read.
        replace ((0 <=? 0) && (0 <=? s0 + Z.of_nat (length p) - size) && (0 + (s0 + Z.of_nat (length p) - size) <=? size)) with true by lia.
        f_equal. apply rd_range_cong; [exact Hsize|].
        rewrite <- Zplus_mod_idemp_l. fold s0. replace (s0 + (size - s0)) with size by lia.
        rewrite Z.mod_same, Z.mod_0_l by lia. reflexivity. }
      rewrite E2. eexists. split; [reflexivity|]. cbn [ev_view]. f_equal.
      pose proof (rd_range_slice size Hsize m (pos + 12) (length p) p 0 (Z.to_nat (size - s0)) Hp ltac:(lia)) as Ha.
      pose proof (rd_range_slice size Hsize m (pos + 12) (length p) p (Z.to_nat (size - s0))
                    (Z.to_nat (s0 + Z.of_nat (length p) - size)) Hp ltac:(lia)) as Hb.
      rewrite Z2Nat.id in Hb by lia. change (Z.of_nat 0) with 0 in Ha. rewrite Z.add_0_r in Ha.
      rewrite Ha, Hb. rewrite (slice_app_split 0).
      replace (Z.to_nat (size - s0) + Z.to_nat (s0 + Z.of_nat (length p) - size))%nat with (length p) by lia.
      unfold slice. cbn [skipn]. apply firstn_all.
    + unfold s0 at 1. rewrite raw_read_ok by (try exact Hsize; fold s0; lia).
      eexists. split; [reflexivity|]. cbn [ev_view]. rewrite app_nil_r. f_equal.
      rewrite Nat2Z.id. exact Hp.
  - change (T_LOST =? T_SAMPLE) with false. rewrite Z.eqb_refl. cbv iota.
    assert (plen (RLost mi id c ex) = 24 + length ex)%nat as El.
    { unfold plen. cbn [body]. rewrite !app_length, !le_enc_length. lia. }
    rewrite El in *. unfold read_lost.
    replace (pos mod size + 8 + 8) with (pos mod size + 16) by lia.
    rewrite (Zplus_mod_idemp_l pos 16 size).
    destruct (align_room (pos + 16) size Hs2 ltac:(lia) ltac:(lia)) as [Hroom2 Hal2].
    rewrite raw_read_ok by (try exact Hsize; lia).
    change (Z.to_nat 8) with 8%nat.
    pose proof (rd_range_slice size Hsize m pos _ _ 16 8 Hrd ltac:(lia)) as Hsz.
    change (Z.of_nat 16) with 16 in Hsz. rewrite Hsz.
    replace (slice 16 8 (penc (RLost mi id c ex))) with (le_enc 8 c) by reflexivity.
    rewrite le_dec_enc_small by (change (256 ^ Z.of_nat 8) with (2 ^ 64); lia).
    eexists. split; reflexivity.
  - replace (t =? T_SAMPLE) with false by lia. replace (t =? T_LOST) with false by lia.
    exists None. split; reflexivity.
Qed.

(** The bytes of several records. *)
Definition tlen (rs : list prec) : Z := Z.of_nat (length (pencs rs)).

Lemma tlen_cons r rs : tlen (r :: rs) = Z.of_nat (plen r) + tlen rs.
Proof. unfold tlen, pencs. cbn [map concat]. rewrite app_length, penc_length. lia. Qed.

Lemma tlen_app a b : tlen (a ++ b) = tlen a + tlen b.
Proof. unfold tlen, pencs. rewrite map_app, concat_app, app_length. lia. Qed.

Lemma tlen_nonneg rs : 0 <= tlen rs.
Proof. unfold tlen. lia. Qed.

Lemma holds_cons m pos r rs : holds size m pos (r :: rs) <->
  rd_range size m pos (plen r) = penc r /\ holds size m (pos + Z.of_nat (plen r)) rs.
Proof using Hok Hsize.
  unfold holds. split.
  - intros H. unfold pencs in H. cbn [map concat] in H. fold (pencs rs) in H.
    rewrite app_length, penc_length in H. split.
    + pose proof (rd_range_slice size Hsize m pos _ _ 0 (plen r) H ltac:(lia)) as H1.
      change (Z.of_nat 0) with 0 in H1. rewrite Z.add_0_r in H1. rewrite H1.
      rewrite <- (penc_length r). apply (slice_app_exact []).
    + rewrite (rd_range_slice size Hsize m pos _ _ (plen r) (length (pencs rs)) H ltac:(lia)).
      rewrite <- (app_nil_r (pencs rs)) at 2. rewrite <- (penc_length r). apply slice_app_exact.
  - intros [H1 H2]. unfold pencs. cbn [map concat]. fold (pencs rs).
    rewrite app_length, penc_length.
    transitivity (rd_range size m pos (plen r) ++ rd_range size m (pos + Z.of_nat (plen r)) (length (pencs rs))); [|now rewrite H1, H2].
    apply list_eq_nth_error. intros j. rewrite rd_range_nth by exact Hsize.
    destruct (Nat.ltb_spec j (plen r)).
    + rewrite nth_error_app1 by (rewrite rd_range_length; auto).
      rewrite rd_range_nth by exact Hsize.
      destruct (Nat.ltb_spec j (plen r)); [|lia]. destruct (Nat.ltb_spec j (plen r + length (pencs rs))); [reflexivity|lia].
    + rewrite nth_error_app2 by (rewrite rd_range_length; auto).
      rewrite rd_range_length, rd_range_nth by exact Hsize.
      destruct (Nat.ltb_spec j (plen r + length (pencs rs))), (Nat.ltb_spec (j - plen r) (length (pencs rs))); try lia; [|reflexivity].
      do 3 f_equal. lia.
Qed.

Lemma holds_app m pos a b : holds size m pos (a ++ b) <-> holds size m pos a /\ holds size m (pos + tlen a) b.
Proof using Hok Hsize.
  revert pos. induction a as [|r a IH]; intros pos; cbn [app].
  - unfold tlen. cbn. rewrite Z.add_0_r. split; [intros H; split; [reflexivity|exact H]|tauto].
  - rewrite !holds_cons, IH, tlen_cons. rewrite Z.add_assoc. tauto.
Qed.

Lemma fold_loop_spec {B C} (f : C -> pevent -> flow B C) mems : forall rs pos i fuel acc,
  pos mod 8 = 0 -> Forall (fun r => prec_ok r = true) rs -> tlen rs <= size ->
  (forall j, holds size (mems j) pos rs) -> (length rs <= fuel)%nat ->
  exists used rest o,
    fold_loop f fuel size mems i (u64 (pos + tlen rs)) (u64 pos) acc = (u64 (pos + tlen used), o) /\
    folds f rs acc used rest o /\ used ++ rest = rs.
Proof using Hok Hsize.
  pose proof (perf_size_pos size Hok) as [Hs1 Hs2].
  induction rs as [|r rs IH]; intros pos i fuel acc Hal Hall Hfit Hm Hf.
  - exists [], [], (FDone acc). split; [|split; [constructor|reflexivity]].
    unfold tlen. cbn [pencs map concat length]. change (Z.of_nat 0) with 0. rewrite Z.add_0_r.
    destruct fuel; cbn [fold_loop]; rewrite Z.eqb_refl; reflexivity.
  - cbn [length] in Hf. destruct fuel as [|fuel]; [lia|].
    inversion Hall as [|? ? Hr Hrs]; subst. rewrite tlen_cons in *.
    pose proof (plen_pos r). pose proof (tlen_nonneg rs).
    cbn [fold_loop].
    destruct (Z.eqb_spec (u64 pos) (u64 (pos + (Z.of_nat (plen r) + tlen rs)))) as [E|_].
    { apply u64_inj in E; lia. }
    pose proof (proj1 (holds_cons _ _ _ _) (Hm i)) as [Hmr _].
    destruct (perf_iter_spec (mems i) pos r Hal Hr ltac:(lia) Hmr) as (ev & Hit & Hv).
    rewrite Hit.
    assert (forall j, holds size (mems j) (pos + Z.of_nat (plen r)) rs) as Hm'.
    { intros j. apply (holds_cons (mems j) pos r rs). apply Hm. }
    assert ((pos + Z.of_nat (plen r)) mod 8 = 0) as Hal'.
    { unfold prec_ok in Hr. lia. }
    assert (forall acc', exists used rest o,
      fold_loop f fuel size mems (S i) (u64 (pos + (Z.of_nat (plen r) + tlen rs))) (u64 (pos + Z.of_nat (plen r))) acc' =
        (u64 (pos + tlen (r :: used)), o) /\ folds f rs acc' used rest o /\ used ++ rest = rs) as Hrec.
    { intros acc'. destruct (IH (pos + Z.of_nat (plen r)) (S i) fuel acc' Hal' Hrs ltac:(lia) Hm' ltac:(lia))
        as (used & rest & o & E & F & A).
      exists used, rest, o. rewrite tlen_cons, !Z.add_assoc. rewrite <- Z.add_assoc in E.
      rewrite Z.add_assoc in E. repeat split; assumption. }
    assert (u64 (pos + Z.of_nat (plen r)) = u64 (pos + tlen [r])) as E1.
    { f_equal. unfold tlen, pencs. cbn [map concat]. rewrite app_nil_r, penc_length. reflexivity. }
    destruct ev as [e|]; cbn [option_map] in Hv; symmetry in Hv.
    + destruct (f acc e) as [acc'|b|] eqn:Ef.
      * destruct (Hrec acc') as (used & rest & o & E & F & A).
        exists (r :: used), rest, o. split; [exact E|]. split; [|cbn [app]; now rewrite A].
        eapply fo_go; eauto.
      * exists [r], rs, (FBreak b). rewrite E1. split; [reflexivity|]. split; [|reflexivity].
        eapply fo_break; eauto.
      * exists [r], rs, FUnwind. rewrite E1. split; [reflexivity|]. split; [|reflexivity].
        eapply fo_unwind; eauto.
    + destruct (Hrec acc) as (used & rest & o & E & F & A).
      exists (r :: used), rest, o. split; [exact E|]. split; [|cbn [app]; now rewrite A].
      eapply fo_skip; eauto.
Qed.

Theorem try_fold_spec {B C} (f : C -> pevent -> flow B C) mems rs pos fuel acc :
  pos mod 8 = 0 -> Forall (fun r => prec_ok r = true) rs -> tlen rs <= size ->
  (forall j, holds size (mems j) pos rs) -> (length rs <= fuel)%nat ->
  exists used rest o,
    try_fold f fuel size mems (u64 (pos + tlen rs)) (u64 pos) acc =
      (match used with [] => None | _ => Some (u64 (pos + tlen used)) end, o) /\
    folds f rs acc used rest o /\ used ++ rest = rs /\
    (forall j, holds size (mems j) (pos + tlen used) rest).
Proof using Hok Hsize.
  intros Hal Hall Hfit Hm Hf. pose proof (perf_size_pos size Hok) as [Hs1 Hs2].
  destruct (fold_loop_spec f mems rs pos 0 fuel acc Hal Hall Hfit Hm Hf) as (used & rest & o & E & F & A).
  exists used, rest, o. unfold try_fold. rewrite E. split; [|split; [exact F|split; [exact A|]]].
  - destruct used as [|r used].
    + unfold tlen. cbn [pencs map concat length]. change (Z.of_nat 0) with 0. rewrite Z.add_0_r, Z.eqb_refl. reflexivity.
    + destruct (Z.eqb_spec (u64 (pos + tlen (r :: used))) (u64 pos)) as [E'|_]; [|reflexivity].
      exfalso. symmetry in E'. pose proof (tlen_nonneg rest). pose proof (tlen_nonneg used).
      pose proof (plen_pos r).
      assert (tlen (r :: used) + tlen rest <= size) by (rewrite <- tlen_app, A; exact Hfit).
      rewrite tlen_cons in *. apply u64_inj in E'; lia.
  - intros j. specialize (Hm j). rewrite <- A in Hm. now apply holds_app in Hm.
Qed.
End Iter.
