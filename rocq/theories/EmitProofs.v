(** Proofs about ring buffers between programs and user space. *)
From Verif Require Import Base RingBufModel RingBufSpec RingBufProofs EmitModel EmitSpec.
Local Open Scope Z_scope.

Definition erase (s : sys) : sys :=
  {| sz := sz s; shared := shared s; reader := reader s; holding := holding s; log := []; delivered := delivered s |}.

Record like (size : Z) (a : sent) (e : rentry) : Prop := {
  lk_status : s_status a = r_status e;
  lk_bytes : agrees (s_bytes a) (r_content e);
  lk_ptr : r_status e = Reserved -> s_ptr a = r_at e mod size + 8
}.
Definition sim (b : Z) (x : sys * list sent) (s : sys) : Prop :=
  fst x = erase s /\ Forall2 (like (sz s)) (snd x) (log s) /\ exists k m, Inv s b k m.

Lemma wr_range_eq size m o o' l : 0 < size -> o mod size = o' mod size -> wr_range size m o l = wr_range size m o' l.
Proof.
  intros Hs. revert m o o'. induction l as [|x l IH]; intros m o o' H; cbn [wr_range]; [reflexivity|].
  rewrite H. apply IH. rewrite (Z.add_mod o), (Z.add_mod o') by lia. now rewrite H.
Qed.

Lemma krec_is len : krec len = rec_len len.
Proof. unfold krec, rec_len, HDR_SZ. replace (8 + len + 7) with (len + 15) by lia. lia. Qed.

Lemma agrees_length x d : agrees x d -> length x = length d.
Proof. intros F. induction F; cbn [length]; congruence. Qed.
Lemma agrees_none d n : length d = n -> agrees (repeat None n) d.
Proof. intros <-. induction d; cbn [repeat length]; constructor; auto. Qed.
Lemma agrees_some d : agrees (map Some d) d.
Proof. induction d; cbn [map]; constructor; auto. Qed.
Lemma agrees_upd x d i b : agrees x d -> agrees (upd i (Some b) x) (upd i b d).
Proof.
  intros F. revert i. induction F as [|o c x d E F IH]; intros i; [destruct i; constructor|].
  destruct i as [|i]; cbn [upd]; constructor; auto. apply IH.
Qed.

(** Reserving. *)
Lemma reserve_sim pg s b k m len : Inv s b k m -> 0 <= len ->
  let r := kreserve pg (sz s) len (shared s) in
  let s' := reserve s len (le_enc 4 (pg (ppos (shared s)))) in
  (fst r = 0 /\ snd r = shared s /\ s' = s) \/
  (exists e, fst r = r_at e mod sz s + 8 /\ 8 <= fst r /\ log s' = log s ++ [e] /\ r_status e = Reserved /\ length (r_content e) = Z.to_nat len /\
     with_shm (erase s) (snd r) = erase s' /\ r_len e = len).
Proof.
  intros I L r s'. pose proof (inv_size_pos _ _ _ _ I) as Z8. subst r s'. unfold kreserve, reserve. rewrite krec_is.
  assert (u64 (u64 (ppos (shared s) + rec_len len) - cpos (shared s)) = (ppos (shared s) + rec_len len - cpos (shared s)) mod 2 ^ 64) as ->.
  { unfold u64, wrap. now rewrite Zminus_mod_idemp_l. }
  replace (0 <=? len) with true by lia. cbn [andb].
  destruct (Z.ltb_spec (2 ^ 30 - 1) len) as [A|A]; [left; replace (len <? 2 ^ 30) with false by lia; auto|].
  replace (len <? 2 ^ 30) with true by lia. cbn [andb].
  destruct (Z.ltb_spec (sz s) (rec_len len)) as [B|B]; [left; replace (rec_len len <=? sz s) with false by lia; auto|].
  replace (rec_len len <=? sz s) with true by lia. cbn [andb].
  set (d := (ppos (shared s) + rec_len len - cpos (shared s)) mod 2 ^ 64).
  destruct (Z.ltb_spec (sz s - 1) d) as [C|C]; [left; replace (d <=? sz s - 1) with false by lia; auto|].
  replace (d <=? sz s - 1) with true by lia. right.
  exists {| r_at := ppos (shared s); r_len := len; r_status := Reserved; r_content := rd_range (sz s) (mem (shared s)) (ppos (shared s) + HDR_SZ) (Z.to_nat len) |}.
  cbn [fst snd log].
  split; [reflexivity|]. split; [pose proof (Z.mod_pos_bound (ppos (shared s)) (sz s) ltac:(lia)); cbn [r_at]; lia|].
  split; [reflexivity|]. split; [reflexivity|]. split.
  { cbn [r_content]. now rewrite (rd_range_length (sz s)) by lia. }
  split; [|reflexivity]. unfold with_shm, erase. cbn [sz shared reader holding log delivered header_of r_status r_len].
  rewrite (firstn_all2 (le_enc 4 _)) by (rewrite le_enc_length; lia). reflexivity.
Qed.

(** The entries of the memory. *)
Lemma open_entry b x s a ptr i : sim b x s -> nth_error (snd x) i = Some a -> open_at ptr a = true ->
  exists e, nth_error (log s) i = Some e /\ r_status e = Reserved /\ ptr = r_at e mod sz s + 8 /\ like (sz s) a e.
Proof.
  intros (_ & F & _) N O. assert (exists e, nth_error (log s) i = Some e /\ like (sz s) a e) as (e & Ne & K).
  { revert i N. clear O. induction F as [|a' e' l l' K F IH]; intros [|i] N; cbn [nth_error] in *; try discriminate N; [|eauto].
    injection N as <-. eauto. }
  exists e. unfold open_at in O. apply andb_true_iff in O as [Op Os]. apply Z.eqb_eq in Op.
  assert (r_status e = Reserved) as R. { rewrite <- (lk_status _ _ _ K). now destruct (s_status a). }
  split; [exact Ne|]. split; [exact R|]. split; [|exact K]. rewrite <- Op. now apply (lk_ptr _ _ _ K).
Qed.

Lemma reserved_unread s b k m i e : Inv s b k m -> nth_error (log s) i = Some e -> r_status e = Reserved -> (k <= i)%nat.
Proof. intros I N R. destruct (le_lt_dec k i) as [|L]; [assumption|]. now pose proof (i_settled _ _ _ _ I i e L N). Qed.

(** Two open entries are in different places. *)
Lemma reserved_apart s b k m i j ei ej : Inv s b k m -> nth_error (log s) i = Some ei -> nth_error (log s) j = Some ej ->
  r_status ei = Reserved -> r_status ej = Reserved -> i <> j ->
  forall x y, 0 <= x < r_len ei -> 0 <= y < r_len ej -> (r_at ei + 8 + x) mod sz s <> (r_at ej + 8 + y) mod sz s.
Proof.
  intros I Ni Nj Ri Rj D x y Hx Hy E.
  pose proof (reserved_unread _ _ _ _ _ _ I Ni Ri) as Ki. pose proof (reserved_unread _ _ _ _ _ _ I Nj Rj) as Kj.
  pose proof (inv_sep _ _ _ _ I i j ei ej Ki Kj D Ni Nj) as A. pose proof (inv_size_pos _ _ _ _ I) as Z8.
  pose proof (r_at_mod _ _ _ _ _ _ I Ni) as Mi. pose proof (r_at_mod _ _ _ _ _ _ I Nj) as Mj.
  pose proof (rec_len_pos (r_len ei) ltac:(lia)) as Li. pose proof (rec_len_pos (r_len ej) ltac:(lia)) as Lj.
  assert ((P b (log s) i + (8 + x)) mod sz s = (P b (log s) j + (8 + y)) mod sz s) as E2.
  { rewrite <- Zplus_mod_idemp_l, <- Mi, Zplus_mod_idemp_l, Z.add_assoc, E, <- Z.add_assoc, <- Zplus_mod_idemp_l, Mj. apply Zplus_mod_idemp_l. }
  clear E Mi Mj. unfold apart in A. destruct A as [A|A].
  - refine (mod_add_neq (sz s) _ _ _ _ E2); clear E2; lia.
  - symmetry in E2. refine (mod_add_neq (sz s) _ _ _ _ E2); clear E2; lia.
Qed.

Lemma reserved_unique s b k m i j ei ej : Inv s b k m -> nth_error (log s) i = Some ei -> nth_error (log s) j = Some ej ->
  r_status ei = Reserved -> r_status ej = Reserved -> r_at ei mod sz s = r_at ej mod sz s -> i = j.
Proof.
  intros I Ni Nj Ri Rj E. destruct (Nat.eq_dec i j) as [|D]; [assumption|exfalso].
  pose proof (reserved_unread _ _ _ _ _ _ I Ni Ri) as Ki. pose proof (reserved_unread _ _ _ _ _ _ I Nj Rj) as Kj.
  pose proof (inv_sep _ _ _ _ I i j ei ej Ki Kj D Ni Nj) as A. pose proof (inv_size_pos _ _ _ _ I) as Z8.
  pose proof (r_at_mod _ _ _ _ _ _ I Ni) as Mi. pose proof (r_at_mod _ _ _ _ _ _ I Nj) as Mj.
  pose proof (inv_lens _ _ _ _ I _ _ Ni) as Pi. pose proof (inv_lens _ _ _ _ I _ _ Nj) as Pj.
  pose proof (rec_len_pos (r_len ei) Pi) as Li. pose proof (rec_len_pos (r_len ej) Pj) as Lj.
  assert (P b (log s) i mod sz s = P b (log s) j mod sz s) as E2 by congruence.
  clear E Mi Mj. unfold apart in A. destruct A as [A|A].
  - refine (mod_add_neq (sz s) _ _ _ _ E2); clear E2; lia.
  - symmetry in E2. refine (mod_add_neq (sz s) _ _ _ _ E2); clear E2; lia.
Qed.

(** Storing. *)
Lemma store_sim s i e off v : 0 < sz s -> nth_error (log s) i = Some e -> r_status e = Reserved -> (off < length (r_content e))%nat ->
  with_shm (erase s) (kstore (sz s) (r_at e mod sz s + 8 + Z.of_nat off) [v] (shared s)) = erase (write_byte s i off v).
Proof.
  intros Hs N R L. unfold write_byte. rewrite N, R. replace (off <? length (r_content e))%nat with true by (symmetry; now apply Nat.ltb_lt).
  unfold with_shm, erase, kstore. cbn [sz shared reader holding log delivered].
  rewrite (wr_range_eq (sz s) _ (r_at e mod sz s + 8 + Z.of_nat off) (r_at e + HDR_SZ + Z.of_nat off)); [reflexivity|lia|].
  unfold HDR_SZ. rewrite <- !Z.add_assoc. apply Zplus_mod_idemp_l.
Qed.

(** Committing. *)
Lemma commit_sim s b k m i e d : Inv s b k m -> nth_error (log s) i = Some e -> r_status e = Reserved ->
  with_shm (erase s) (kcommit (sz s) (r_at e mod sz s + 8) d (shared s)) = erase (commit s i d).
Proof.
  intros I N R. pose proof (inv_size_pos _ _ _ _ I) as Z8. unfold commit. rewrite N, R.
  unfold with_shm, erase, kcommit. cbn [sz shared reader holding log delivered].
  replace (r_at e mod sz s + 8 - 8) with (r_at e mod sz s) by lia.
  rewrite (rd_range_cong (sz s) ltac:(lia) _ (r_at e mod sz s) (P b (log s) i)).
  2:{ rewrite Z.mod_mod by lia. apply (r_at_mod _ _ _ _ _ _ I N). }
  rewrite (i_hdr _ _ _ _ I i e (reserved_unread _ _ _ _ _ _ I N R) N).
  pose proof (eo_len _ _ _ _ (i_entries _ _ _ _ I i e N)) as L.
  assert (header_of e = r_len e + BUSY_BIT) as Hh by (unfold header_of; now rewrite R).
  rewrite Hh, le_dec_enc_small by (change (256 ^ Z.of_nat 4) with (2 ^ 32); unfold BUSY_BIT; lia).
  assert (Z.lxor (r_len e + BUSY_BIT) (2 ^ 31) = r_len e) as ->.
  { unfold BUSY_BIT. rewrite Z.add_nocarry_lxor.
    - rewrite Z.lxor_assoc, Z.lxor_nilpotent. apply Z.lxor_0_r.
    - rewrite land_pow2 by lia. rewrite Z.bits_above_log2; [reflexivity|lia|].
      destruct (Z.eq_dec (r_len e) 0) as [-> | Nz]; [cbn; lia|]. apply Z.log2_lt_pow2; lia. }
  assert ((if d then Z.lor (r_len e) (2 ^ 30) else r_len e) =
    header_of {| r_at := r_at e; r_len := r_len e; r_status := if d then Discarded else Committed; r_content := r_content e |}) as ->.
  { unfold header_of. destruct d; cbn [r_status r_len]; [|reflexivity]. unfold DISCARD_BIT.
    assert (Z.land (r_len e) (2 ^ 30) = 0) as D.
    { rewrite land_pow2 by lia. rewrite Z.bits_above_log2; [reflexivity|lia|].
      destruct (Z.eq_dec (r_len e) 0) as [-> | Nz]; [cbn; lia|]. apply Z.log2_lt_pow2; lia. }
    now rewrite <- (Z.lxor_lor _ _ D), <- (Z.add_nocarry_lxor _ _ D). }
  rewrite (wr_range_eq (sz s) _ (r_at e mod sz s) (r_at e)); [reflexivity|lia|]. apply Z.mod_mod. lia.
Qed.

(** Storing several bytes. *)
Fixpoint writes (i off : nat) (d : list Z) (s : sys) : sys :=
  match d with [] => s | v :: d => writes i (S off) d (write_byte s i off v) end.
Lemma writes_sz i off d s : sz (writes i off d s) = sz s.
Proof.
  revert off s. induction d as [|v d IH]; intros off s; cbn [writes]; [reflexivity|]. rewrite IH. unfold write_byte.
  destruct (nth_error (log s) i) as [e|]; [|reflexivity]. destruct (r_status e); try reflexivity. now destruct (off <? _)%nat.
Qed.
Lemma store_all s l0 e off d : 0 < sz s -> log s = l0 ++ [e] -> r_status e = Reserved -> (off + length d <= length (r_content e))%nat ->
  let s' := writes (length l0) off d s in
  with_shm (erase s) (kstore (sz s) (r_at e mod sz s + 8 + Z.of_nat off) d (shared s)) = erase s' /\
  exists e', log s' = l0 ++ [e'] /\ r_status e' = Reserved /\ r_at e' = r_at e /\ r_len e' = r_len e /\
    r_content e' = firstn off (r_content e) ++ d ++ skipn (off + length d) (r_content e).
Proof.
  revert s e off. induction d as [|v d IH]; intros s e off Hs Lg R L; cbn zeta; cbn [writes].
  - split; [unfold with_shm, erase, kstore; cbn [wr_range sz shared reader holding log delivered]; now destruct (shared s)|]. exists e. repeat split; auto. cbn [length app]. rewrite Nat.add_0_r. symmetry. apply firstn_skipn.
  - cbn [length] in L. assert (nth_error (log s) (length l0) = Some e) as N.
    { rewrite Lg, nth_error_app2, Nat.sub_diag by lia. reflexivity. }
    pose proof (store_sim s (length l0) e off v Hs N R ltac:(lia)) as E.
    set (e1 := {| r_at := r_at e; r_len := r_len e; r_status := Reserved; r_content := upd off v (r_content e) |}).
    assert (log (write_byte s (length l0) off v) = l0 ++ [e1] /\ sz (write_byte s (length l0) off v) = sz s) as [Lg1 Sz1].
    { unfold write_byte. rewrite N, R. replace (off <? length (r_content e))%nat with true by (symmetry; apply Nat.ltb_lt; lia).
      cbn [log sz]. split; [|reflexivity]. rewrite Lg. clear. induction l0 as [|y l0 IH]; [reflexivity|]. cbn [length app upd]. now rewrite IH. }
    destruct (IH (write_byte s (length l0) off v) e1 (S off)) as (E1 & e' & Lg' & R' & A' & B' & C'); auto.
    { now rewrite Sz1. } { cbn [r_content e1]. rewrite upd_length. lia. }
    split.
    + rewrite <- E1. rewrite <- E. rewrite Sz1. unfold with_shm, kstore. cbn [sz shared reader holding log delivered mem cpos ppos r_at e1 wr_range].
      assert (shared (write_byte s (length l0) off v) = kstore (sz s) (r_at e mod sz s + 8 + Z.of_nat off) [v] (shared s)) as ->.
      { apply (f_equal shared) in E. cbn [erase with_shm shared] in E. now symmetry. }
      unfold erase. cbn [sz shared reader holding log delivered kstore mem cpos ppos wr_range].
      replace (r_at e mod sz s + 8 + Z.of_nat (S off)) with (r_at e mod sz s + 8 + Z.of_nat off + 1) by lia. reflexivity.
    + exists e'. repeat split; auto. rewrite C'. cbn [r_content e1]. cbn [length].
      clear - L. revert off L. generalize (r_content e). intros c. induction c as [|y c IHc]; intros off L; [cbn in L; lia|].
      destruct off as [|off]; cbn [upd firstn skipn app Nat.add]; [reflexivity|].
      cbn [length] in L. f_equal. specialize (IHc off ltac:(lia)). replace (off + S (length d))%nat with (S off + length d)%nat in * by lia. exact IHc.
Qed.

Lemma inv_writes s b k m i off d : Inv s b k m -> Inv (writes i off d s) b k m.
Proof. revert s off. induction d as [|v d IH]; intros s off I; cbn [writes]; [exact I|]. apply IH. now apply inv_write. Qed.
