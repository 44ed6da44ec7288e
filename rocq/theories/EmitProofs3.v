(** Proofs about ring buffers between programs and user space: what follows. *)
From Verif Require Import Base RingBufModel RingBufSpec RingBufProofs EmitModel EmitSpec EmitProofs EmitProofs2.
Local Open Scope Z_scope.

Lemma due_like size l m : Forall2 (like size) l m -> Forall2 agrees (due l) (payloads (settled m)).
Proof.
  intros F. induction F as [|a e l m K F IH]; cbn [due settled]; [constructor|].
  unfold is_reserved. rewrite (lk_status _ _ _ K). destruct (r_status e) eqn:R.
  - constructor.
  - unfold payloads. cbn [filter]. unfold is_committed at 1. rewrite R. cbn [map]. constructor; [exact (lk_bytes _ _ _ K)|exact IH].
  - unfold payloads. cbn [filter]. unfold is_committed at 1. rewrite R. exact IH.
Qed.

Lemma reach pg size p m ops : ring_size_ok size -> eops_ok pg ops (init size p m, []) ->
  exists s, sim p (eruns pg ops (init size p m, [])) s /\ sz s = size.
Proof. intros H O. destruct (sim_runs pg p ops _ _ (sim_init size p m H) O) as (s & Sm & Sz). eauto. Qed.

Lemma sent_delivered pg size p m ops : ring_size_ok size -> eops_ok pg ops (init size p m, []) ->
  let (s, l) := eruns pg ops (init size p m, []) in
  (exists rest, Forall2 agrees (due l) (delivered s ++ rest)) /\
  (snd (step s ONextIter) = Some RNone -> Forall2 agrees (due l) (delivered s)) /\
  snd (step s ONextIter) <> Some RPanic.
Proof.
  intros H O. destruct (reach pg size p m ops H O) as (s' & (E & F & k & mm & I) & Sz).
  destruct (eruns pg ops (init size p m, [])) as [s l]. cbn [fst snd] in *. subst s. pose proof (due_like _ _ _ F) as D.
  destruct (user_step s' ONextIter Logic.I) as (_ & En & _). split; [|split].
  - destruct (delivered_prefix _ _ _ _ I) as (rest & P). exists rest. cbn [erase delivered]. now rewrite <- P.
  - intros N. rewrite En in N. destruct (step s' ONextIter) as [s2 r] eqn:Es. cbn [snd] in N. subst r.
    destruct (none_complete _ _ _ _ _ I Es) as [Q Lg]. rewrite Lg in Q. cbn [erase delivered].
    assert (delivered s2 = delivered s') as Ed.
    { unfold step in Es. destruct (holding s'); [discriminate Es|]. destruct (next_iter (sz s') (reader s') (shared s')) as [[c' m'] r].
      apply pair_equal_spec in Es as [<- Er]. apply some_inj in Er. subst r. reflexivity. }
    rewrite <- Ed, Q. exact D.
  - rewrite En. apply (no_panic _ _ _ _ I).
Qed.

Lemma total_mult l : (total l) mod 8 = 0.
Proof.
  induction l as [|e l IH]; [reflexivity|]. cbn [total fold_right]. fold (total l). unfold rec_len, HDR_SZ. rewrite Z.add_mod, IH by lia.
  rewrite Z.mod_mul by lia. reflexivity.
Qed.
Lemma at_mult s b k m i e : Inv s b k m -> b mod 8 = 0 -> nth_error (log s) i = Some e -> (r_at e mod sz s) mod 8 = 0.
Proof.
  intros I B N. rewrite (r_at_mod _ _ _ _ _ _ I N). unfold P. destruct (i_size _ _ _ _ I) as (x & Hx & ->).
  replace x with (3 + (x - 3)) by lia. rewrite Z.pow_add_r by lia. change (2 ^ 3) with 8.
  pose proof (Z.pow_pos_nonneg 2 (x - 3) ltac:(lia) ltac:(lia)) as Px.
  rewrite Z.rem_mul_r by lia. pose proof (total_mult (firstn i (log s))) as T.
  assert ((b + total (firstn i (log s))) mod 8 = 0) as -> by (rewrite Z.add_mod, B, T by lia; reflexivity).
  rewrite Z.add_0_l, Z.mul_comm. apply Z.mod_mul. lia.
Qed.

(** The memory of open entries. *)
Lemma open_area pg size p m ops : ring_size_ok size -> p mod 8 = 0 -> eops_ok pg ops (init size p m, []) ->
  let (s, l) := eruns pg ops (init size p m, []) in
  (forall ptr a, In a l -> open_at ptr a = true ->
     ptr mod 8 = 0 /\ 8 <= ptr /\ ptr + Z.of_nat (length (s_bytes a)) <= 2 * size /\
     agrees (s_bytes a) (rd_range size (mem (shared s)) ptr (length (s_bytes a)))) /\
  (forall i j p1 p2 a1 a2 x y, nth_error l i = Some a1 -> nth_error l j = Some a2 -> i <> j -> open_at p1 a1 = true -> open_at p2 a2 = true ->
     (x < length (s_bytes a1))%nat -> (y < length (s_bytes a2))%nat -> (p1 + Z.of_nat x) mod size <> (p2 + Z.of_nat y) mod size).
Proof.
  intros H P8 O. destruct (reach pg size p m ops H O) as (s' & Sm & Sz). pose proof Sm as (E & F & k & mm & I).
  destruct (eruns pg ops (init size p m, [])) as [s l]. cbn [fst snd] in *. subst s. pose proof (inv_size_pos _ _ _ _ I) as Z8.
  rewrite <- Sz. split.
  - intros ptr a Ia Oa. apply In_nth_error in Ia as (i & N).
    destruct (open_entry p _ s' a ptr i Sm N Oa) as (e & Ne & R & Ep & K).
    pose proof (reserved_unread _ _ _ _ _ _ I Ne R) as Ki. pose proof (i_entries _ _ _ _ I i e Ne) as [_ El Ef Ec].
    pose proof (at_mult _ _ _ _ _ _ I P8 Ne) as M8. pose proof (Z.mod_pos_bound (r_at e) (sz s') ltac:(lia)) as Mb.
    pose proof (agrees_length _ _ (lk_bytes _ _ _ K)) as La. pose proof (rec_len_pos (r_len e) ltac:(lia)) as Lr.
    split; [|split; [lia|split]].
    + rewrite Ep, Z.add_mod, M8 by lia. reflexivity.
    + rewrite La, Ec. lia.
    + assert (rd_range (sz s') (mem (shared s')) ptr (length (s_bytes a)) = r_content e) as G; [|cbn [erase shared]; rewrite G; exact (lk_bytes _ _ _ K)].
      rewrite La, Ec. rewrite (rd_range_cong (sz s') ltac:(lia) _ ptr (P p (log s') i + 8)); [apply (i_dat _ _ _ _ I i e Ki Ne)|].
      rewrite Ep, <- (Zplus_mod_idemp_l (P p (log s') i)), <- (r_at_mod _ _ _ _ _ _ I Ne). now rewrite Zplus_mod_idemp_l.
  - intros i j p1 p2 a1 a2 x y N1 N2 D O1 O2 X Y.
    destruct (open_entry p _ s' a1 p1 i Sm N1 O1) as (e1 & Ne1 & R1 & Ep1 & K1).
    destruct (open_entry p _ s' a2 p2 j Sm N2 O2) as (e2 & Ne2 & R2 & Ep2 & K2).
    pose proof (i_entries _ _ _ _ I i e1 Ne1) as [_ _ _ Ec1]. pose proof (i_entries _ _ _ _ I j e2 Ne2) as [_ _ _ Ec2].
    rewrite (agrees_length _ _ (lk_bytes _ _ _ K1)), Ec1 in X. rewrite (agrees_length _ _ (lk_bytes _ _ _ K2)), Ec2 in Y.
    pose proof (reserved_apart s' p k mm i j e1 e2 I Ne1 Ne2 R1 R2 D (Z.of_nat x) (Z.of_nat y) ltac:(lia) ltac:(lia)) as A.
    intros G. apply A. rewrite Ep1, Ep2 in G. rewrite <- !Z.add_assoc in *. rewrite !Zplus_mod_idemp_l in G. exact G.
Qed.

Lemma aligned_for ptr align : 0 < align -> ptr mod 8 = 0 -> 8 mod align = 0 -> ptr mod align = 0.
Proof.
  intros A P E. apply Z.mod_divide; [lia|]. apply Z.mod_divide in P; [|lia]. apply Z.mod_divide in E; [|lia]. now apply Z.divide_trans with 8.
Qed.

(** Room. *)
Lemma rec_fits len size : 0 <= len -> size mod 8 = 0 -> (rec_len len <= size - 1 <-> len + 16 <= size).
Proof. unfold rec_len, HDR_SZ. lia. Qed.
Lemma size_mult size : ring_size_ok size -> size mod 8 = 0.
Proof.
  intros (x & Hx & ->). replace x with ((x - 3) + 3) by lia. rewrite Z.pow_add_r by lia. apply Z.mod_mul. discriminate.
Qed.

Lemma empty_room s b k m : Inv s b k m -> (forall e, In e (log s) -> r_status e <> Reserved) ->
  snd (step s ONextIter) = Some RNone -> cpos (shared s) = ppos (shared s).
Proof.
  intros I A N. assert (holding s = None) as Hh. { unfold step in N. destruct (holding s); [discriminate N|reflexivity]. }
  destruct (iter_step s b k m I Hh) as (s1 & r & Hs1 & Hr & _). rewrite Hs1 in N. cbn [snd] in N. apply some_inj in N. subst r.
  inversion Hr as [G D| | |]. rewrite (i_cpos _ _ _ _ I), (i_ppos _ _ _ _ I). f_equal. f_equal.
  destruct (nth_error (log s) k) as [e|] eqn:Ne.
  - destruct (A e (nth_error_In _ _ Ne) (G e eq_refl)).
  - apply nth_error_None in Ne. destruct (i_km _ _ _ _ I). lia.
Qed.

Lemma kreserve_iff pg s b k m len : Inv s b k m -> 0 <= len ->
  (fst (kreserve pg (sz s) len (shared s)) <> 0 -> len + 16 <= sz s) /\
  (cpos (shared s) = ppos (shared s) -> len + 16 <= sz s -> fst (kreserve pg (sz s) len (shared s)) <> 0).
Proof.
  intros I L. pose proof (inv_size_pos _ _ _ _ I) as Z8. pose proof (size_mult _ (i_size _ _ _ _ I)) as M8.
  pose proof (rec_fits len (sz s) L M8) as Rf. pose proof (rec_len_pos len L) as Rl. unfold kreserve. rewrite krec_is.
  destruct (Z.ltb_spec (2 ^ 30 - 1) len) as [A|A]; [split; [intros C; destruct (C eq_refl)|lia]|].
  destruct (Z.ltb_spec (sz s) (rec_len len)) as [B|B]; [split; [intros C; destruct (C eq_refl)|lia]|].
  assert (0 <= u64 (ppos (shared s) - cpos (shared s)) < sz s) as Un.
  { rewrite (i_cpos _ _ _ _ I), (i_ppos _ _ _ _ I), u64_sub. pose proof (i_room _ _ _ _ I) as Rm.
    pose proof (inv_mono _ _ _ _ I k (length (log s))) as Mo. destruct (i_km _ _ _ _ I). rewrite u64_small; lia. }
  assert ((ppos (shared s) + rec_len len - cpos (shared s)) mod 2 ^ 64 = u64 (ppos (shared s) - cpos (shared s)) + rec_len len) as ->.
  { replace (ppos (shared s) + rec_len len - cpos (shared s)) with (ppos (shared s) - cpos (shared s) + rec_len len) by lia.
    rewrite <- Zplus_mod_idemp_l. change ((ppos (shared s) - cpos (shared s)) mod 2 ^ 64) with (u64 (ppos (shared s) - cpos (shared s))).
    apply Z.mod_small. lia. }
  set (d := u64 (ppos (shared s) - cpos (shared s)) + rec_len len).
  destruct (Z.ltb_spec (sz s - 1) d) as [C|C].
  - split; [intros Q; destruct (Q eq_refl)|]. intros Eq Q. unfold d in C. rewrite Eq, Z.sub_diag in C. change (u64 0) with 0 in C. lia.
  - cbn [fst]. pose proof (Z.mod_pos_bound (ppos (shared s)) (sz s) ltac:(lia)). split; [intros _; unfold d in C; lia|lia].
Qed.

Lemma room pg size p m ops len align : ring_size_ok size -> eops_ok pg ops (init size p m, []) -> 0 <= len < 2 ^ 64 -> 8 mod align = 0 ->
  let (s, l) := eruns pg ops (init size p m, []) in
  let given c := exists ptr, fst (emit pg c s) = EEntry ptr in
  let sends data := fst (emit pg (EOutput data align 0) s) = EOk in
  let empty := (forall a, In a l -> s_status a <> Reserved) /\ snd (step s ONextIter) = Some RNone in
  (given (EReserveBytes len 0) -> len + 16 <= size) /\ (empty -> len + 16 <= size -> given (EReserveBytes len 0)) /\
  (given (EReserve len align 0) <-> given (EReserveBytes len 0)) /\
  (forall data, Z.of_nat (length data) = len -> (sends data <-> given (EReserveBytes len 0))).
Proof.
  intros H O L Al. destruct (reach pg size p m ops H O) as (s' & Sm & Sz). pose proof Sm as (E & F & k & mm & I).
  destruct (eruns pg ops (init size p m, [])) as [s l]. cbn [fst snd] in *. subst s. cbn zeta.
  pose proof (kreserve_iff pg s' p k mm len I ltac:(lia)) as (Q1 & Q2).
  assert ((exists ptr, fst (emit pg (EReserveBytes len 0) (erase s')) = EEntry ptr) <-> fst (kreserve pg (sz s') len (shared s')) <> 0) as G.
  { cbn [emit]. unfold reserve_bytes, from_raw. cbn [kernel_ring g_reserve]. cbn [Z.eqb]. rewrite u64_small by lia. cbn [erase sz shared].
    destruct (kreserve pg (sz s') len (shared s')) as [q m1]. cbn [fst]. destruct (Z.eqb_spec q 0) as [-> | Nz].
    - split; [intros (ptr & X); discriminate X|intros X; destruct (X eq_refl)].
    - split; eauto. }
  rewrite <- Sz. split; [intros A; apply Q1; now apply G|]. split; [|split].
  - intros (A & N) R. apply G. apply Q2; [|exact R]. destruct (user_step s' ONextIter Logic.I) as (_ & En & _). rewrite En in N.
    refine (empty_room s' p k mm I _ N). intros e Ie R'. apply In_nth_error in Ie as (i & Ne).
    assert (exists a, nth_error l i = Some a /\ like (sz s') a e) as (a & Na & K).
    { clear - F Ne. revert i Ne. induction F as [|a' e' l l' K F IH]; intros [|i] Ne; cbn [nth_error] in *; try discriminate Ne; [|eauto].
      injection Ne as <-. eauto. }
    apply (A a (nth_error_In _ _ Na)). now rewrite (lk_status _ _ _ K).
  - cbn [emit]. unfold reserve_typed, reserve_bytes. rewrite Al. cbn [Z.eqb]. reflexivity.
  - intros data Ld. rewrite G. cbn [emit]. unfold output. rewrite Al. cbn [Z.eqb kernel_ring g_output].
    change ((0 <=? 0) && (0 <? 4)) with true. cbn iota. cbn [erase sz shared]. rewrite Ld.
    destruct (kreserve pg (sz s') len (shared s')) as [q m1]. cbn [fst]. destruct (Z.eqb_spec q 0) as [-> | Nz].
    + change (-11 <? 0) with true. cbn [fst]. split; [discriminate|intros X; destruct (X eq_refl)].
    + change (0 <? 0) with false. cbn [fst]. split; auto.
Qed.

Lemma divides_8 align : 0 < align -> (8 mod align =? 0) = true <-> aligned align.
Proof.
  intros A. unfold aligned. rewrite Z.eqb_eq. split.
  - intros E. apply Z.mod_divide in E; [|lia]. destruct E as (q & E). assert (0 < q) by nia. assert (align <= 8) by nia.
    assert (align = 1 \/ align = 2 \/ align = 3 \/ align = 4 \/ align = 5 \/ align = 6 \/ align = 7 \/ align = 8) as C by lia.
    repeat destruct C as [-> | C]; try lia.
  - intros [-> | [-> | [-> | ->]]]; reflexivity.
Qed.

(** Results. *)
Lemma results pg size p m ops len align data flags : ring_size_ok size -> eops_ok pg ops (init size p m, []) -> 0 <= len < 2 ^ 64 -> 0 < align ->
  let s := fst (eruns pg ops (init size p m, [])) in
  let bytes := emit pg (EReserveBytes len flags) s in
  let typed := emit pg (EReserve len align flags) s in
  let out := emit pg (EOutput data align flags) s in
  (bytes = (ENone, s) \/ exists ptr s', bytes = (EEntry ptr, s') /\ flags = 0) /\
  (typed = bytes /\ aligned align \/ typed = (EPanic, s) /\ ~ aligned align) /\
  (aligned align -> out = (EErr (-22), s) /\ ~ 0 <= flags < 4 \/ out = (EErr (-11), s) /\ 0 <= flags < 4 \/ (exists s', out = (EOk, s')) /\ 0 <= flags < 4) /\
  (~ aligned align -> out = (EPanic, s)).
Proof.
  intros H O L A. destruct (reach pg size p m ops H O) as (s' & Sm & Sz). cbn zeta.
  destruct (eruns pg ops (init size p m, [])) as [s l]. pose proof Sm as (E & _). cbn [fst] in *. subst s. cbn [emit].
  unfold reserve_bytes, reserve_typed, output. pose proof (divides_8 align A) as D. split; [|split; [|split]].
  - pose proof (reserve_case pg p s' l len flags Sm L) as C. destruct (g_reserve (kernel_ring pg) (u64 len) flags (erase s')) as [q s1].
    destruct C as (s2 & _ & C). unfold from_raw in *. destruct (q =? 0); [left; destruct C as (_ & -> & _); reflexivity|].
    right. exists q, s1. split; [reflexivity|apply C].
  - destruct (8 mod align =? 0).
    + left. split; [reflexivity|]. now apply D.
    + right. split; [reflexivity|]. intros X. apply D in X. discriminate X.
  - intros X. apply D in X. rewrite X. pose proof (output_case pg p s' l data flags Sm) as C.
    destruct (g_output (kernel_ring pg) data flags (erase s')) as [ret s1]. destruct C as (s2 & _ & C).
    destruct (ret <? 0).
    + destruct C as (_ & -> & [(-> & F)|(-> & F)]); [left|right; left]; (split; [reflexivity|exact F]).
    + right. right. destruct C as (_ & F & _). split; [eauto|exact F].
  - intros X. destruct (8 mod align =? 0); [|reflexivity]. destruct (X (proj1 D eq_refl)).
Qed.
