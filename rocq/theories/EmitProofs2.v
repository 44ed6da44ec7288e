(** Proofs about ring buffers between programs and user space: all calls. *)
From Verif Require Import Base RingBufModel RingBufSpec RingBufProofs EmitModel EmitSpec EmitProofs.
Local Open Scope Z_scope.

Lemma change_upd ptr f l : (exists e, In e l /\ open_at ptr e = true) ->
  exists i a, nth_error l i = Some a /\ open_at ptr a = true /\ change ptr f l = upd i (f a) l.
Proof.
  induction l as [|x l IH]; intros (e & I & O); [destruct I|]. cbn [change]. destruct (open_at ptr x) eqn:Ox.
  - exists 0%nat, x. auto.
  - destruct I as [-> | I]; [congruence|]. destruct IH as (i & a & N & Oa & C); [eauto|].
    exists (S i), a. cbn [nth_error upd]. now rewrite C.
Qed.

Lemma like_upd size l m i a e : Forall2 (like size) l m -> like size a e -> Forall2 (like size) (upd i a l) (upd i e m).
Proof.
  intros F K. revert i. induction F as [|x y l m Kx F IH]; intros i; [destruct i; constructor|].
  destruct i as [|i]; cbn [upd]; constructor; auto.
Qed.
Lemma like_app size l m a e : Forall2 (like size) l m -> like size a e -> Forall2 (like size) (l ++ [a]) (m ++ [e]).
Proof. intros F K. apply Forall2_app; auto. Qed.

Lemma reserve_sz s len pg : sz (reserve s len pg) = sz s.
Proof. unfold reserve. now destruct (_ && _). Qed.
Lemma write_sz s i off v : sz (write_byte s i off v) = sz s.
Proof. unfold write_byte. destruct (nth_error (log s) i) as [e|]; [|reflexivity]. destruct (r_status e); try reflexivity. now destruct (off <? _)%nat. Qed.
Lemma commit_sz s i d : sz (commit s i d) = sz s.
Proof. unfold commit. destruct (nth_error (log s) i) as [e|]; [|reflexivity]. now destruct (r_status e). Qed.
Lemma with_same s : with_shm (erase s) (shared s) = erase s. Proof. reflexivity. Qed.

Lemma reserve_case pg b s l len flags : sim b (erase s, l) s -> 0 <= len < 2 ^ 64 ->
  let (p, s1) := g_reserve (kernel_ring pg) (u64 len) flags (erase s) in
  exists s', sz s' = sz s /\
  match from_raw p with
  | EEntry ptr => sim b (s1, l ++ [{| s_ptr := ptr; s_status := Reserved; s_bytes := repeat None (Z.to_nat len) |}]) s' /\
      ptr = p /\ flags = 0
  | _ => s' = s /\ s1 = erase s /\ p = 0
  end.
Proof.
  intros (_ & F & k & m & I) L. cbn [kernel_ring g_reserve snd] in *. rewrite u64_small by lia.
  destruct (Z.eqb_spec flags 0) as [Fl|Fl].
  2:{ exists s. unfold from_raw. cbn [Z.eqb]. auto. }
  cbn [erase sz shared]. pose proof (reserve_sim pg s b k m len I ltac:(lia)) as H. cbn zeta in H.
  destruct (kreserve pg (sz s) len (shared s)) as [p m1]. cbn [fst snd] in H.
  exists (reserve s len (le_enc 4 (pg (ppos (shared s))))). split; [apply reserve_sz|].
  destruct H as [(-> & -> & E)|(e & -> & G & Lg & R & Ln & E & _)].
  - unfold from_raw. cbn [Z.eqb]. split; [exact E|]. auto.
  - unfold from_raw. replace (r_at e mod sz s + 8 =? 0) with false by lia.
    split; [|auto]. destruct (inv_reserve s b k m len (le_enc 4 (pg (ppos (shared s)))) I) as [m' I'].
    split; [exact E|]. split; [|eauto]. cbn [snd]. rewrite Lg, reserve_sz. apply like_app; [exact F|].
    constructor; cbn [s_status s_bytes s_ptr]; auto. now apply agrees_none.
Qed.

Lemma output_case pg b s l data flags : sim b (erase s, l) s ->
  let (ret, s1) := g_output (kernel_ring pg) data flags (erase s) in
  exists s', sz s' = sz s /\
  if ret <? 0 then s' = s /\ s1 = erase s /\ (ret = -22 /\ ~ 0 <= flags < 4 \/ ret = -11 /\ 0 <= flags < 4)
  else ret = 0 /\ 0 <= flags < 4 /\ sim b (s1, l ++ [{| s_ptr := 0; s_status := Committed; s_bytes := map Some data |}]) s'.
Proof.
  intros (_ & F & k & m & I). cbn [kernel_ring g_output snd] in *.
  destruct ((0 <=? flags) && (flags <? 4)) eqn:Fl.
  2:{ exists s. split; [reflexivity|]. change (-22 <? 0) with true. cbn iota. split; [reflexivity|]. split; [reflexivity|]. left. lia. }
  assert (0 <= flags < 4) as Fl' by lia. cbn [erase sz shared].
  pose proof (reserve_sim pg s b k m (Z.of_nat (length data)) I ltac:(lia)) as H. cbn zeta in H.
  destruct (kreserve pg (sz s) (Z.of_nat (length data)) (shared s)) as [p m1]. cbn [fst snd] in H.
  destruct H as [(-> & -> & E)|(e & -> & G & Lg & R & Ln & E & El)].
  - cbn [Z.eqb]. exists s. split; [reflexivity|]. change (-11 <? 0) with true. cbn iota. auto.
  - set (s1 := reserve s (Z.of_nat (length data)) (le_enc 4 (pg (ppos (shared s))))) in *.
    replace (r_at e mod sz s + 8 =? 0) with false by lia. change (0 <? 0) with false. cbn iota.
    destruct (inv_reserve s b k m (Z.of_nat (length data)) (le_enc 4 (pg (ppos (shared s)))) I) as [m' I'].
    pose proof (inv_size_pos _ _ _ _ I) as Z8. assert (sz s1 = sz s) as Sz by apply reserve_sz.
    fold s1 in I'. rewrite Nat2Z.id in Ln.
    destruct (store_all s1 (log s) e 0 data) as (E2 & e' & Lg' & R' & A' & B' & C'); [lia|exact Lg|exact R|lia|].
    set (s2 := writes (length (log s)) 0 data s1) in *.
    assert (Inv s2 b k m') as I2 by (apply inv_writes; exact I').
    assert (nth_error (log s2) (length (log s)) = Some e') as N2. { rewrite Lg', nth_error_app2, Nat.sub_diag by lia. reflexivity. }
    pose proof (commit_sim s2 b k m' (length (log s)) e' false I2 N2 R') as E3.
    assert (sz s2 = sz s) as Sz2 by (unfold s2; rewrite writes_sz; exact Sz).
    exists (commit s2 (length (log s)) false). split; [now rewrite commit_sz|]. split; [reflexivity|]. split; [exact Fl'|].
    assert (m1 = shared s1) as -> by (apply (f_equal shared) in E; exact E).
    rewrite Z.add_0_r in E2. rewrite Sz in E2.
    assert (shared s2 = kstore (sz s) (r_at e mod sz s + 8) data (shared s1)) as Sh2 by (apply (f_equal shared) in E2; symmetry; exact E2).
    split; [|split].
    + cbn [fst]. rewrite <- E3. rewrite A', Sz2, <- Sh2. rewrite <- E2, <- E. unfold with_shm, erase. cbn [sz shared reader holding log delivered]. reflexivity.
    + cbn [snd]. rewrite commit_sz, Sz2. unfold commit. rewrite N2, R'. cbn [log]. rewrite Lg'.
      assert (upd (length (log s)) {| r_at := r_at e'; r_len := r_len e'; r_status := Committed; r_content := r_content e' |} (log s ++ [e']) =
        log s ++ [{| r_at := r_at e'; r_len := r_len e'; r_status := Committed; r_content := r_content e' |}]) as ->.
      { clear. induction (log s) as [|y l0 IH]; [reflexivity|]. cbn [length app upd]. now rewrite IH. }
      apply like_app; [exact F|]. constructor; cbn [s_status s_bytes s_ptr r_status r_content]; [reflexivity| |discriminate].
      rewrite C'. cbn [firstn app Nat.add]. rewrite skipn_all2 by lia. rewrite app_nil_r. apply agrees_some.
    + exists k, m'. now apply inv_commit.
Qed.

Lemma user_step s o : (match o with ONextIter | ODrop | OReopen => True | _ => False end) ->
  fst (step (erase s) o) = erase (fst (step s o)) /\ snd (step (erase s) o) = snd (step s o) /\ sz (fst (step s o)) = sz s /\ log (fst (step s o)) = log s.
Proof.
  destruct o; intros T; try contradiction; cbn [step erase holding reader shared sz].
  - destruct (holding s); [auto|]. destruct (next_iter (sz s) (reader s) (shared s)) as [[c' m'] r]. auto.
  - destruct (holding s) as [d|]; [|auto]. destruct (consume (reader s) (shared s) (Z.of_nat (length d))) as [c' m']. auto.
  - destruct (holding s); auto.
Qed.

Lemma sim_user b l s o : (match o with ONextIter | ODrop | OReopen => True | _ => False end) -> sim b (erase s, l) s ->
  sim b (fst (step (erase s) o), l) (fst (step s o)).
Proof.
  intros T (_ & F & k & m & I). destruct (user_step s o T) as (E & _ & Sz & Lg). rewrite E. split; [reflexivity|].
  split; [cbn [snd] in *; now rewrite Sz, Lg|]. apply (inv_step s b k m o I).
Qed.

Lemma sim_step pg b x s o : sim b x s -> eop_ok (snd x) o -> exists s', sim b (estep pg o x) s' /\ sz s' = sz s.
Proof.
  intros Sm O. destruct x as [s0 l]. pose proof Sm as (E0 & F & k & m & I). cbn [fst] in E0. subst s0. cbn [snd] in *.
  pose proof (inv_size_pos _ _ _ _ I) as Z8.
  destruct o as [c| | |]; cbn [estep].
  - cbn [eop_ok] in O. destruct c as [size flags|size align flags|ptr off v|ptr flags|ptr flags|data align flags]; cbn [ecall_ok] in O; cbn [emit].
    + unfold reserve_bytes. pose proof (reserve_case pg b s l size flags Sm O) as H.
      destruct (g_reserve (kernel_ring pg) (u64 size) flags (erase s)) as [p s1]. destruct H as (s' & Sz & H).
      exists s'. split; [|exact Sz]. unfold from_raw in *. destruct (p =? 0); [destruct H as (-> & -> & _); exact Sm|apply H].
    + unfold reserve_typed. destruct (8 mod align =? 0); [|exists s; auto].
      pose proof (reserve_case pg b s l size flags Sm O) as H.
      destruct (g_reserve (kernel_ring pg) (u64 size) flags (erase s)) as [p s1]. destruct H as (s' & Sz & H).
      exists s'. split; [|exact Sz]. unfold from_raw in *. destruct (p =? 0); [destruct H as (-> & -> & _); exact Sm|apply H].
    + destruct O as (a0 & In0 & O0 & L0). cbn [record].
      destruct (change_upd ptr (written off v) l) as (i & a & N & Oa & ->); [eauto|].
      destruct (open_entry b _ s a ptr i Sm N Oa) as (e & Ne & R & Ep & K).
      apply In_nth_error in In0 as (j & Nj). destruct (open_entry b _ s a0 ptr j Sm Nj O0) as (ej & Nej & Rj & Epj & Kj).
      assert (i = j) as <-. { refine (reserved_unique s b k m i j e ej I Ne Nej R Rj _). lia. }
      assert (a0 = a) as -> by congruence.
      assert (off < length (r_content e))%nat as Lo. { rewrite <- (agrees_length _ _ (lk_bytes _ _ _ K)). exact L0. }
      exists (write_byte s i off v). split; [|apply write_sz].
      split; [|split; [|exists k, m; now apply inv_write]].
      * cbn [fst]. rewrite Ep. cbn [erase sz shared]. apply store_sim; auto. lia.
      * cbn [snd]. rewrite write_sz. unfold write_byte. rewrite Ne, R. replace (off <? length (r_content e))%nat with true by (symmetry; now apply Nat.ltb_lt).
        cbn [log]. apply like_upd; [exact F|]. destruct K as [K1 K2 K3]. constructor; cbn [written s_status s_bytes s_ptr r_status r_content r_at].
        -- now rewrite K1. -- now apply agrees_upd. -- intros _. now apply K3.
    + destruct O as (a0 & In0 & O0). cbn [record submit].
      destruct (change_upd ptr (finished Committed) l) as (i & a & N & Oa & ->); [eauto|].
      destruct (open_entry b _ s a ptr i Sm N Oa) as (e & Ne & R & Ep & K).
      exists (commit s i false). split; [|apply commit_sz].
      split; [|split; [|exists k, m; now apply inv_commit]].
      * cbn [fst kernel_ring g_submit erase sz shared]. rewrite Ep. now apply (commit_sim s b k m).
      * cbn [snd]. rewrite commit_sz. unfold commit. rewrite Ne, R. cbn [log]. apply like_upd; [exact F|]. destruct K as [K1 K2 K3].
        constructor; cbn [finished s_status s_bytes s_ptr r_status r_content]; auto.
    + destruct O as (a0 & In0 & O0). cbn [record discard].
      destruct (change_upd ptr (finished Discarded) l) as (i & a & N & Oa & ->); [eauto|].
      destruct (open_entry b _ s a ptr i Sm N Oa) as (e & Ne & R & Ep & K).
      exists (commit s i true). split; [|apply commit_sz].
      split; [|split; [|exists k, m; now apply inv_commit]].
      * cbn [fst kernel_ring g_discard erase sz shared]. rewrite Ep. now apply (commit_sim s b k m).
      * cbn [snd]. rewrite commit_sz. unfold commit. rewrite Ne, R. cbn [log]. apply like_upd; [exact F|]. destruct K as [K1 K2 K3].
        constructor; cbn [finished s_status s_bytes s_ptr r_status r_content]; auto.
    + unfold output. destruct (8 mod align =? 0); [|exists s; auto].
      pose proof (output_case pg b s l data flags Sm) as H.
      destruct (g_output (kernel_ring pg) data flags (erase s)) as [ret s1]. destruct H as (s' & Sz & H).
      exists s'. split; [|exact Sz]. destruct (ret <? 0); [destruct H as (-> & -> & _); exact Sm|apply H].
  - exists (fst (step s ONextIter)). split; [now apply sim_user|]. now apply user_step.
  - exists (fst (step s ODrop)). split; [now apply sim_user|]. now apply user_step.
  - exists (fst (step s OReopen)). split; [now apply sim_user|]. now apply user_step.
Qed.

Lemma sim_runs pg b ops : forall x s, sim b x s -> eops_ok pg ops x -> exists s', sim b (eruns pg ops x) s' /\ sz s' = sz s.
Proof.
  induction ops as [|o ops IH]; intros x s Sm O; cbn [eruns eops_ok] in *; [eauto|]. destruct O as [O1 O2].
  destruct (sim_step pg b x s o Sm O1) as (s1 & Sm1 & Sz1). destruct (IH _ s1 Sm1 O2) as (s2 & Sm2 & Sz2). exists s2. split; [exact Sm2|congruence].
Qed.

Lemma sim_init size p m : ring_size_ok size -> sim p (init size p m, []) (init size p m).
Proof. intros H. split; [reflexivity|]. split; [constructor|]. exists 0%nat, 0%nat. now apply inv_init. Qed.
