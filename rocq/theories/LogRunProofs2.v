(** Proofs about logging as a whole: all steps. *)
From Coq Require Import String.
From Verif Require Import Base Text LogModel LogFmtModel LogSpec LogProofs LogFmtProofs RingBufModel RingBufSpec RingBufProofs EmitModel EmitSpec EmitProofs EmitProofs2 EmitProofs3
  LogRunModel LogRunSpec LogRunProofs.
Local Open Scope Z_scope.

(** * All entries *)

Inductive each : list call -> list sent -> list (list ecall) -> Prop :=
| each_nil : each [] [] []
| each_cons c e job cs l jobs : progress c e job -> each cs l jobs -> each (c :: cs) (e :: l) (job :: jobs).

Lemma each_snoc cs l jobs c e job : each cs l jobs -> progress c e job -> each (cs ++ [c]) (l ++ [e]) (jobs ++ [job]).
Proof. intros E P. induction E; cbn [app]; constructor; auto. constructor. Qed.
Lemma each_nth cs l jobs : each cs l jobs -> forall i job, nth_error jobs i = Some job ->
  exists c e, nth_error l i = Some e /\ progress c e job /\ (forall e' job', progress c e' job' -> each cs (upd i e' l) (upd i job' jobs)).
Proof.
  intros E. induction E as [|c e job cs l jobs P E IH]; intros i j N; [now destruct i|]. destruct i as [|i].
  - apply some_inj in N. subst j. exists c, e. split; [reflexivity|]. split; [exact P|]. intros e' job' P'. cbn [upd]. now constructor.
  - destruct (IH i j N) as (c1 & e1 & N1 & P1 & U). exists c1, e1. split; [exact N1|]. split; [exact P1|]. intros e' job' P'. cbn [upd]. constructor; auto.
Qed.
Lemma each_nth_sent cs l jobs : each cs l jobs -> forall i e, nth_error l i = Some e -> (0 < length (s_bytes e))%nat.
Proof.
  intros E. induction E as [|c e job cs l jobs P E IH]; intros i x N; [now destruct i|]. destruct i as [|i]; [|eauto].
  apply some_inj in N. subst x. exact (progress_length _ _ _ P).
Qed.

Definition fine ff t (c : call) : Prop := sound_call ff c /\ loggable t c.

Lemma each_due ff t cs l jobs : each cs l jobs -> Forall (fine ff t) cs -> forall ds rest, Forall2 agrees (due l) (ds ++ rest) ->
  exists xs, Forall2 (fun d x => log_buf 8 ff d = Ok x) ds xs /\ Forall2 (said ff) (firstn (length ds) cs) xs.
Proof.
  intros E. induction E as [|c e job cs l jobs P E IH]; intros F ds rest D.
  - cbn [due] in D. inversion D as [Dn Ds|]; subst. symmetry in Ds. apply app_eq_nil in Ds as [-> _]. exists []. split; constructor.
  - destruct ds as [|d ds]; [exists []; split; constructor|]. cbn [due] in D.
    destruct (s_status e) eqn:St.
    + inversion D.
    + cbn [app] in D. inversion D as [|y1 y2 y3 y4 A D' Ey Ed]; subst.
      destruct (IH (Forall_inv_tail F) ds rest D') as (xs & L & S). destruct (Forall_inv F) as [So Lo].
      destruct (read_call ff t c e job d So Lo P St A) as (x & Lx & Sx). exists (x :: xs). cbn [length firstn]. split; constructor; assumption.
    + destruct P as (cap & _ & _ & [(C & _) | (k & _ & C & _)]); congruence.
Qed.
Lemma each_idle cs l jobs : each cs l jobs -> (forall job, In job jobs -> job = []) -> length (due l) = length cs /\ forall a, In a l -> s_status a <> Reserved.
Proof.
  intros E. induction E as [|c e job cs l jobs P E IH]; intros I; [split; [reflexivity|intros a []]|].
  destruct (IH (fun j H => I j (or_intror H))) as [L N].
  assert (s_status e = Committed) as St.
  { destruct P as (cap & _ & _ & [(C & _) | (k & _ & C & J & _)]); [exact C|]. rewrite (I job (or_introl eq_refl)) in J. symmetry in J. apply app_eq_nil in J as [_ J]. discriminate J. }
  cbn [due]. rewrite St. split; [cbn [length]; now rewrite L|]. intros a [<- | Ia]; [congruence|exact (N a Ia)].
Qed.

(** * The state *)

Definition linv pg t ff size p m (st : logging) (cs : list call) : Prop :=
  exists ops l, eops_ok pg ops (init size p m, []) /\ eruns pg ops (init size p m, []) = (l_sys st, l) /\ each cs l (l_jobs st) /\
    Forall (fine ff t) cs /\ l_panic st = false /\ Forall2 (fun d x => log_buf 8 ff d = Ok x) (delivered (l_sys st)) (l_out st).

Lemma eruns_snoc pg o : forall ops x, eruns pg (ops ++ [o]) x = estep pg o (eruns pg ops x).
Proof. induction ops as [|a ops IH]; intros x; cbn [app eruns]; [reflexivity|apply IH]. Qed.
Lemma eops_snoc pg o : forall ops x, eops_ok pg ops x -> eop_ok (snd (eruns pg ops x)) o -> eops_ok pg (ops ++ [o]) x.
Proof. induction ops as [|a ops IH]; intros x H O; cbn [app eruns eops_ok] in *; [split; [exact O|exact I]|]. destruct H as [A H]. split; [exact A|]. apply IH; assumption. Qed.

Lemma emit_delivered pg c s : (match c with EOutput _ _ _ => False | _ => True end) -> delivered (snd (EmitSpec.emit pg c s)) = delivered s.
Proof.
  destruct c as [n f|n a f|ptr off b|ptr f|ptr f|d a f]; intros O; [| | | | |destruct O];
    cbn [EmitSpec.emit snd]; unfold reserve_bytes, reserve_typed, submit, discard; cbn [kernel_ring g_reserve g_submit g_discard];
    repeat match goal with |- context [if ?b then _ else _] => destruct b end; try (destruct (kreserve _ _ _ _)); reflexivity.
Qed.

Section Run.
  Variables (pg : Z -> Z) (t : Z) (ff : nat -> list Z -> list Z) (size p : Z) (m : Z -> Z).
  Hypothesis Hs : ring_size_ok size.
  Hypothesis Hp : p mod 8 = 0.

  Lemma inv_init : linv pg t ff size p m (linit size p m) [].
  Proof. exists [], []. repeat split; constructor. Qed.

  (** A call that asks for a reservation. *)
  Lemma inv_call st cs h args : linv pg t ff size p m st cs -> sound_call ff (h, args) ->
    linv pg t ff size p m (lstep pg t ff (LCall h args) st) (cs ++ if taken pg t ff (h, args) st then [(h, args)] else []).
  Proof.
    intros (ops & l & O & E & C & F & P & D) S. unfold taken. cbn [fst snd lstep].
    destruct (begin_spec pg t h args (l_sys st)) as [(cap & ptr & s' & Lg & Gc & Em & ->) | [[-> _] | (cap & r & s' & Lg & Gc & Em & N & ->)]].
    - cbn [l_jobs]. rewrite app_length. cbn [length]. destruct (Nat.ltb_spec (length (l_jobs st)) (length (l_jobs st) + 1)); [|lia].
      destruct Gc as (G1 & _ & k & K & ->).
      assert (0 < 2 ^ k <= 2 ^ 13) as B by (split; [apply Z.pow_pos_nonneg; lia|apply Z.pow_le_mono_r; lia]).
      exists (ops ++ [EProg (EReserveBytes (2 ^ k) 0)]), (l ++ [{| s_ptr := ptr; s_status := Reserved; s_bytes := repeat None (Z.to_nat (2 ^ k)) |}]).
      split; [apply eops_snoc; [exact O|]; cbn [eop_ok ecall_ok]; lia|].
      split; [rewrite eruns_snoc, E; cbn [estep l_sys]; rewrite Em; reflexivity|]. cbn [l_jobs l_panic l_sys l_out].
      split; [apply each_snoc; [exact C|]; apply (progress_new (h, args)); cbn [fst snd]; [pose proof (record_length h args)|]; lia|].
      split; [apply Forall_app; split; [exact F|]; constructor; [exact (conj S Lg)|constructor]|]. split; [exact P|].
      pose proof (emit_delivered pg (EReserveBytes (2 ^ k) 0) (l_sys st) I) as Ed. rewrite Em in Ed. cbn [snd] in Ed. rewrite Ed. exact D.
    - cbn [l_jobs]. rewrite Nat.ltb_irrefl, app_nil_r. exists ops, l. cbn [l_jobs l_panic l_sys l_out]. auto 10.
    - cbn [l_jobs]. rewrite Nat.ltb_irrefl, app_nil_r.
      destruct Gc as (G1 & _ & k & K & ->).
      assert (0 < 2 ^ k <= 2 ^ 13) as B by (split; [apply Z.pow_pos_nonneg; lia|apply Z.pow_le_mono_r; lia]).
      exists (ops ++ [EProg (EReserveBytes (2 ^ k) 0)]), l.
      split; [apply eops_snoc; [exact O|]; cbn [eop_ok ecall_ok]; lia|].
      split. { rewrite eruns_snoc, E; cbn [estep l_sys]; rewrite Em. destruct r as [| |ptr| | |e]; try reflexivity. destruct (N ptr eq_refl). }
      cbn [l_jobs l_panic l_sys l_out].
      split; [exact C|]. split; [exact F|]. split; [exact P|].
      pose proof (emit_delivered pg (EReserveBytes (2 ^ k) 0) (l_sys st) I) as Ed. rewrite Em in Ed. cbn [snd] in Ed. rewrite Ed. exact D.
  Qed.

  (** The entry a call works on is its own. *)
  Lemma change_own ops l s i e f : eops_ok pg ops (init size p m, []) -> eruns pg ops (init size p m, []) = (s, l) ->
    (forall j a, nth_error l j = Some a -> (0 < length (s_bytes a))%nat) ->
    nth_error l i = Some e -> open_at (s_ptr e) e = true -> change (s_ptr e) f l = upd i (f e) l.
  Proof.
    intros O E P N Op. destruct (change_upd (s_ptr e) f l) as (j & a & Nj & Oj & ->); [exists e; split; [exact (nth_error_In _ _ N)|exact Op]|].
    destruct (Nat.eq_dec i j) as [-> | Ne]; [rewrite N in Nj; apply some_inj in Nj; now subst a|].
    pose proof (open_area pg size p m ops Hs Hp O) as A. rewrite E in A. destruct A as [_ A].
    destruct (A i j (s_ptr e) (s_ptr e) e a 0%nat 0%nat N Nj Ne Op Oj (P _ _ N) (P _ _ Nj)). reflexivity.
  Qed.

  Lemma inv_work st cs i : linv pg t ff size p m st cs -> linv pg t ff size p m (lstep pg t ff (LWork i) st) cs.
  Proof.
    intros (ops & l & O & E & C & F & P & D). cbn [lstep]. destruct (nth_error (l_jobs st) i) as [[|c job]|] eqn:N; [exists ops, l; auto 10| |exists ops, l; auto 10].
    destruct (each_nth _ _ _ C i _ N) as (k & e & Ne & Pe & U). destruct (progress_step _ _ _ _ Pe) as [Op St].
    pose proof (fun f => change_own ops l (l_sys st) i e f O E (each_nth_sent _ _ _ C) Ne Op) as Ch.
    destruct St as [(off & b & -> & Lo & Pj) | [-> Pj]].
    - exists (ops ++ [EProg (EWrite (s_ptr e) off b)]), (upd i (written off b e) l).
      split. { apply eops_snoc; [exact O|]. rewrite E. cbn [eop_ok ecall_ok snd]. exists e. split; [exact (nth_error_In _ _ Ne)|]. split; assumption. }
      split. { rewrite eruns_snoc, E. cbn [estep]. cbn [EmitSpec.emit EmitSpec.record snd l_sys]. rewrite Ch. reflexivity. }
      cbn [l_jobs l_panic l_sys l_out]. split; [exact (U _ _ Pj)|]. split; [exact F|]. split; [exact P|]. rewrite emit_delivered by exact I. exact D.
    - exists (ops ++ [EProg (ESubmit (s_ptr e) 0)]), (upd i (finished Committed e) l).
      split. { apply eops_snoc; [exact O|]. rewrite E. cbn [eop_ok ecall_ok snd]. exists e. split; [exact (nth_error_In _ _ Ne)|exact Op]. }
      split. { rewrite eruns_snoc, E. cbn [estep]. cbn [EmitSpec.emit submit EmitSpec.record snd l_sys]. rewrite Ch. reflexivity. }
      cbn [l_jobs l_panic l_sys l_out]. split; [exact (U _ _ Pj)|]. split; [exact F|]. split; [exact P|]. rewrite emit_delivered by exact I. exact D.
  Qed.

  Lemma inv_drop st cs : linv pg t ff size p m st cs -> linv pg t ff size p m (lstep pg t ff LDrop st) cs.
  Proof.
    intros (ops & l & O & E & C & F & P & D). cbn [lstep]. exists (ops ++ [EDrop]), l.
    split; [apply eops_snoc; [exact O|exact I]|]. split; [rewrite eruns_snoc, E; reflexivity|]. cbn [l_jobs l_panic l_sys l_out].
    split; [exact C|]. split; [exact F|]. split; [exact P|].
    cbn [step]. destruct (holding (l_sys st)); [|exact D]. destruct (consume _ _ _). exact D.
  Qed.

  Lemma next_cases s : let '(s', r) := step s ONextIter in
    match r with Some (RItem d) => delivered s' = delivered s ++ [d] | _ => delivered s' = delivered s end.
  Proof. cbn [step]. destruct (holding s); [reflexivity|]. destruct (next_iter _ _ _) as [[c' m'] r]. destruct r; reflexivity. Qed.

  Lemma inv_next st cs : linv pg t ff size p m st cs -> linv pg t ff size p m (lstep pg t ff LNext st) cs.
  Proof.
    intros (ops & l & O & E & C & F & P & D). cbn [lstep]. pose proof (next_cases (l_sys st)) as Nx.
    assert (eops_ok pg (ops ++ [ENext]) (init size p m, [])) as O' by (apply eops_snoc; [exact O|exact I]).
    pose proof (sent_delivered pg size p m _ Hs O) as S0. rewrite E in S0. destruct S0 as (_ & _ & Np).
    pose proof (sent_delivered pg size p m _ Hs O') as S1. rewrite eruns_snoc, E in S1. cbn [estep] in S1.
    assert (eruns pg (ops ++ [ENext]) (init size p m, []) = (fst (step (l_sys st) ONextIter), l)) as E' by (rewrite eruns_snoc, E; reflexivity).
    destruct (step (l_sys st) ONextIter) as [s' r]. cbn [fst snd] in *. destruct S1 as ((rest & S1) & _).
    assert (forall Q : delivered s' = delivered (l_sys st), linv pg t ff size p m {| l_sys := s'; l_jobs := l_jobs st; l_out := l_out st; l_panic := l_panic st |} cs) as Same.
    { intros Q. exists (ops ++ [ENext]), l. cbn [l_jobs l_panic l_sys l_out]. rewrite Q. auto 10. }
    destruct r as [[| |d|]|]; try (exact (Same Nx)); [|destruct (Np eq_refl)].
    destruct (each_due ff t _ _ _ C F _ _ S1) as (xs & L & _). rewrite Nx in L.
    apply Forall2_app_inv_l in L as (x1 & x2 & L1 & L2 & ->). inversion L2 as [|y1 x y3 x3 Lx L3 Ey Ex]; subst. rewrite Lx.
    exists (ops ++ [ENext]), l. cbn [l_jobs l_panic l_sys l_out]. split; [exact O'|]. split; [exact E'|]. split; [exact C|]. split; [exact F|]. split; [exact P|].
    rewrite Nx. apply Forall2_app; [exact D|]. constructor; [exact Lx|constructor].
  Qed.

  Lemma inv_runs ops : Forall (sound_op ff) ops -> forall st cs, linv pg t ff size p m st cs ->
    linv pg t ff size p m (lruns pg t ff ops st) (cs ++ taken_calls pg t ff ops st).
  Proof.
    induction ops as [|o ops IH]; intros F st cs H; cbn [lruns taken_calls]; [now rewrite app_nil_r|].
    pose proof (Forall_inv F) as So. rewrite app_assoc. apply IH; [exact (Forall_inv_tail F)|].
    destruct o as [h args|i| |]; [apply inv_call; assumption|rewrite app_nil_r..]; [apply inv_work|apply inv_next|apply inv_drop]; exact H.
  Qed.

  Lemma same_reads ds : forall xs ys, Forall2 (fun d x => log_buf 8 ff d = Ok x) ds xs -> Forall2 (fun d x => log_buf 8 ff d = Ok x) ds ys -> xs = ys.
  Proof.
    induction ds as [|d ds IH]; intros xs ys X Y; inversion X as [|d1 x ds1 xs1 A1 B1]; inversion Y as [|d2 y ds2 ys1 A2 B2]; subst; [reflexivity|].
    rewrite A1 in A2. apply ok_inj in A2. subst y. f_equal. apply IH; assumption.
  Qed.

  Lemma inv_said st cs : linv pg t ff size p m st cs ->
    l_panic st = false /\ Forall (loggable t) cs /\ (exists n, Forall2 (said ff) (firstn n cs) (l_out st)) /\
    (idle st -> all_read st -> Forall2 (said ff) cs (l_out st)).
  Proof.
    intros (ops & l & O & E & C & F & P & D). split; [exact P|].
    split; [exact (Forall_impl (loggable t) (fun c H => proj2 H) F)|].
    pose proof (sent_delivered pg size p m _ Hs O) as S. rewrite E in S. destruct S as ((rest & S) & Sc & _). split.
    - destruct (each_due ff t _ _ _ C F _ _ S) as (xs & L & X). rewrite <- (same_reads _ _ _ L D). eauto.
    - intros Id Al. specialize (Sc Al). destruct (each_idle _ _ _ C Id) as [Ln _].
      assert (length (due l) = length (delivered (l_sys st))) as Lg.
      { clear - Sc. induction Sc; cbn [length]; congruence. }
      assert (Forall2 agrees (due l) (delivered (l_sys st) ++ [])) as S2 by (rewrite app_nil_r; exact Sc).
      destruct (each_due ff t _ _ _ C F _ _ S2) as (xs & L & X). rewrite <- (same_reads _ _ _ L D).
      rewrite <- Lg, Ln, firstn_all in X. exact X.
  Qed.

  Lemma inv_taken st cs h args : linv pg t ff size p m st cs ->
    (taken pg t ff (h, args) st = true -> loggable t (h, args)) /\
    (taken pg t ff (h, args) st = false -> lstep pg t ff (LCall h args) st = st) /\
    (loggable t (h, args) -> idle st -> all_read st -> 8192 + 16 <= size -> taken pg t ff (h, args) st = true).
  Proof.
    intros (ops & l & O & E & C & F & P & D). unfold taken. cbn [fst snd lstep].
    destruct (begin_spec pg t h args (l_sys st)) as [(cap & ptr & s' & Lg & Gc & Em & ->) | [[-> Nl] | (cap & r & s' & Lg & Gc & Em & N & ->)]]; cbn [l_jobs].
    - rewrite app_length. cbn [length]. destruct (Nat.ltb_spec (length (l_jobs st)) (length (l_jobs st) + 1)); [|lia].
      split; [intros _; exact Lg|]. split; [intros X; discriminate X|reflexivity].
    - rewrite Nat.ltb_irrefl. split; [intros X; discriminate X|]. split; [intros _; now destruct st|]. intros X. destruct (Nl X).
    - rewrite Nat.ltb_irrefl. split; [intros X; discriminate X|].
      destruct Gc as (G1 & _ & k & K & ->).
      assert (0 < 2 ^ k <= 2 ^ 13) as B by (split; [apply Z.pow_pos_nonneg; lia|apply Z.pow_le_mono_r; lia]).
      assert (2 ^ 13 = 8192) as B13 by reflexivity.
      assert (0 <= 2 ^ k < 2 ^ 64) as B2 by lia. split.
      + intros _. pose proof (results pg size p m ops (2 ^ k) 1 [] 0 Hs O B2 ltac:(lia)) as R. rewrite E in R. cbn [fst] in R. cbv zeta in R.
        destruct R as ([R | (q & s2 & R & _)] & _); rewrite Em in R; apply pair_equal_spec in R as [-> ->]; [now destruct st|destruct (N q eq_refl)].
      + intros _ Id Al Sz. destruct (each_idle _ _ _ C Id) as [_ Nr].
        pose proof (room pg size p m ops (2 ^ k) 1 Hs O B2 eq_refl) as R. rewrite E in R. cbv zeta in R. destruct R as (_ & R & _).
        destruct (R (conj Nr Al) ltac:(lia)) as (q & Q). rewrite Em in Q. cbn [fst] in Q. destruct (N q Q).
  Qed.
End Run.

(** * The theorems *)


Lemma logged pg t ff size p m ops : ring_size_ok size -> p mod 8 = 0 -> Forall (sound_op ff) ops ->
  let st := lruns pg t ff ops (linit size p m) in
  let cs := taken_calls pg t ff ops (linit size p m) in
  l_panic st = false /\ Forall (loggable t) cs /\ (exists n, Forall2 (said ff) (firstn n cs) (l_out st)) /\
  (idle st -> all_read st -> Forall2 (said ff) cs (l_out st)).
Proof.
  intros Hs Hp F st cs. apply (inv_said pg t ff size p m Hs). exact (inv_runs pg t ff size p m Hs Hp ops F _ [] (inv_init pg t ff size p m)).
Qed.
Lemma reserved pg t ff size p m ops h args : ring_size_ok size -> p mod 8 = 0 -> Forall (sound_op ff) ops ->
  let st := lruns pg t ff ops (linit size p m) in
  (taken pg t ff (h, args) st = true -> loggable t (h, args)) /\
  (taken pg t ff (h, args) st = false -> lstep pg t ff (LCall h args) st = st) /\
  (loggable t (h, args) -> idle st -> all_read st -> 8192 + 16 <= size -> taken pg t ff (h, args) st = true).
Proof.
  intros Hs Hp F st. apply (inv_taken pg t ff size p m Hs st (taken_calls pg t ff ops (linit size p m))).
  exact (inv_runs pg t ff size p m Hs Hp ops F _ [] (inv_init pg t ff size p m)).
Qed.

(** What the macros make of a format string can be logged. *)
Lemma formatted ff fs args vs h : wf_header h -> utf8 fs = true -> Forall wf_arg (given args) -> Forall (fun a => clashing a = false) (given args) ->
  expand fs args = Ok vs ->
  sound_call ff (h, vs) /\ exists frs m, parse fs = Ok frs /\ filled ff frs (given args) = Some m /\ forall x, said ff (h, vs) x <-> x = (h, m).
Proof.
  intros WH U WA C X. unfold expand in X. destruct (parse fs) as [frs|] eqn:P; [|discriminate].
  destruct (expand_filled ff _ _ _ X C) as [mm M]. pose proof (expand_message ff _ _ _ X None) as E. fold (given args) in E, M. rewrite M in E.
  split.
  - split; [exact WH|]. split; [|eauto]. eapply expand_wf; [exact X|eapply parse_utf8; eassumption|exact WA].
  - exists frs, mm. split; [reflexivity|]. split; [exact M|]. intros [h' m']. unfold said. cbn [fst snd]. rewrite E. split.
    + intros [-> Q]. apply some_inj in Q. now subst.
    + intros Q. apply pair_equal_spec in Q as [-> ->]. auto.
Qed.

(** * Finding the ring buffer *)

Lemma find_program id l : match find (fun p => lp_id p =? id) (filter_ok l) with
  | Some p => the_program id l p | None => forall p, ~ the_program id l p end.
Proof.
  induction l as [|[p|] l IH]; cbn [filter_ok find].
  - intros p H. inversion H.
  - destruct (Z.eqb_spec (lp_id p) id) as [<- | Ne]; [now constructor|].
    destruct (find _ (filter_ok l)) as [q|].
    + apply later_program; [intros x Ex; apply some_inj in Ex; now subst|exact IH].
    + intros q H. inversion H; subst; [contradiction|]. eapply IH; eassumption.
  - destruct (find _ (filter_ok l)) as [q|].
    + apply later_program; [intros x Ex; discriminate Ex|exact IH].
    + intros q H. inversion H; subst. eapply IH; eassumption.
Qed.
Lemma the_program_one id l p : the_program id l p -> forall q, the_program id l q -> q = p.
Proof.
  intros H. induction H as [p l E|x p l N H IH]; intros q Q; inversion Q as [q' l' E' El|x' q' l' N' Q' El]; subst.
  - reflexivity.
  - destruct (N' p eq_refl). reflexivity.
  - destruct (N q eq_refl). reflexivity.
  - apply IH. assumption.
Qed.
Lemma named_iff n : named_logs n = true <-> n = Some (txt "AYA_LOGS").
Proof.
  unfold named_logs. destruct n as [n|]; [|split; intros X; discriminate X]. rewrite str_eqb_eq. split; [intros ->; reflexivity|]. intros X. now apply some_inj in X.
Qed.
Lemma find_map k ids : match find (fun x => named_logs (snd x)) (filter_ok (map (fun i => match lk_name k i with Some n => Some (i, n) | None => None end) ids)) with
  | Some (i, _) => the_map k ids i | None => forall i, ~ the_map k ids i end.
Proof.
  induction ids as [|i ids IH]; cbn [map filter_ok find].
  - intros i H. inversion H.
  - destruct (lk_name k i) as [n|] eqn:N; cbn [filter_ok find snd].
    + destruct (named_logs n) eqn:L.
      * apply named_iff in L. subst n. constructor. exact N.
      * assert (lk_name k i <> Some (Some (txt "AYA_LOGS"))) as Ne. { rewrite N. intros X. apply some_inj in X. apply named_iff in X. congruence. }
        destruct (find _ _) as [[j n']|]; [now constructor|]. intros j H. inversion H; subst; [contradiction|]. eapply IH; eassumption.
    + assert (lk_name k i <> Some (Some (txt "AYA_LOGS"))) as Ne by (rewrite N; discriminate).
      destruct (find _ _) as [[j n']|]; [now constructor|]. intros j H. inversion H; subst; [contradiction|]. eapply IH; eassumption.
Qed.
Lemma the_map_one k ids i : the_map k ids i -> forall j, the_map k ids j -> j = i.
Proof.
  intros H. induction H as [i l E|i j l N H IH]; intros q Q; inversion Q as [q' l' E' El|x' q' l' N' Q' El]; subst; try contradiction; [reflexivity|].
  apply IH. assumption.
Qed.

Lemma from_id k id : match init_from_id k id with
  | Ok i => exists p ids, the_program id (lk_programs k) p /\ lp_maps p = Ok (Some ids) /\ the_map k ids i /\ lk_open k i = true
  | Err EProgramNotFound => forall p, ~ the_program id (lk_programs k) p
  | Err (EProgramError e) => exists p, the_program id (lk_programs k) p /\ lp_maps p = Err e
  | Err EMapNotFound => exists p, the_program id (lk_programs k) p /\
      (lp_maps p = Ok None \/ exists ids, lp_maps p = Ok (Some ids) /\ forall i, ~ the_map k ids i)
  | Err EMapError => exists p ids i, the_program id (lk_programs k) p /\ lp_maps p = Ok (Some ids) /\ the_map k ids i /\ lk_open k i = false
  end.
Proof.
  unfold init_from_id. pose proof (find_program id (lk_programs k)) as Fp. destruct (find _ (filter_ok (lk_programs k))) as [p|]; [|exact Fp].
  destruct (lp_maps p) as [[ids|]|e] eqn:M; [|eauto..].
  pose proof (find_map k ids) as Fm. destruct (find _ _) as [[i n]|]; [|eauto 10].
  destruct (lk_open k i) eqn:Op; [exists p, ids|exists p, ids, i]; auto.
Qed.
