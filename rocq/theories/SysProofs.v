(** Proofs about [SysModel]. *)
From Verif Require Import Base LogModel SysModel SysSpec.
Local Open Scope Z_scope.

(** * Loading with a verifier log *)

(** Capacity along the run. *)
Definition cap_of (i : nat) : Z := nth i log_sizes 20480000.

Lemma clamp_cap i : clamp MIN_LOG MAX_LOG (cap_of i * 10) = log_size (S i).
Proof. unfold cap_of, log_size, log_sizes, clamp. destruct i as [|[|[|[|[|[|i]]]]]]; vm_compute; try reflexivity; destruct i; reflexivity. Qed.

Lemma cap_grow i : (if log_size (S i) <=? cap_of i then cap_of i else Z.max (2 * cap_of i) (log_size (S i))) = cap_of (S i).
Proof. unfold cap_of, log_size, log_sizes. destruct i as [|[|[|[|[|[|i]]]]]]; vm_compute; try reflexivity; destruct i; reflexivity. Qed.

Lemma log_size_mono i : 0 <= log_size i <= log_size (S i) /\ log_size (S i) <= 16777215.
Proof. unfold log_size, log_sizes. destruct i as [|[|[|[|[|i]]]]]; cbn; try lia. destruct i; lia. Qed.

Lemma resize_length len v : 0 <= len -> Z.of_nat (length (v_bytes (resize len v))) = len.
Proof.
  intros H. unfold resize. cbn [v_bytes]. destruct (Z.leb_spec (Z.of_nat (length (v_bytes v))) len).
  - rewrite app_length, repeat_length. lia.
  - rewrite firstn_length. lia.
Qed.

Lemma zero_first_length l : length (zero_first l) = length l.
Proof. now destruct l. Qed.

Lemma loop_spec {T} (f : nat -> list Z -> res Z T * list Z) left : keeps f -> forall retries buf,
  v_cap buf = cap_of retries -> Z.of_nat (length (v_bytes buf)) = log_size retries -> (retries <> 0%nat -> hd_error (v_bytes buf) = Some 0) ->
  exists pre b, snd (retry_loop f left retries buf) = pre ++ [b] /\ (length pre <= left)%nat /\
    (forall i c, nth_error (pre ++ [b]) i = Some c -> Z.of_nat (length c) = log_size (retries + i) /\ ((retries + i)%nat <> 0%nat -> hd_error c = Some 0)) /\
    (forall i c, nth_error pre i = Some c -> exists e, fst (f (retries + i)%nat c) = Err e /\ ((retries + i)%nat = 0%nat \/ e = ENOSPC)) /\
    (length pre = left \/ (exists v, fst (f (retries + length pre)%nat b) = Ok v) \/
       (exists e, fst (f (retries + length pre)%nat b) = Err e /\ (retries + length pre)%nat <> 0%nat /\ e <> ENOSPC)) /\
    fst (retry_loop f left retries buf) =
      (let (ret, bytes) := f (retries + length pre)%nat b in if utf8 (until_zero bytes) then Some (ret, until_zero bytes) else None).
Proof.
  intros Kf. induction left as [|left IH]; intros retries buf Hc Hl Hz.
  - exists [], (v_bytes buf). cbn [retry_loop length app Nat.add]. rewrite Nat.add_0_r. destruct (f retries (v_bytes buf)) as [ret bytes] eqn:F.
    assert (forall i c, nth_error [v_bytes buf] i = Some c -> Z.of_nat (length c) = log_size (retries + i) /\ ((retries + i)%nat <> 0%nat -> hd_error c = Some 0)) as A.
    { intros [|[|i]] c H; cbn in H; try discriminate. apply some_inj in H. subst c. rewrite Nat.add_0_r. auto. }
    split; [destruct ret; reflexivity|]. split; [lia|]. split; [exact A|]. split; [intros i c H; destruct i; discriminate|]. split; [now left|]. now destruct ret.
  - cbn [retry_loop]. destruct (f retries (v_bytes buf)) as [ret bytes] eqn:F.
    assert (forall i c, nth_error [v_bytes buf] i = Some c -> Z.of_nat (length c) = log_size (retries + i) /\ ((retries + i)%nat <> 0%nat -> hd_error c = Some 0)) as A.
    { intros [|[|i]] c H; cbn in H; try discriminate. apply some_inj in H. subst c. rewrite Nat.add_0_r. auto. }
    destruct ret as [v|e].
    + exists [], (v_bytes buf). cbn [length app]. rewrite Nat.add_0_r, F. cbn [fst snd]. split; [reflexivity|]. split; [lia|]. split; [exact A|].
      split; [intros i c H; destruct i; discriminate|]. split; [right; left; now exists v|reflexivity].
    + destruct ((retries =? 0)%nat || (e =? ENOSPC)) eqn:Q.
      * cbv zeta. rewrite Hc, clamp_cap.
        set (buf' := resize (log_size (S retries)) {| v_bytes := bytes; v_cap := cap_of retries |}).
        pose proof (log_size_mono retries) as M.
        assert (v_cap buf' = cap_of (S retries)) as C' by (unfold buf', resize; cbn [v_cap]; apply cap_grow).
        assert (Z.of_nat (length (v_bytes buf')) = log_size (S retries)) as L' by (apply resize_length; lia).
        destruct (IH (S retries) {| v_bytes := zero_first (v_bytes buf'); v_cap := v_cap buf' |}) as (pre & b & E1 & E2 & E3 & E4 & E5 & E6).
        { exact C'. }
        { cbn [v_bytes]. now rewrite zero_first_length. }
        { intros _. cbn [v_bytes]. destruct (v_bytes buf') as [|x y] eqn:Eb; [|reflexivity]. cbn [length] in L'. exfalso.
          revert L'. unfold log_size, log_sizes. destruct retries as [|[|[|[|[|r]]]]]; cbn; try lia. }
        destruct (retry_loop f left (S retries) {| v_bytes := zero_first (v_bytes buf'); v_cap := v_cap buf' |}) as [r calls]. cbn [fst snd] in *.
        exists (v_bytes buf :: pre), b. split; [cbn [app]; now rewrite E1|]. split; [cbn [length]; lia|]. split.
        { intros [|i] c H; [apply A; exact H|]. cbn in H. specialize (E3 i c H). now replace (retries + S i)%nat with (S retries + i)%nat by lia. }
        split.
        { intros [|i] c H; [|cbn in H; specialize (E4 i c H); now replace (retries + S i)%nat with (S retries + i)%nat by lia].
          cbn in H. apply some_inj in H. subst c. rewrite Nat.add_0_r, F. exists e. split; [reflexivity|].
          apply orb_prop in Q as [Q|Q]; [left; now apply Nat.eqb_eq|right; now apply Z.eqb_eq]. }
        cbn [length]. replace (retries + S (length pre))%nat with (S retries + length pre)%nat by lia. split; [|exact E6].
        destruct E5 as [E5|E5]; [left; lia|right; exact E5].
      * exists [], (v_bytes buf). cbn [length app]. rewrite Nat.add_0_r, F. cbn [fst snd]. split; [reflexivity|]. split; [lia|]. split; [exact A|].
        split; [intros i c H; destruct i; discriminate|]. split; [|reflexivity]. right. right. exists e. apply orb_false_elim in Q as [Q1 Q2].
        split; [reflexivity|]. split; [now apply Nat.eqb_neq|now apply Z.eqb_neq].
Qed.

Lemma retry_spec {T} max (f : nat -> list Z -> res Z T * list Z) : keeps f ->
  exists pre b, snd (retry_with_verifier_logs max f) = pre ++ [b] /\ (length pre <= max)%nat /\
    (forall i c, nth_error (pre ++ [b]) i = Some c -> Z.of_nat (length c) = log_size i /\ (i <> 0%nat -> hd_error c = Some 0)) /\
    (forall i c, nth_error pre i = Some c -> exists e, fst (f i c) = Err e /\ (i = 0%nat \/ e = ENOSPC)) /\
    (length pre = max \/ (exists v, fst (f (length pre) b) = Ok v) \/
       (exists e, fst (f (length pre) b) = Err e /\ length pre <> 0%nat /\ e <> ENOSPC)) /\
    fst (retry_with_verifier_logs max f) =
      (let (ret, bytes) := f (length pre) b in if utf8 (until_zero bytes) then Some (ret, until_zero bytes) else None).
Proof.
  intros Kf. unfold retry_with_verifier_logs.
  destruct (loop_spec f max Kf 0%nat vec_new eq_refl eq_refl ltac:(congruence)) as (pre & b & H). exists pre, b. exact H.
Qed.

Lemma until_zero_text t rest : Forall (fun c => c <> 0) t -> until_zero (t ++ 0 :: rest) = t.
Proof.
  induction 1 as [|c t H _ IH]; [reflexivity|]. cbn [app until_zero]. destruct (Z.eqb_spec c 0); [contradiction|]. now rewrite IH.
Qed.

(** * Raising the memory limit *)

Lemma rlimit_spec {T} old errnos (op : bool -> nat -> res Z T) raised r raised' n :
  with_raised_rlimit_retry old errnos op raised = (r, raised', n) ->
  (n = 1%nat /\ r = op raised 0%nat /\ raised' = raised /\ (forall e, r = Err e -> old = false \/ ~ In e errnos)) \/
  (n = 2%nat /\ r = op true 1%nat /\ raised' = true /\ old = true /\ exists e, op raised 0%nat = Err e /\ In e errnos).
Proof.
  unfold with_raised_rlimit_retry. destruct (op raised 0%nat) as [v|e] eqn:E.
  - intros H. apply pair_equal_spec in H as [H Hn]. apply pair_equal_spec in H as [Hr Hra]. subst. left. repeat split; auto. discriminate.
  - destruct (old && existsb (Z.eqb e) errnos) eqn:Q; intros H; apply pair_equal_spec in H as [H Hn]; apply pair_equal_spec in H as [Hr Hra]; subst.
    + right. apply andb_prop in Q as [-> Q]. apply existsb_exists in Q as (x & I & X). apply Z.eqb_eq in X. subst x. repeat split; auto. now exists e.
    + left. repeat split; auto. intros e' H. assert (e' = e) by congruence. subst e'. apply andb_false_iff in Q as [->|Q]; [now left|right].
      intros I. rewrite <- not_true_iff_false in Q. apply Q. apply existsb_exists. exists e. split; [exact I|apply Z.eqb_refl].
Qed.

(** * Feature probes *)

Lemma slot_beq_eq a b : slot_beq a b = true <-> a = b.
Proof. split; [apply internal_slot_dec_bl|apply internal_slot_dec_lb]. Qed.
Lemma set_cell_eq s c f : set_cell s c f s = c.
Proof. unfold set_cell. now rewrite (proj2 (slot_beq_eq s s) eq_refl). Qed.
Lemma set_cell_ne s c f s' : s <> s' -> set_cell s c f s' = f s'.
Proof. intros H. unfold set_cell. destruct (slot_beq s s') eqn:E; [apply slot_beq_eq in E; contradiction|reflexivity]. Qed.
Lemma set_thread_eq t x f : set_thread t x f t = x.
Proof. unfold set_thread. now rewrite Nat.eqb_refl. Qed.
Lemma set_thread_ne t x f t' : t <> t' -> set_thread t x f t' = f t'.
Proof. intros H. unfold set_thread. destruct (Nat.eqb_spec t t'); [contradiction|reflexivity]. Qed.

(** The cells, the threads filling them and the probes run agree. *)
Lemma probe_beq_eq a b : probe_beq a b = true <-> a = b.
Proof. split; [apply internal_probe_dec_bl|apply internal_probe_dec_lb]. Qed.

Record pinv (st : pstate) : Prop := {
  i_empty : forall s, p_cells st s = Empty -> ran (slot_probe s) st = [];
  i_running : forall s t, p_cells st s = Running t -> ran (slot_probe s) st = [] /\
    t_phase (p_threads st t) = PhProbe /\ exists f rest, t_todo (p_threads st t) = f :: rest /\ feature_slot f = s;
  i_ready : forall s v, p_cells st s = Ready v -> ran (slot_probe s) st = [v];
  i_probe : forall t, t_phase (p_threads st t) = PhProbe -> exists f rest, t_todo (p_threads st t) = f :: rest /\ p_cells st (feature_slot f) = Running t;
  i_done : forall t f a, In (f, a) (t_done (p_threads st t)) -> exists v, p_cells st (feature_slot f) = Ready v /\ a = answer v }.

Lemma slot_probe_inj a b : slot_probe a = slot_probe b -> a = b.
Proof. destruct a, b; cbn; congruence. Qed.

Lemma pinv_start ask : pinv (pstart ask).
Proof. constructor; cbn; intros; try discriminate; try contradiction; reflexivity. Qed.

Lemma ran_other p q v runs cells threads : p <> q ->
  ran p {| p_cells := cells; p_threads := threads; p_runs := (q, v) :: runs |} = ran p {| p_cells := cells; p_threads := threads; p_runs := runs |}.
Proof.
  intros H. unfold ran. cbn [p_runs filter fst]. destruct (probe_beq q p) eqn:E; [apply probe_beq_eq in E; congruence|reflexivity].
Qed.
Lemma ran_same p v runs cells threads :
  ran p {| p_cells := cells; p_threads := threads; p_runs := (p, v) :: runs |} = v :: ran p {| p_cells := cells; p_threads := threads; p_runs := runs |}.
Proof. unfold ran. cbn [p_runs filter fst]. now rewrite (proj2 (probe_beq_eq p p) eq_refl). Qed.

Lemma pinv_step a b : pinv a -> pstep a b -> pinv b.
Proof.
  intros I St. destruct I as [Ie Ir Iy Ip Id]. destruct St as [st t f rest v Ht Hp Hc|st t f rest Ht Hp Hc|st t f rest v Ht Hp].
  - constructor; cbn [p_cells p_threads p_runs].
    + exact Ie.
    + intros s t' H. destruct (Ir s t' H) as (A & B & C). split; [exact A|]. destruct (Nat.eq_dec t t') as [<-|N]; [congruence|].
      now rewrite set_thread_ne.
    + exact Iy.
    + intros t' H. destruct (Nat.eq_dec t t') as [<-|N]; [rewrite set_thread_eq in H; discriminate|]. rewrite set_thread_ne in * by exact N. now apply Ip.
    + intros t' g a H. destruct (Nat.eq_dec t t') as [<-|N].
      * rewrite set_thread_eq in H. cbn [t_done] in H. destruct H as [H|H]; [apply pair_equal_spec in H as [-> <-]; now exists v|now apply (Id t)].
      * rewrite set_thread_ne in H by exact N. now apply (Id t').
  - constructor; cbn [p_cells p_threads p_runs].
    + intros s H. destruct (slot_eq_dec (feature_slot f) s) as [<-|N]; [rewrite set_cell_eq in H; discriminate|]. rewrite set_cell_ne in H by exact N. now apply Ie.
    + intros s t' H. destruct (slot_eq_dec (feature_slot f) s) as [<-|N].
      * rewrite set_cell_eq in H. assert (t' = t) by congruence. subst t'. rewrite set_thread_eq. cbn [t_phase t_todo]. split; [now apply Ie|]. split; [reflexivity|]. now exists f, rest.
      * rewrite set_cell_ne in H by exact N. destruct (Ir s t' H) as (A & B & C). split; [exact A|].
        destruct (Nat.eq_dec t t') as [<-|N']; [congruence|]. now rewrite set_thread_ne.
    + intros s v H. destruct (slot_eq_dec (feature_slot f) s) as [<-|N]; [rewrite set_cell_eq in H; discriminate|]. rewrite set_cell_ne in H by exact N. now apply Iy.
    + intros t' H. destruct (Nat.eq_dec t t') as [<-|N].
      * rewrite set_thread_eq. cbn [t_todo]. exists f, rest. split; [reflexivity|apply set_cell_eq].
      * rewrite set_thread_ne in * by exact N. destruct (Ip t' H) as (g & r & A & B). exists g, r. split; [exact A|].
        rewrite set_cell_ne; [exact B|]. intros E. rewrite <- E in B. congruence.
    + intros t' g a H.
      assert (exists v, p_cells st (feature_slot g) = Ready v /\ a = answer v) as (v & A & B).
      { destruct (Nat.eq_dec t t') as [<-|N]; [rewrite set_thread_eq in H; now apply (Id t)|rewrite set_thread_ne in H by exact N; now apply (Id t')]. }
      exists v. split; [|exact B]. rewrite set_cell_ne; [exact A|]. intros E. rewrite <- E in A. congruence.
  - destruct (Ip t Hp) as (f' & rest' & A & B). assert (f' = f /\ rest' = rest) as [-> ->] by (split; congruence).
    destruct (Ir _ _ B) as (R0 & _). constructor; cbn [p_cells p_threads p_runs].
    + intros s H. destruct (slot_eq_dec (feature_slot f) s) as [<-|N]; [rewrite set_cell_eq in H; discriminate|]. rewrite set_cell_ne in H by exact N.
      rewrite ran_other; [now apply Ie|]. intros E. apply slot_probe_inj in E. congruence.
    + intros s t' H. destruct (slot_eq_dec (feature_slot f) s) as [<-|N]; [rewrite set_cell_eq in H; discriminate|]. rewrite set_cell_ne in H by exact N.
      destruct (Ir s t' H) as (C & D & E). split; [rewrite ran_other; [exact C|]; intros E'; apply slot_probe_inj in E'; congruence|].
      destruct (Nat.eq_dec t t') as [<-|N']; [|now rewrite set_thread_ne].
      exfalso. destruct E as (g & r & E1 & E2). assert (g = f) by congruence. subst g. contradiction.
    + intros s w H. destruct (slot_eq_dec (feature_slot f) s) as [<-|N].
      * rewrite set_cell_eq in H. assert (w = v) by congruence. subst w. rewrite ran_same. f_equal. exact R0.
      * rewrite set_cell_ne in H by exact N. rewrite ran_other; [now apply Iy|]. intros E. apply slot_probe_inj in E. congruence.
    + intros t' H. destruct (Nat.eq_dec t t') as [<-|N]; [rewrite set_thread_eq in H; discriminate|]. rewrite set_thread_ne in * by exact N.
      destruct (Ip t' H) as (g & r & C & D). exists g, r. split; [exact C|]. rewrite set_cell_ne; [exact D|]. intros E. rewrite E in B. congruence.
    + intros t' g a H. destruct (Nat.eq_dec t t') as [<-|N].
      * rewrite set_thread_eq in H. cbn [t_done] in H. destruct H as [H|H].
        -- apply pair_equal_spec in H as [-> <-]. exists v. split; [apply set_cell_eq|reflexivity].
        -- destruct (Id t g a H) as (w & C & D). exists w. split; [|exact D]. rewrite set_cell_ne; [exact C|]. intros E. rewrite E in B. congruence.
      * rewrite set_thread_ne in H by exact N. destruct (Id t' g a H) as (w & C & D). exists w. split; [|exact D]. rewrite set_cell_ne; [exact C|]. intros E. rewrite E in B. congruence.
Qed.

Lemma pinv_reach ask st : psteps (pstart ask) st -> pinv st.
Proof.
  intros H. remember (pstart ask) as a eqn:E. induction H as [|a b c H IH St]; subst; [apply pinv_start|]. eapply pinv_step; [|exact St]. now apply IH.
Qed.

Lemma ran_once ask st p : psteps (pstart ask) st -> (length (ran p st) <= 1)%nat.
Proof.
  intros H. apply pinv_reach in H. destruct H as [Ie Ir Iy _ _].
  assert (exists s, slot_probe s = p) as [s <-].
  { destruct p; [exists s_bpf_name|exists s_bpf_probe_read_kernel|exists s_bpf_perf_link|exists s_bpf_global_data|exists s_bpf_cookie|exists s_cpumap_prog_id|exists s_devmap_prog_id|exists s_btf
    |exists s_func|exists s_func_global|exists s_datasec|exists s_datasec_zero|exists s_float|exists s_decl_tag|exists s_type_tag|exists s_enum64]; reflexivity. }
  destruct (p_cells st s) as [|t|v] eqn:E; [rewrite (Ie s E)|destruct (Ir s t E) as [-> _]|rewrite (Iy s v E)]; cbn; lia.
Qed.

Lemma done_answer ask st t f a : psteps (pstart ask) st -> In (f, a) (t_done (p_threads st t)) ->
  exists v, ran (slot_probe (feature_slot f)) st = [v] /\ a = answer v.
Proof.
  intros H I. apply pinv_reach in H. destruct (i_done st H t f a I) as (v & A & B). exists v. split; [now apply (i_ready st H)|exact B].
Qed.

(** A thread that still has a question is never stuck while nobody else is
    filling its cell. *)
Lemma progress ask st t f rest : psteps (pstart ask) st -> t_todo (p_threads st t) = f :: rest ->
  (exists st', pstep st st') .
Proof.
  intros H Ht. apply pinv_reach in H. destruct (t_phase (p_threads st t)) eqn:Ph.
  - destruct (p_cells st (feature_slot f)) as [|t'|v] eqn:C.
    + eexists. eapply PClaim; eassumption.
    + destruct (i_running st H _ _ C) as (_ & B & g & r & D & _). eexists. eapply (PFill st t' g r (Ok true)); eassumption.
    + eexists. eapply PRead; eassumption.
  - eexists. eapply (PFill st t f rest (Ok true)); eassumption.
Qed.

(** * What the properties say *)

Lemma question_ok f : slot_probe (feature_slot f) = question f.
Proof. now destruct f. Qed.

(** The number and the sizes of the calls. *)
Lemma retry_bounded {T} max (f : nat -> list Z -> res Z T * list Z) : keeps f ->
  let calls := snd (retry_with_verifier_logs max f) in
  (1 <= length calls <= S max)%nat /\
  (forall i c, nth_error calls i = Some c -> Z.of_nat (length c) = log_size i /\ (i <> 0%nat -> hd_error c = Some 0)) /\
  (forall i, 0 <= log_size i <= log_size (S i) /\ log_size (S i) <= 16777215).
Proof.
  intros Kf calls. destruct (retry_spec max f Kf) as (pre & b & E1 & E2 & E3 & _). unfold calls. rewrite E1. split; [rewrite app_length; cbn; lia|]. split; [exact E3|exact log_size_mono].
Qed.

(** The outcome: every call but the last failed, and failed for the log; the
    last one is returned, and it succeeded unless it failed for another reason
    or the calls were used up. *)
Lemma retry_outcome {T} max (f : nat -> list Z -> res Z T * list Z) : keeps f ->
  exists pre b, snd (retry_with_verifier_logs max f) = pre ++ [b] /\
    (forall i c, nth_error pre i = Some c -> exists e, fst (f i c) = Err e /\ (i = 0%nat \/ e = ENOSPC)) /\
    (forall r log, fst (retry_with_verifier_logs max f) = Some (r, log) -> r = fst (f (length pre) b) /\
       (forall e, r = Err e -> length pre = max \/ (length pre <> 0%nat /\ e <> ENOSPC))) /\
    (forall text, writes text b (snd (f (length pre) b)) -> utf8 text = true ->
       fst (retry_with_verifier_logs max f) = Some (fst (f (length pre) b), text)) /\
    (snd (f (length pre) b) = b -> fst (retry_with_verifier_logs max f) = Some (fst (f (length pre) b), [])).
Proof.
  intros Kf. destruct (retry_spec max f Kf) as (pre & b & E1 & E2 & E3 & E4 & E5 & E6). exists pre, b. split; [exact E1|]. split; [exact E4|]. rewrite E6.
  assert (nth_error (pre ++ [b]) (length pre) = Some b) as Hb by (rewrite nth_error_app2, Nat.sub_diag; [reflexivity|lia]).
  destruct (E3 _ _ Hb) as [Lb Zb]. destruct (f (length pre) b) as [ret bytes] eqn:F. cbn [fst snd] in *. split; [|split].
  - intros r log H. destruct (utf8 (until_zero bytes)); [|discriminate]. apply some_inj, pair_equal_spec in H as [<- _]. split; [reflexivity|].
    intros e He. destruct E5 as [E5|[(v & E5)|(e' & E5 & A & B)]]; [now left|congruence|right]. split; [exact A|congruence].
  - intros text (Ht & rest & -> & _) U. rewrite until_zero_text by exact Ht. now rewrite U.
  - intros ->. destruct (Nat.eq_dec (length pre) 0) as [Z|N].
    + rewrite Z in Lb. destruct b as [|x b]; [reflexivity|]. cbn [length] in Lb. change (log_size 0) with 0 in Lb. lia.
    + specialize (Zb N). destruct b as [|x b]; [discriminate|]. cbn in Zb. apply some_inj in Zb. subst x. reflexivity.
Qed.

(** A log that is not UTF-8: the retry loop panics and the error is lost. *)
Definition latin (i : nat) (b : list Z) : res Z unit * list Z :=
  (Err 22, match b with _ :: _ :: b => 255 :: 0 :: b | _ => b end).
Lemma retry_panic : keeps latin /\ (forall i b, (2 <= length b)%nat -> writes [255] b (snd (latin i b))) /\ fst (retry_with_verifier_logs 10 latin) = None.
Proof.
  split; [|split].
  - intros i [|x [|y b]]; reflexivity.
  - intros i [|x [|y b]] H; cbn [length] in H; try lia. split; [repeat constructor; lia|]. now exists b.
  - vm_compute. reflexivity.
Qed.

(** All answers to the same question are the same, at any point of any
    interleaving, also by different threads. *)
Lemma answers_agree ask st t t' f a a' : psteps (pstart ask) st ->
  In (f, a) (t_done (p_threads st t)) -> In (f, a') (t_done (p_threads st t')) -> a = a'.
Proof.
  intros H I I'. destruct (done_answer _ _ _ _ _ H I) as (v & A & ->). destruct (done_answer _ _ _ _ _ H I') as (v' & A' & ->). congruence.
Qed.
Lemma answer_of ask st t f a : psteps (pstart ask) st -> In (f, a) (t_done (p_threads st t)) ->
  ran (question f) st = [Ok a] \/ (a = false /\ exists e, ran (question f) st = [Err e]).
Proof.
  intros H I. destruct (done_answer _ _ _ _ _ H I) as (v & A & ->). rewrite question_ok in A. destruct v as [b|e]; [now left|right]. split; [reflexivity|now exists e].
Qed.

(** Two steps of a run never change an answer already given. *)
Lemma psteps_trans a b c : psteps a b -> psteps b c -> psteps a c.
Proof. intros H1 H2. revert H1. induction H2; [auto|]. intros H1. eapply PStep; [|eassumption]. auto. Qed.
Lemma answers_stable st st' t f a : psteps st st' -> In (f, a) (t_done (p_threads st t)) -> In (f, a) (t_done (p_threads st' t)).
Proof.
  intros H. induction H as [|x b c H IH St]; [auto|]. intros I. specialize (IH I).
  destruct St as [st t' g rest v Ht Hp Hc|st t' g rest Ht Hp Hc|st t' g rest v Ht Hp]; cbn [p_threads]; (destruct (Nat.eq_dec t' t) as [->|N]; [rewrite set_thread_eq|rewrite set_thread_ne by exact N; exact IH]); cbn [t_done]; auto with datatypes.
Qed.
