(** C46, C50. *)
From Verif Require Import Base LogModel SysModel SysSpec SysProofs.
Local Open Scope Z_scope.

(** * C46: the verifier log retry loop is bounded and faithful *)

(** At least one call and at most one more than the retries; the buffers have
    the sizes of [log_size], which never shrink nor exceed what the kernel
    takes, and start with a zero byte. *)
Theorem C46_bounded : forall T max (f : nat -> list Z -> res Z T * list Z), keeps f ->
  let calls := snd (retry_with_verifier_logs max f) in
  (1 <= length calls <= S max)%nat /\
  (forall i c, nth_error calls i = Some c -> Z.of_nat (length c) = log_size i /\ (i <> 0%nat -> hd_error c = Some 0)) /\
  (forall i, 0 <= log_size i <= log_size (S i) /\ log_size (S i) <= 16777215).
Proof. exact @retry_bounded. Qed.

(** The calls before the last all failed; the outcome is that of the last
    call, with the text that call wrote.  It is an error only when the calls
    were used up or when it does not ask for a larger buffer. *)
Theorem C46_outcome : forall T max (f : nat -> list Z -> res Z T * list Z), keeps f ->
  exists pre b, snd (retry_with_verifier_logs max f) = pre ++ [b] /\
    (forall i c, nth_error pre i = Some c -> exists e, fst (f i c) = Err e /\ (i = 0%nat \/ e = ENOSPC)) /\
    (forall r log, fst (retry_with_verifier_logs max f) = Some (r, log) -> r = fst (f (length pre) b) /\
       (forall e, r = Err e -> length pre = max \/ (length pre <> 0%nat /\ e <> ENOSPC))) /\
    (forall text, writes text b (snd (f (length pre) b)) -> utf8 text = true ->
       fst (retry_with_verifier_logs max f) = Some (fst (f (length pre) b), text)) /\
    (snd (f (length pre) b) = b -> fst (retry_with_verifier_logs max f) = Some (fst (f (length pre) b), [])).
Proof. exact @retry_outcome. Qed.

(** A log that is not UTF-8 makes the loop panic: neither the error nor the
    log of the last attempt is returned. *)
Theorem C46_log_refuted : keeps latin /\ (forall i b, (2 <= length b)%nat -> writes [255] b (snd (latin i b))) /\
  fst (retry_with_verifier_logs 10 latin) = None.
Proof. exact retry_panic. Qed.

(** Each of the calls is at most two system calls: the second only on a kernel
    before 5.11, after an error the memory limit can cause. *)
Theorem C46_memory_limit : forall T old errnos (op : bool -> nat -> res Z T) raised r raised' n,
  with_raised_rlimit_retry old errnos op raised = (r, raised', n) ->
  (n = 1%nat /\ r = op raised 0%nat /\ raised' = raised /\ (forall e, r = Err e -> old = false \/ ~ In e errnos)) \/
  (n = 2%nat /\ r = op true 1%nat /\ raised' = true /\ old = true /\ exists e, op raised 0%nat = Err e /\ In e errnos).
Proof. exact @rlimit_spec. Qed.

(** The hypotheses can be met: a kernel that rejects and logs "no". *)
Example C46_example :
  let f (i : nat) b := (@Err Z unit 22, match b with _ :: _ :: _ :: b => 110 :: 111 :: 0 :: b | _ => b end) in
  keeps f /\ fst (retry_with_verifier_logs 10 f) = Some (Err 22, [110; 111]) /\ length (snd (retry_with_verifier_logs 10 f)) = 2%nat.
Proof. split; [intros i [|x [|y [|z b]]]; reflexivity|split; vm_compute; reflexivity]. Qed.

(** * C50: feature probes *)

(** At any point of any interleaving of any number of threads asking any
    questions, each probe has been run at most once. *)
Theorem C50_once : forall ask st p, psteps (pstart ask) st -> (length (ran p st) <= 1)%nat.
Proof. exact ran_once. Qed.

(** Every answer given is the result of the probe of the feature asked for,
    a failed probe counting as unsupported. *)
Theorem C50_answer : forall ask st t f a, psteps (pstart ask) st -> In (f, a) (t_done (p_threads st t)) ->
  ran (question f) st = [Ok a] \/ (a = false /\ exists e, ran (question f) st = [Err e]).
Proof. exact answer_of. Qed.

(** All threads get the same answer, also at different times. *)
Theorem C50_same : forall ask st t t' f a a', psteps (pstart ask) st ->
  In (f, a) (t_done (p_threads st t)) -> In (f, a') (t_done (p_threads st t')) -> a = a'.
Proof. exact answers_agree. Qed.
Theorem C50_stable : forall st st' t f a, psteps st st' -> In (f, a) (t_done (p_threads st t)) -> In (f, a) (t_done (p_threads st' t)).
Proof. exact answers_stable. Qed.

(** While a thread has a question left some thread can move. *)
Theorem C50_progress : forall ask st t f rest, psteps (pstart ask) st -> t_todo (p_threads st t) = f :: rest -> exists st', pstep st st'.
Proof. exact progress. Qed.

(** Two threads asking for the same feature: one runs the probe. *)
Example C50_example : let ask t := match t with O => [Btf] | S O => [Btf] | _ => [] end in
  exists st, psteps (pstart ask) st /\ t_done (p_threads st 0) = [(Btf, true)] /\ t_done (p_threads st 1) = [(Btf, true)] /\ ran PBtf st = [Ok true].
Proof.
  intros ask. eexists. split.
  - eapply PStep; [eapply PStep; [eapply PStep; [apply PRefl|]|]|].
    + eapply (PClaim _ 0 Btf []); reflexivity.
    + eapply (PFill _ 0 Btf [] (Ok true)); reflexivity.
    + eapply (PRead _ 1 Btf [] (Ok true)); reflexivity.
  - split; [reflexivity|]. split; reflexivity.
Qed.

Print Assumptions C46_bounded.
Print Assumptions C46_outcome.
Print Assumptions C46_log_refuted.
Print Assumptions C46_memory_limit.
Print Assumptions C50_once.
Print Assumptions C50_answer.
Print Assumptions C50_same.
Print Assumptions C50_stable.
Print Assumptions C50_progress.
