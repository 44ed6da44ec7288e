(** Property theorems about wake-ups of the ring buffer reader (C02). *)
From Verif Require Import Base RingBufTso RingBufTsoProofs.

(** C02. In every reachable state of every interleaving: if [next()] has
    returned [None], the caller sleeps, and the record the reader would read
    next has been committed, then a notification is pending, or the committing
    producer is about to issue one (its next step does). *)
Theorem C02_no_lost_wakeup :
  forall n ls s h, truns true (tinit n) ls = Some s ->
  tpc s = PAsleep -> nth_error (st s) (tpos s) = Some h -> h <> HBusy ->
  ntf s = true \/
  (In (tpos s) (inflight s) /\
   exists s', tstep true s (LCheckNotify (tpos s)) = Some s' /\ ntf s' = true).
Proof. exact no_lost_wakeup. Qed.
Print Assumptions C02_no_lost_wakeup.

(** C02. Once the producers have finished their commits, a sleeping reader
    with a committed record in front of it has been notified. *)
Theorem C02_no_lost_wakeup_when_quiet :
  forall n ls s h, truns true (tinit n) ls = Some s ->
  tpc s = PAsleep -> inflight s = [] -> nth_error (st s) (tpos s) = Some h -> h <> HBusy ->
  ntf s = true.
Proof. exact no_lost_wakeup_quiet. Qed.
Print Assumptions C02_no_lost_wakeup_when_quiet.

(** C02. [next()] cannot block: its next instruction, or the draining of its
    store buffer, is always possible. *)
Theorem C02_next_never_blocks :
  forall n ls s, truns true (tinit n) ls = Some s -> tpc s <> PAsleep ->
  (exists s', tstep true s LReader = Some s') \/ (exists s', tstep true s LFlush = Some s').
Proof. exact reader_progress. Qed.
Print Assumptions C02_next_never_blocks.

(** C01 under weak memory: the records returned so far are exactly the
    submitted (not discarded) ones among those passed, in order. *)
Theorem C01_order_under_weak_memory :
  forall n ls s, truns true (tinit n) ls = Some s ->
  rev (got s) = filter (is_data (st s)) (seq n (tpos s - n)) ++
                (match tpc s with PHold => [tpos s] | _ => [] end).
Proof. exact tso_order. Qed.
Print Assumptions C01_order_under_weak_memory.

(** A schedule that reaches the situation the theorem speaks about. *)
Definition lost_schedule : list label :=
  [LReader; LReader;                                         (* empty: sleep *)
   LReserve; LPublish; LXchg 0 false; LCheckNotify 0; LWake; (* notified *)
   LReader; LReader; LReader; LReader;                       (* read record 0, drop it *)
   LReader; LReader; LReader;                                (* caught up: fence; load; sleep *)
   LReserve; LPublish; LXchg 1 false; LCheckNotify 1].
Definition good_schedule : list label :=
  [LReader; LReader;
   LReserve; LPublish; LXchg 0 false; LCheckNotify 0; LWake;
   LReader; LReader; LReader; LReader;
   LReader; LFlush; LReader; LReader;
   LReserve; LPublish; LXchg 1 false; LCheckNotify 1].
Example C02_demo :
  exists s, truns true (tinit 0) good_schedule = Some s /\
    tpc s = PAsleep /\ inflight s = [] /\ nth_error (st s) (tpos s) = Some HData /\ ntf s = true /\ got s = [0].
Proof. eexists. split; [vm_compute; reflexivity|]. vm_compute. auto 6. Qed.

(** The theorem depends on the fences: without them the same protocol loses a
    wake-up on [lost_schedule]. *)
Example C02_fence_is_needed :
  exists s, truns false (tinit 0) lost_schedule = Some s /\
    tpc s = PAsleep /\ inflight s = [] /\ nth_error (st s) (tpos s) = Some HData /\ ntf s = false.
Proof. eexists. split; [vm_compute; reflexivity|]. vm_compute. auto 6. Qed.
