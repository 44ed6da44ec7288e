(** Property theorems about the ring buffer reader (C01, C03). *)
From Verif Require Import Base RingBufModel RingBufSpec RingBufProofs.
Local Open Scope Z_scope.

(** C01. Whatever eBPF and user space did, in any interleaving, the items
    handed out so far are the payloads of the first submitted records, in
    order, none skipped, duplicated or altered; and records behind one that is
    still being written are not handed out. *)
Theorem C01_items_are_prefix_of_submitted :
  forall size p m ops, ring_size_ok size ->
  let s := run (init size p m) ops in
  exists rest, payloads (settled (log s)) = delivered s ++ rest.
Proof.
  intros size p m ops H. cbn zeta. destruct (inv_reach size p m ops H) as (k & mm & I).
  exact (delivered_prefix _ _ _ _ I).
Qed.
Print Assumptions C01_items_are_prefix_of_submitted.

(** C01. [None] is returned only when every submitted record in front of the
    first unfinished one has been handed out. *)
Theorem C01_none_means_drained :
  forall size p m ops s', ring_size_ok size ->
  step (run (init size p m) ops) ONextIter = (s', Some RNone) ->
  delivered s' = payloads (settled (log s')).
Proof.
  intros size p m ops s' H Hs. destruct (inv_reach size p m ops H) as (k & mm & I).
  exact (proj1 (none_complete _ _ _ _ s' I Hs)).
Qed.
Print Assumptions C01_none_means_drained.

(** C01. [next()] on a ring that is not being written to meanwhile returns
    after at most [2 * reservations + 2] loop iterations, and returns the
    first payload not handed out yet, or [None] if there is none. *)
Theorem C01_next_returns_the_next_record :
  forall size p m ops, ring_size_ok size ->
  let s := run (init size p m) ops in
  holding s = None ->
  exists c' m' r,
    next size (2 * length (log s) + 2) (reader s) (shared s) = Some (c', m', r) /\
    match nth_error (payloads (settled (log s))) (length (delivered s)) with
    | Some d => r = RItem d
    | None => r = RNone
    end.
Proof.
  exact next_reach.
Qed.
Print Assumptions C01_next_returns_the_next_record.

(** C01. No read leaves the mapped data pages (the bounds panic is dead). *)
Theorem C01_never_out_of_bounds :
  forall size p m ops, ring_size_ok size ->
  snd (step (run (init size p m) ops) ONextIter) <> Some RPanic.
Proof.
  intros size p m ops H. destruct (inv_reach size p m ops H) as (k & mm & I).
  exact (no_panic _ _ _ _ I).
Qed.
Print Assumptions C01_never_out_of_bounds.

(** C03. While user space holds an item, the memory behind it keeps the bytes
    that were submitted, whatever the producer does meanwhile. *)
Theorem C03_held_item_is_not_overwritten :
  forall size p m ops d, ring_size_ok size ->
  let s := run (init size p m) ops in
  holding s = Some d ->
  rd_range size (mem (shared s)) (pos (reader s) + HDR_SZ) (length d) = d /\
  last (delivered s) [] = d.
Proof.
  exact held_reach.
Qed.
Print Assumptions C03_held_item_is_not_overwritten.

(** C03. The published consumer position trails the producer position by less
    than the ring size (64-bit wrap included). *)
Theorem C03_consumer_never_overtakes :
  forall size p m ops, ring_size_ok size ->
  let s := run (init size p m) ops in
  0 <= u64 (ppos (shared s) - cpos (shared s)) < sz s /\
  (cpos (shared s) = ppos (shared s) -> payloads (settled (log s)) = delivered s).
Proof.
  intros size p m ops H. cbn zeta. destruct (inv_reach size p m ops H) as (k & mm & I).
  exact (overtake _ _ _ _ I).
Qed.
Print Assumptions C03_consumer_never_overtakes.

(** The hypotheses are met: a run on a 64-byte ring whose positions start just
    below the 64-bit wrap, with a discarded record, an unfinished one and a
    record split over the end of the ring. *)
Definition demo_ops : list op :=
  [OReserve 12 [1;0;0;0]; OReserve 4 [2;0;0;0]; OReserve 5 [3;0;0;0];
   OWrite 2 0 65; OWrite 2 4 66; OCommit 2 false; OCommit 0 true;
   ONextIter; ONextIter; OWrite 1 3 7; OCommit 1 false;
   ONextIter; ODrop; ONextIter].
Example C01_demo :
  let s := run (init 64 (2 ^ 64 - 40) (fun _ => 9)) demo_ops in
  delivered s = [[9; 9; 9; 7]; [65; 9; 9; 9; 66]] /\ holding s = Some [65; 9; 9; 9; 66] /\
  pos (reader s) = 0 /\ length (log s) = 3%nat /\ ring_size_ok 64.
Proof. repeat split; try reflexivity. exists 6. split; [lia|reflexivity]. Qed.

(** Outside [ring_size_ok]: with the largest ring the kernel accepts (2 GiB)
    the length mask contains the discard bit, so a discarded record makes the
    reader jump 1 GiB ahead and deliver bytes nobody submitted. *)
Theorem C01_two_gib_ring_refuted :
  exists ops,
  let s := run (init (2 ^ 31) 0 (fun _ => 0)) ops in
  ~ (exists rest, payloads (settled (log s)) = delivered s ++ rest).
Proof.
  exists [OReserve 8 []; OCommit 0 true; OReserve 8 []; OCommit 1 false; ONextIter; ONextIter].
  cbn zeta. intros [rest H].
  assert (E : hd [1] (payloads (settled (log (run (init (2 ^ 31) 0 (fun _ => 0))
     [OReserve 8 []; OCommit 0 true; OReserve 8 []; OCommit 1 false; ONextIter; ONextIter])))) = repeat 0 8) by (vm_compute; reflexivity).
  rewrite H in E. vm_compute in E. discriminate E.
Qed.
Print Assumptions C01_two_gib_ring_refuted.
