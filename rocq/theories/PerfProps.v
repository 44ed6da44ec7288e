(** Property theorems C04 and C05: the perf buffer reader. *)
From Verif Require Import Base RingBufModel RingBufSpec RingBufProofs PerfModel PerfSpec PerfProofs PerfProofs2.
Local Open Scope Z_scope.

(** C04: one call of [try_fold] with any callback.  Whatever position the
    records start at, the callback sees exactly their contents in order,
    unknown records are skipped, and exactly the records read are released;
    the rest is still in the buffer behind the new tail. *)
Theorem C04_one_read_of_any_stream :
  forall size, perf_size_ok size ->
  forall (B C : Type) (f : C -> pevent -> flow B C) mems rs pos fuel acc,
    pos mod 8 = 0 -> Forall (fun r => prec_ok r = true) rs -> tlen rs <= size ->
    (forall j, holds size (mems j) pos rs) -> (length rs <= fuel)%nat ->
    exists used rest o,
      try_fold f fuel size mems (u64 (pos + tlen rs)) (u64 pos) acc =
        (match used with [] => None | _ => Some (u64 (pos + tlen used)) end, o) /\
      folds f rs acc used rest o /\ used ++ rest = rs /\
      (forall j, holds size (mems j) (pos + tlen used) rest).
Proof. intros size H B C. exact (@try_fold_spec size H B C). Qed.
Print Assumptions C04_one_read_of_any_stream.

(** C04: any history of kernel writes (also in the middle of a read) and
    reads, from any start position: no read leaves the buffer, what has been
    delivered is a prefix of what was written, and the tail is right behind it. *)
Theorem C04_every_history :
  forall size m start ops,
    perf_size_ok size -> start mod 8 = 0 -> 0 <= start < 2 ^ 64 ->
    let s := prun (pinit size m start) ops in
    p_bad s = false /\
    exists n, (n <= length (p_log s))%nat /\
      map ev_view (p_out s) = views (firstn n (p_log s)) /\
      p_tail s = u64 (start + tlen (firstn n (p_log s))).
Proof. exact perf_history. Qed.
Print Assumptions C04_every_history.

(** C04: a read that is not stopped delivers everything written before it. *)
Theorem C04_complete_read :
  forall size m start ops w,
    perf_size_ok size -> start mod 8 = 0 -> 0 <= start < 2 ^ 64 ->
    let s := prun (pinit size m start) ops in
    map ev_view (p_out (pstep s (PFold (fun _ => true) w))) = views (p_log s).
Proof. exact perf_drain. Qed.
Print Assumptions C04_complete_read.

(** C04: the sizes [open] accepts are the ones the theorems cover. *)
Theorem C04_open_accepts_only_good_sizes :
  forall k page_count size, 12 <= k <= 16 -> page_count <= 2 ^ 24 ->
    open_size (2 ^ k) page_count = Some size -> perf_size_ok size.
Proof.
  intros k c size Hk Hc. unfold open_size, is_pow2.
  destruct ((0 <? c) && (c =? 2 ^ Z.log2 c)) eqn:E; [|discriminate].
  intros H. injection H as <-. apply andb_true_iff in E. destruct E as [E1 E2].
  apply Z.eqb_eq in E2. pose proof (Z.log2_nonneg c).
  assert (Z.log2 c <= 24).
  { change 24 with (Z.log2 (2 ^ 24)). apply Z.log2_le_mono. exact Hc. }
  exists (k + Z.log2 c). split; [lia|]. rewrite E2 at 1. rewrite <- Z.pow_add_r by lia. reflexivity.
Qed.
Print Assumptions C04_open_accepts_only_good_sizes.

(** C05: a callback that stops after the [k]-th event consumes exactly the
    next [k] events, and a later complete read delivers exactly the others. *)
Theorem C05_stop_after_k :
  forall size m start ops k w,
    perf_size_ok size -> start mod 8 = 0 -> 0 <= start < 2 ^ 64 -> (0 < k)%nat ->
    let s := prun (pinit size m start) ops in
    let s' := pstep s (PFold (fun l => (length l <? k)%nat) w) in
    exists unread es,
      views (p_log s) = map ev_view (p_out s) ++ unread /\
      p_out s' = p_out s ++ es /\
      map ev_view es = firstn k unread /\
      (forall w', exists later,
          p_out (pstep s' (PFold (fun _ => true) w')) = p_out s' ++ later /\
          views (p_log s') = map ev_view (p_out s') ++ map ev_view later).
Proof. exact perf_stop. Qed.
Print Assumptions C05_stop_after_k.

(** C05: a callback that stops, or unwinds, at its first event consumes
    exactly that event (and the unknown records before it). *)
Theorem C05_break_or_unwind_keeps_the_rest :
  forall size, perf_size_ok size ->
  forall (B C : Type) (f : C -> pevent -> flow B C) mems skipped r rs pos fuel acc,
    pos mod 8 = 0 -> Forall (fun r => prec_ok r = true) (skipped ++ r :: rs) ->
    tlen (skipped ++ r :: rs) <= size ->
    (forall j, holds size (mems j) pos (skipped ++ r :: rs)) ->
    (length (skipped ++ r :: rs) <= fuel)%nat ->
    views skipped = [] -> rec_view r <> None ->
    (forall e, (exists b, f acc e = Break b) \/ f acc e = Unwind) ->
    fst (try_fold f fuel size mems (u64 (pos + tlen (skipped ++ r :: rs))) (u64 pos) acc) =
      Some (u64 (pos + tlen (skipped ++ [r]))) /\
    (forall j, holds size (mems j) (pos + tlen (skipped ++ [r])) rs).
Proof.
  intros size H B C f mems sk r rs pos fuel acc H1 H2 H3 H4 H5 Hsk Hr Hf.
  destruct (try_fold_spec size H f mems _ pos fuel acc H1 H2 H3 H4 H5) as (used & rest & o & E & F & A & G).
  assert (used = sk ++ [r] /\ rest = rs) as [Eu Er].
  { clear - F Hsk Hr Hf. revert used rest F. induction sk as [|x sk IH]; intros used rest F; cbn [app] in *.
    - inversion F; subst; auto; try congruence.
      match goal with H : f acc ?e = Go _ |- _ => destruct (Hf e) as [[b Hb]|Hb]; congruence end.
    - unfold views in Hsk. cbn [flat_map] in Hsk.
      destruct (rec_view x) eqn:Ex; [discriminate|]. cbn [app] in Hsk.
      inversion F; subst; try congruence.
      match goal with H : folds f (sk ++ r :: rs) _ ?u _ _ |- _ => destruct (IH Hsk u rest H) as [-> ->] end. auto. }
  subst used rest. rewrite E. cbn [fst]. split.
  - destruct sk; reflexivity.
  - exact G.
Qed.
Print Assumptions C05_break_or_unwind_keeps_the_rest.

(** C05: nothing to read, nothing written. *)
Theorem C05_empty_buffer_is_left_alone :
  forall (B C : Type) (f : C -> pevent -> flow B C) fuel size mems h acc,
    try_fold f fuel size mems h h acc = (None, FDone acc).
Proof.
  intros. unfold try_fold. destruct fuel; cbn [fold_loop]; rewrite !Z.eqb_refl; reflexivity.
Qed.
Print Assumptions C05_empty_buffer_is_left_alone.

(** A history in which records wrap around the end of a 64-byte buffer (the
    payload is split), the positions wrap around 2^64, an unknown record is
    skipped and the reader stops early. *)
Definition ex_ops : list pop :=
  [PWrite (RSample 0 [1;2;3] [0]); PWrite (ROther 7 0 [9;9;9;9;9;9;9;9]);
   PWrite (RLost 0 5 4294967297 []);
   PFold (fun l => (length l <? 1)%nat) [[]; [RSample 0 [10;11;12;13;14;15;16;17;18;19;20;21] []]];
   PFold (fun _ => true) [];
   PWrite (RSample 0 [10;11;12;13;14;15;16;17;18;19;20;21;22;23;24;25;26;27;28;29] []);
   PFold (fun _ => true) [[RSample 1 [77] [0;0;0]]]].
Example C04_case :
  let s := prun (pinit 64 (fun _ => 255) (2 ^ 64 - 16)) ex_ops in
  map ev_view (p_out s) = [VSample [1;2;3]; VLost 4294967297; VSample [10;11;12;13;14;15;16;17;18;19;20;21;22;23;24;25;26;27;28;29]] /\
  p_out s = [Sample [1;2;3] []; Lost 4294967297; Sample [10;11;12;13;14;15;16;17;18;19;20;21] [22;23;24;25;26;27;28;29]] /\
  length (p_log s) = 5%nat.
Proof. vm_compute. repeat split; reflexivity. Qed.
Example C04_size_case : open_size 4096 2 = Some 8192 /\ open_size 4096 3 = None.
Proof. split; reflexivity. Qed.
