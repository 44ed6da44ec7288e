(** Claims about ring buffers between programs and user space. *)
From Verif Require Import Base RingBufModel RingBufSpec RingBufProofs EmitModel EmitSpec EmitProofs EmitProofs2 EmitProofs3.
Import ListNotations.
Local Open Scope Z_scope.

(** * C94: what programs submit to a ring buffer is what user space reads *)

(** Whatever calls programs and user space make, in whatever order: user space
    has got a beginning of what was submitted, in the order of reservation, and
    all of it once there is nothing more to read. *)
Theorem C94_delivered : forall pg size p m ops, ring_size_ok size -> eops_ok pg ops (init size p m, []) ->
  let (s, l) := eruns pg ops (init size p m, []) in
  (exists rest, Forall2 agrees (due l) (delivered s ++ rest)) /\
  (snd (step s ONextIter) = Some RNone -> Forall2 agrees (due l) (delivered s)) /\
  snd (step s ONextIter) <> Some RPanic.
Proof. exact sent_delivered. Qed.
Print Assumptions C94_delivered.

(** The memory of an entry is aligned to 8 bytes, as long as was asked for, keeps
    what is stored, and is shared with no other entry that is open. *)
Theorem C94_area : forall pg size p m ops, ring_size_ok size -> p mod 8 = 0 -> eops_ok pg ops (init size p m, []) ->
  let (s, l) := eruns pg ops (init size p m, []) in
  (forall ptr a, In a l -> open_at ptr a = true ->
     ptr mod 8 = 0 /\ 8 <= ptr /\ ptr + Z.of_nat (length (s_bytes a)) <= 2 * size /\
     agrees (s_bytes a) (rd_range size (mem (shared s)) ptr (length (s_bytes a)))) /\
  (forall i j p1 p2 a1 a2 x y, nth_error l i = Some a1 -> nth_error l j = Some a2 -> i <> j -> open_at p1 a1 = true -> open_at p2 a2 = true ->
     (x < length (s_bytes a1))%nat -> (y < length (s_bytes a2))%nat -> (p1 + Z.of_nat x) mod size <> (p2 + Z.of_nat y) mod size).
Proof. exact open_area. Qed.
Print Assumptions C94_area.
(** So it is aligned for every type [reserve] accepts. *)
Theorem C94_aligned : forall ptr align, 0 < align -> ptr mod 8 = 0 -> 8 mod align = 0 -> ptr mod align = 0.
Proof. exact aligned_for. Qed.
Print Assumptions C94_aligned.

(** Reserving and sending fail only for lack of room, and if everything was read
    there is room for all that ever fits. *)
Theorem C94_room : forall pg size p m ops len align, ring_size_ok size -> eops_ok pg ops (init size p m, []) -> 0 <= len < 2 ^ 64 -> 8 mod align = 0 ->
  let (s, l) := eruns pg ops (init size p m, []) in
  let given c := exists ptr, fst (emit pg c s) = EEntry ptr in
  let sends data := fst (emit pg (EOutput data align 0) s) = EOk in
  let empty := (forall a, In a l -> s_status a <> Reserved) /\ snd (step s ONextIter) = Some RNone in
  (given (EReserveBytes len 0) -> len + 16 <= size) /\ (empty -> len + 16 <= size -> given (EReserveBytes len 0)) /\
  (given (EReserve len align 0) <-> given (EReserveBytes len 0)) /\
  (forall data, Z.of_nat (length data) = len -> (sends data <-> given (EReserveBytes len 0))).
Proof. exact room. Qed.
Print Assumptions C94_room.

(** What the methods give; failing calls change nothing. *)
Theorem C94_results : forall pg size p m ops len align data flags,
  ring_size_ok size -> eops_ok pg ops (init size p m, []) -> 0 <= len < 2 ^ 64 -> 0 < align ->
  let s := fst (eruns pg ops (init size p m, [])) in
  let bytes := emit pg (EReserveBytes len flags) s in
  let typed := emit pg (EReserve len align flags) s in
  let out := emit pg (EOutput data align flags) s in
  (bytes = (ENone, s) \/ exists ptr s', bytes = (EEntry ptr, s') /\ flags = 0) /\
  (typed = bytes /\ aligned align \/ typed = (EPanic, s) /\ ~ aligned align) /\
  (aligned align -> out = (EErr (-22), s) /\ ~ 0 <= flags < 4 \/ out = (EErr (-11), s) /\ 0 <= flags < 4 \/ (exists s', out = (EOk, s')) /\ 0 <= flags < 4) /\
  (~ aligned align -> out = (EPanic, s)).
Proof. exact results. Qed.
Print Assumptions C94_results.

(** Two entries open at once, one discarded, in a ring of 64 bytes. *)
Definition some_ops : list eop :=
  [EProg (EReserveBytes 2 0); EProg (EReserve 4 4 0); EProg (EWrite 24 0 7); EProg (EWrite 24 3 9); EProg (EWrite 8 1 5); EProg (ESubmit 24 0); ENext;
   EProg (ESubmit 8 0); EProg (EOutput [1; 2; 3] 1 0); EProg (EReserveBytes 40 0); ENext; EDrop; ENext; EDrop; EProg (EReserveBytes 1 0); EProg (EDiscard 56 0);
   ENext; EDrop; ENext; ENext].
Example C94_some : ring_size_ok 64 /\ eops_ok (fun _ => 0) some_ops (init 64 0 (fun _ => 0), []) /\
  due (snd (eruns (fun _ => 0) some_ops (init 64 0 (fun _ => 0), []))) = [[None; Some 5]; [Some 7; None; None; Some 9]; [Some 1; Some 2; Some 3]] /\
  delivered (fst (eruns (fun _ => 0) some_ops (init 64 0 (fun _ => 0), []))) = [[0; 5]; [7; 0; 0; 9]; [1; 2; 3]] /\
  snd (step (fst (eruns (fun _ => 0) some_ops (init 64 0 (fun _ => 0), []))) ONextIter) = Some RNone.
Proof.
  split; [exists 6; lia|]. split; [|vm_compute; auto]. cbn [eops_ok some_ops eop_ok ecall_ok snd].
  repeat match goal with |- _ /\ _ => split end; try exact I; try lia;
    vm_compute; eexists;
    first [solve [split; [left; reflexivity|]; repeat split; lia] | solve [split; [right; left; reflexivity|]; repeat split; lia] |
           solve [split; [do 3 right; left; reflexivity|]; repeat split; lia]].
Qed.
