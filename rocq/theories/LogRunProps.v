(** Claims about logging as a whole. *)
From Coq Require Import String.
From Verif Require Import Base Text LogModel LogFmtModel LogSpec LogProofs LogFmtProofs RingBufModel RingBufSpec EmitModel EmitSpec LogRunModel LogRunSpec LogRunProofs LogRunProofs2.
Local Open Scope Z_scope.

(** * C107: what programs log is what the logger is given *)

(** Whatever programs log, from any number of processors at once, and whenever
    user space reads: [flush] returns, the logger is given a beginning of what was
    logged, each call once, in the order of the reservations, with its header and
    its message; and all of it once the calls have come to their end and nothing
    is left to read. *)
Theorem C107_logged : forall pg t ff size p m ops, ring_size_ok size -> p mod 8 = 0 -> Forall (sound_op ff) ops ->
  let st := lruns pg t ff ops (linit size p m) in
  let cs := taken_calls pg t ff ops (linit size p m) in
  l_panic st = false /\ Forall (loggable t) cs /\ (exists n, Forall2 (said ff) (firstn n cs) (l_out st)) /\
  (idle st -> all_read st -> Forall2 (said ff) cs (l_out st)).
Proof. exact logged. Qed.
Print Assumptions C107_logged.

(** A call that is not logged changes nothing; one of a level that is let through
    and not too long is logged if all before was read. *)
Theorem C107_reserved : forall pg t ff size p m ops h args, ring_size_ok size -> p mod 8 = 0 -> Forall (sound_op ff) ops ->
  let st := lruns pg t ff ops (linit size p m) in
  (taken pg t ff (h, args) st = true -> loggable t (h, args)) /\
  (taken pg t ff (h, args) st = false -> lstep pg t ff (LCall h args) st = st) /\
  (loggable t (h, args) -> idle st -> all_read st -> 8192 + 16 <= size -> taken pg t ff (h, args) st = true).
Proof. exact reserved. Qed.
Print Assumptions C107_reserved.

(** The ring buffer of the library is such a one. *)
Theorem C107_ring : ring_size_ok RING_BYTES /\ 8192 + 16 <= RING_BYTES.
Proof. split; [exists 17; split; [lia|reflexivity]|vm_compute; intros X; discriminate X]. Qed.
Print Assumptions C107_ring.

(** The message of a call is its format string filled in. *)
Theorem C107_formatted : forall ff fs args vs h, wf_header h -> utf8 fs = true -> Forall wf_arg (given args) ->
  Forall (fun a => clashing a = false) (given args) -> expand fs args = Ok vs ->
  sound_call ff (h, vs) /\ exists frs m, parse fs = Ok frs /\ filled ff frs (given args) = Some m /\ forall x, said ff (h, vs) x <-> x = (h, m).
Proof. exact formatted. Qed.
Print Assumptions C107_formatted.

(** Attaching to the logs of a program that is loaded takes the first map named
    AYA_LOGS among its maps; maps that cannot be looked at are passed over. *)
Theorem C107_from_id : forall k id, match init_from_id k id with
  | Ok i => exists p ids, the_program id (lk_programs k) p /\ lp_maps p = Ok (Some ids) /\ the_map k ids i /\ lk_open k i = true
  | Err EProgramNotFound => forall p, ~ the_program id (lk_programs k) p
  | Err (EProgramError e) => exists p, the_program id (lk_programs k) p /\ lp_maps p = Err e
  | Err EMapNotFound => exists p, the_program id (lk_programs k) p /\
      (lp_maps p = Ok None \/ exists ids, lp_maps p = Ok (Some ids) /\ forall i, ~ the_map k ids i)
  | Err EMapError => exists p ids i, the_program id (lk_programs k) p /\ lp_maps p = Ok (Some ids) /\ the_map k ids i /\ lk_open k i = false
  end.
Proof. exact from_id. Qed.
Print Assumptions C107_from_id.
(** There is at most one of each. *)
Theorem C107_from_id_one : forall k id l ids,
  (forall p q, the_program id l p -> the_program id l q -> q = p) /\ (forall i j, the_map k ids i -> the_map k ids j -> j = i).
Proof. intros k id l ids. split; [exact (fun p q H => the_program_one id l p H q)|exact (fun i j H => the_map_one k ids i H j)]. Qed.
Print Assumptions C107_from_id_one.

(** Two processors log at once; the second is done first, nothing is read before
    the first is done; a call of a level not let through in between. *)
Definition some_header (l : level) : lheader := {| lh_target := txt "t"; lh_level := l; lh_module := txt "m"; lh_file := txt "f.rs"; lh_line := 7 |}.
Definition some_call1 : lop := LCall (some_header LInfo) [AStr (txt "x = "); AHint HLowerHex; AUint W8 255].
Definition some_call2 : lop := LCall (some_header LError) [AStr (txt "bad")].
Definition some_call3 : lop := LCall (some_header LTrace) [AStr (txt "fine")].
Definition some_run : list lop :=
  [some_call1; some_call2; LWork 0; some_call3] ++ repeat (LWork 1) 80 ++ [LNext; LNext] ++ repeat (LWork 0) 80 ++ [LNext; LNext; LDrop; LNext; LDrop].
Definition some_ff : nat -> list Z -> list Z := fun _ b => b.
Definition some_end : logging := lruns (fun _ => 0) 3 some_ff some_run (linit RING_BYTES 0 (fun _ => 0)).
Example C107_some : Forall (sound_op some_ff) some_run /\
  l_out some_end = [(some_header LInfo, txt "x = ff"); (some_header LError, txt "bad")] /\ forallb (fun j => match j with [] => true | _ => false end) (l_jobs some_end) = true /\
  snd (step (l_sys some_end) ONextIter) = Some RNone.
Proof.
  split; [|vm_compute; auto]. unfold some_run. rewrite !Forall_app. split; [|split; [|split; [|split]]].
  - repeat constructor; try (eexists; vm_compute; reflexivity); cbn; lia.
  - apply Forall_forall. intros x Hx. apply repeat_spec in Hx. subst x. exact I.
  - repeat constructor.
  - apply Forall_forall. intros x Hx. apply repeat_spec in Hx. subst x. exact I.
  - repeat constructor.
Qed.
(** A map of another name, one that cannot be looked at, then the ring buffer. *)
Definition some_lkernel : lkernel :=
  {| lk_programs := [None; Some {| lp_id := 3; lp_maps := Err 1 |}; Some {| lp_id := 4; lp_maps := Ok (Some [10; 11; 12; 13]) |}];
     lk_name := fun i => if i =? 10 then Some (Some (txt "OTHER")) else if i =? 11 then None else if i =? 12 then Some None else Some (Some (txt "AYA_LOGS")); lk_open := fun _ => true |}.
Example C107_some_from_id : init_from_id some_lkernel 4 = Ok 13 /\ init_from_id some_lkernel 3 = Err (EProgramError 1) /\ init_from_id some_lkernel 5 = Err EProgramNotFound.
Proof. vm_compute. auto. Qed.
