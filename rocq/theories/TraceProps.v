(** C106: programs at trace points, and iterators. *)
From Coq Require Import String.
From Verif Require Import Base Text TextParse TextSplit LogModel TraceModel TraceSpec TraceProofs TraceProofs2 TraceProofs3 TraceProofs4.
Local Open Scope Z_scope.

(** After any calls, what runs and what is open is what is held, and what was
    there before them. *)
Theorem C106_accounts k0 k t : sound k0 -> steps (k0, []) (k, t) -> accounts k0 k t.
Proof. exact (steps_account k0 k t). Qed.
Print Assumptions C106_accounts.

(** Attaching works, by a link where there are such links, when the trace point
    has a number and the kernel refuses nothing. *)
Theorem C106_works e g category name id k : sound k -> plain category -> plain name -> 0 <= id < 2 ^ 64 -> numbered e category name id -> no_failure k ->
  exists l k', attach_trace_point e (Some g) category name k = (Ok l, k') /\ (match l with LFd _ => true | LPerf _ => false end) = e_perf_link e.
Proof. exact (attach_works e g category name id k). Qed.
Print Assumptions C106_works.

(** Errors have their reasons. *)
Theorem C106_errors e g category name k x k' : sound k -> plain category -> plain name -> attach_trace_point e g category name k = (Err x, k') -> why e g category name k x.
Proof. exact (attach_why e g category name k x k'). Qed.
Print Assumptions C106_errors.

(** Iterators attach, and become files that give what the program writes. *)
Theorem C106_iter g k : no_failure k -> exists l k', attach_iter (Some g) k = (Ok l, k').
Proof. exact (iter_works g k). Qed.
Print Assumptions C106_iter.
Theorem C106_file k0 k a l g b : sound k0 -> steps (k0, []) (k, a ++ HIter l g :: b) -> no_failure k -> exists fd k', into_file l k = (Ok fd, k') /\ gives k' fd g.
Proof. exact (file_works k0 k a l g b). Qed.
Print Assumptions C106_file.

(** * Examples *)

Definition here : env := {|
  e_tracefs := fun d => str_eqb d (txt "/sys/kernel/debug/tracing");
  e_files := fun f => if str_eqb f (txt "/sys/kernel/debug/tracing/events/sched/sched_switch/id") then Some (txt "314" ++ [10]) else if str_eqb f (txt "/tmp/sched_switch/id") then Some (txt "7") else None;
  e_perf_link := true; e_cookie := true |}.
Definition older : env := {| e_tracefs := e_tracefs here; e_files := e_files here; e_perf_link := false; e_cookie := false |}.
Definition start : kernel := {| k_perfs := []; k_links := []; k_fds := []; k_next := 3; k_fail := [] |}.

Example start_sound : sound start /\ no_failure start.
Proof. split; [|constructor]. constructor; cbn [start k_fds k_links k_perfs map]; try contradiction; [constructor|]. intros n l m H. destruct n; discriminate H. Qed.
Example switch_numbered : numbered here (txt "sched") (txt "sched_switch") 314 /\ plain (txt "sched") /\ plain (txt "sched_switch").
Proof.
  split; [|split; apply plain_const; (reflexivity || discriminate)]. exists (txt "/sys/kernel/debug/tracing"). split; [split; [reflexivity|right; split; reflexivity]|reflexivity].
Qed.
Definition after_link : kernel := snd (attach_trace_point here (Some 9) (txt "sched") (txt "sched_switch") start).
Example attaches : attach_trace_point here (Some 9) (txt "sched") (txt "sched_switch") start = (Ok (LFd 4), after_link) /\ k_fds after_link = [(4, OLink 0)] /\
  runs after_link (ByLink 0) 9 314 None /\ k_fds (detach (LFd 4) after_link) = [].
Proof.
  split; [vm_compute; reflexivity|]. split; [vm_compute; reflexivity|]. split; [|vm_compute; reflexivity]. split.
  - exists 4. left. vm_compute. now left.
  - exists 0%nat, {| pf_id := 314; pf_prog := None; pf_on := true |}. vm_compute. repeat split.
Qed.
Example attaches_older : fst (attach_trace_point older (Some 9) (txt "sched") (txt "sched_switch") start) = Ok (LPerf 3).
Proof. vm_compute. reflexivity. Qed.
Example fails_cleanly : let k := {| k_perfs := []; k_links := []; k_fds := []; k_next := 3; k_fail := [false; false; true] |} in
  let '(r, k') := attach_trace_point older (Some 9) (txt "sched") (txt "sched_switch") k in r = Err (ESyscall (txt "PERF_EVENT_IOC_ENABLE")) /\ k_fds k' = [].
Proof. vm_compute. repeat split. Qed.
Example iterates : let '(r, k) := attach_iter (Some 9) start in r = Ok (LFd 3) /\ let '(r, k) := into_file (LFd 3) k in r = Ok 4 /\ k_fds k = [(4, OIter 0)].
Proof. vm_compute. repeat split. Qed.
(** Many calls, as [steps]. *)
Example a_history : exists k, steps (start, []) (k, [HPoint (LFd 4) 9 314; HFile 6 10]).
Proof.
  destruct switch_numbered as (N & P1 & P2).
  pose (k1 := after_link). pose (k2 := snd (attach_iter (Some 10) k1)). pose (k3 := snd (into_file (LFd 5) k2)). exists k3.
  apply (ss_more _ (k2, [HPoint (LFd 4) 9 314; HIter (LFd 5) 10])).
  - apply (ss_more _ (k1, [HPoint (LFd 4) 9 314])).
    + apply (ss_more _ (start, [])); [constructor|]. apply (s_attach here 9 (txt "sched") (txt "sched_switch") 314 start [] (LFd 4)); [exact P1|exact P2|lia|exact N|]. vm_compute. reflexivity.
    + apply (s_iter 10 k1 [HPoint (LFd 4) 9 314] (LFd 5)). vm_compute. reflexivity.
  - apply (s_file k2 [HPoint (LFd 4) 9 314] (LFd 5) 10 [] 6). vm_compute. reflexivity.
Qed.
(** A category that is an absolute path is read from elsewhere, since joining
    an absolute path replaces what is before it. *)
Example absolute_category : fst (attach_trace_point here (Some 9) (txt "/tmp") (txt "sched_switch") start) = Ok (LFd 4) /\
  map pf_id (k_perfs (snd (attach_trace_point here (Some 9) (txt "/tmp") (txt "sched_switch") start))) = [7].
Proof. vm_compute. repeat split. Qed.
