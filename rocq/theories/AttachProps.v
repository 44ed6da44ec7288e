(** The properties C33, C34 and C47. *)
From Verif Require Import Base AttachModel AttachSpec AttachProofs AttachProofs2 AttachProofs3 AttachProofs4.
Local Open Scope Z_scope.

(** * C33: attachments are detached exactly once *)

(** An attachment made by a call is made once, and at any time either the
    request to detach it was made, once, or one link stands for it, or it was
    given up; never two of these.  Nothing else is ever asked for. *)
Theorem C33_once : forall l t a, reached l t ->
  (asked a t + cnt a (held t) + cnt a (map fst (s_lost t)) = made_call a t /\ made_call a t <= 1)%nat.
Proof. exact once. Qed.
Print Assumptions C33_once.

(** Until that request it stays attached; not where a second program replaces
    the first (see [C33_single_refuted]). *)
Theorem C33_stays_partial : forall l t m a, reached l t -> In (MadeCall m a) (s_log t) -> m <> MSingle -> asked a t = 0%nat ->
  In a (map sl_att (s_slots t)) /\ gone a t = 0%nat.
Proof. exact stays. Qed.
Print Assumptions C33_stays_partial.

(** The request works, and removes nothing else, unless the kernel fails, or
    the program is named by a stale descriptor (see [C33_xdp_refuted]). *)
Theorem C33_effective_partial : forall l t n x r c,
  reached l t -> take_nth n (s_owned t) = Some (x, r) -> l_base x = BCall c -> c_mode c <> MSingle -> fst (ask t) = false -> c_raw c = false \/ fd_good c t = true ->
  let q := step (ODetachLink n) t in fst q = Ok tt /\ gone (c_att c) (snd q) = 1%nat /\ (forall b, b <> c_att c -> gone b (snd q) = gone b t) /\
  s_slots (snd q) = filter (fun e => negb (sl_att e =? c_att c)) (s_slots t).
Proof. exact detach_link_works. Qed.
Print Assumptions C33_effective_partial.

(** A BPF link goes exactly when no descriptor and no pin refers to it. *)
Theorem C33_links : forall l t a, reached l t -> made_link a t = 1%nat ->
  (gone a t = 1%nat <-> ~ (exists fd, In (fd, a) (s_fds t)) /\ ~ (exists p, In (p, a) (s_pins t))).
Proof. exact link_refs. Qed.
Print Assumptions C33_links.

(** Every open descriptor has one holder; nobody holds a closed one. *)
Theorem C33_descriptors : forall l t fd, reached l t -> (cnt fd (held_fds t) <= 1)%nat /\ (In fd (held_fds t) <-> In fd (map fst (s_fds t))).
Proof. exact fd_one_holder. Qed.
Print Assumptions C33_descriptors.

Theorem C33_gone_once : forall l t a, reached l t -> (gone a t <= 1)%nat.
Proof. exact gone_once. Qed.
Print Assumptions C33_gone_once.

(** When nothing is held any more, everything that was not given up was asked
    for, and all BPF links without pin are gone. *)
Theorem C33_drained : forall l t a, reached l t -> bases_of t = [] ->
  (made_call a t = 1%nat -> ~ In a (map fst (s_lost t)) -> asked a t = 1%nat) /\
  (made_link a t = 1%nat -> ~ (exists p, In (p, a) (s_pins t)) -> gone a t = 1%nat).
Proof. exact all_done. Qed.
Print Assumptions C33_drained.

(** Without lirc links, conversions that fail and [attach_to_link], only what
    the caller took out of its link is given up. *)
Theorem C33_released_partial : forall l t a r, reached l t -> Forall careful l -> In (a, r) (s_lost t) -> r = Released.
Proof. exact no_leak. Qed.
Print Assumptions C33_released_partial.

Definition two : list prog := [from_object; from_object].
Lemma two_start : start (initial [] two). Proof. exists [], two. split; [reflexivity|]. repeat constructor. Qed.
Ltac honest_ops := repeat (constructor; [cbn [honest real]; try exact I; repeat split; try discriminate; try congruence|]); constructor.
Lemma two_reached l : Forall honest l -> reached l (run l (initial [] two)). Proof. intros H. split; [exact H|]. exists (initial [] two). split; [exact two_start|reflexivity]. Qed.

(** A link made by a call that is turned into an [FdLink] in vain is neither
    returned nor detached. *)
Definition try_fd : list op := [OLoad 0; OAttach 0 (AsCall MMulti 7 true false true); OTake 0 (KDup 102); OTryFd 0].
Lemma try_fd_honest : Forall honest try_fd. Proof. honest_ops. Qed.
Theorem C33_try_fd_refuted : exists l t a, reached l t /\ made_call a t = 1%nat /\ bases_of t = [] /\ asked a t = 0%nat /\ In a (map sl_att (s_slots t)) /\ In (a, Leaked) (s_lost t).
Proof. exists try_fd, (run try_fd (initial [] two)), 101. split; [exact (two_reached _ try_fd_honest)|]. vm_compute. auto 10. Qed.
Print Assumptions C33_try_fd_refuted.

(** A lirc link taken out and dropped is not detached. *)
Definition lirc : list op := [OLoad 0; OAttach 0 (AsCall MMulti 7 true false false); OTake 0 (KDup 102); ODropLink 0].
Lemma lirc_honest : Forall honest lirc. Proof. honest_ops. Qed.
Theorem C33_lirc_refuted : exists l t a, reached l t /\ made_call a t = 1%nat /\ bases_of t = [] /\ asked a t = 0%nat /\ In a (map sl_att (s_slots t)) /\ In (a, Leaked) (s_lost t).
Proof. exists lirc, (run lirc (initial [] two)), 101. split; [exact (two_reached _ lirc_honest)|]. vm_compute. auto 10. Qed.
Print Assumptions C33_lirc_refuted.

(** An xdp link made by netlink that outlives its program cannot be detached. *)
Definition xdp : list op := [OLoad 0; OAttach 0 (AsCall MExclusive 7 false true true); OTake 0 (KPlace MExclusive 7); OUnload 0; ODropLink 0].
Lemma xdp_honest : Forall honest xdp. Proof. honest_ops. Qed.
Theorem C33_xdp_refuted : exists l t a, reached l t /\ asked a t = 1%nat /\ gone a t = 0%nat /\ In a (map sl_att (s_slots t)) /\ bases_of t = [] /\ s_fail t = [].
Proof. exists xdp, (run xdp (initial [] two)), 101. split; [exact (two_reached _ xdp_honest)|]. vm_compute. auto 10. Qed.
Print Assumptions C33_xdp_refuted.

(** Where a second program replaces the first, dropping the first link detaches
    the second program, whose link is still held. *)
Definition single : list op := [OLoad 0; OLoad 1; OAttach 0 (AsCall MSingle 7 true false true); OAttach 1 (AsCall MSingle 7 true false true); ODetach 0 (KDup 103)].
Lemma single_honest : Forall honest single. Proof. honest_ops. Qed.
Theorem C33_single_refuted : exists l t a, reached l t /\ In a (held t) /\ asked a t = 0%nat /\ gone a t = 1%nat.
Proof. exists single, (run single (initial [] two)), 104. split; [exact (two_reached _ single_honest)|]. vm_compute. auto 10. Qed.
Print Assumptions C33_single_refuted.

(** A history with pins, wrapping and failing calls. *)
Definition long : list op :=
  [OLoad 0; OAttach 0 AsLink; OTake 0 (KFd 102); OInto 0; OPin 0 5; ODropPinned 0; OFromPin 5; OUnpin 0; OWrap 0; OAttach 0 (AsCall MExclusive 7 false false true); ODetach 0 (KPlace MExclusive 7); ODropLink 0; ODropProg 0].
Lemma long_honest : Forall honest long /\ Forall careful long. Proof. split; [honest_ops|repeat (constructor; [cbn; auto|]); constructor]. Qed.
Example C33_example : let t := run long (initial [] two) in reached long t /\ made_link 101 t = 1%nat /\ gone 101 t = 1%nat /\ made_call 104 t = 1%nat /\ asked 104 t = 1%nat /\ gone 104 t = 1%nat /\ bases_of t = [] /\ s_lost t = [].
Proof. split; [exact (two_reached _ (proj1 long_honest))|]. vm_compute. repeat split. Qed.
Example C33_effective_example : let l := [OLoad 0; OAttach 0 (AsCall MMulti 7 true false true); OTake 0 (KDup 102)] in let t := run l (initial [] two) in
  Forall honest l /\ exists x r c, take_nth 0 (s_owned t) = Some (x, r) /\ l_base x = BCall c /\ c_mode c <> MSingle /\ fst (ask t) = false /\ c_raw c = false.
Proof. split; [honest_ops|]. eexists _, _, _. split; [vm_compute; reflexivity|]. split; [cbn [l_base]; reflexivity|]. repeat split. cbn. discriminate. Qed.

(** * C34: a failed attach changes nothing *)

Theorem C34_attach : forall l t i h x u, reached l t -> real h -> step (OAttach i h) t = (Err x, u) -> same_state t u.
Proof. exact attach_error_step. Qed.
Print Assumptions C34_attach.
(** Success means that the program was loaded, the attachment was made and the
    link to it is kept under the identifier returned. *)
Theorem C34_attach_done : forall l i h s k t, reached l s -> attach i h s = (Ok k, t) ->
  fst (ask s) = false /\ p_fd (prog_at i s) <> None /\ exists x, In x (p_links (prog_at i t)) /\ base_key (l_base x) = k /\ newest (l_base x) t.
Proof. exact attach_done. Qed.
Print Assumptions C34_attach_done.

(** [attach_to_link] of a program that is not loaded detaches the link it was
    given. *)
Definition unloaded : list op := [OLoad 0; OAttach 0 (AsCall MExclusive 7 false false true); OTake 0 (KPlace MExclusive 7)].
Lemma unloaded_honest : Forall honest unloaded. Proof. honest_ops. Qed.
Theorem C34_to_link_refuted : exists l t o x u a, reached l t /\ step o t = (Err x, u) /\ live a t /\ In a (held t) /\ ~ live a u /\ ~ In a (held u).
Proof.
  exists unloaded, (run unloaded (initial [] two)), (OToLink 1 0), ENotLoaded, (snd (step (OToLink 1 0) (run unloaded (initial [] two)))), 101. split; [exact (two_reached _ unloaded_honest)|].
  split; [vm_compute; reflexivity|]. split; [right; vm_compute; auto|]. split; [vm_compute; auto|]. split; [intros [H|H]; vm_compute in H; [discriminate|contradiction]|]. intros H; vm_compute in H; contradiction.
Qed.
Print Assumptions C34_to_link_refuted.

(** If the kernel refuses, the link it was given is lost but attached. *)
Theorem C34_to_link_leak_refuted : exists l t o x u a, reached l t /\ step o t = (Err x, u) /\ live a t /\ In a (held t) /\ live a u /\ ~ In a (held u) /\ In (a, Leaked) (s_lost u).
Proof.
  exists (unloaded ++ [OLoad 1]), (run (unloaded ++ [OLoad 1]) (initial [false; false; false; true] two)), (OToLink 1 0), ESyscall, (snd (step (OToLink 1 0) (run (unloaded ++ [OLoad 1]) (initial [false; false; false; true] two)))), 101.
  split; [split; [honest_ops|exists (initial [false; false; false; true] two); split; [|reflexivity]; exists [false; false; false; true], two; split; [reflexivity|repeat constructor]]|].
  split; [vm_compute; reflexivity|]. split; [right; vm_compute; auto|]. split; [vm_compute; auto|]. split; [right; vm_compute; auto|]. split; [intros H; vm_compute in H; contradiction|vm_compute; auto].
Qed.
Print Assumptions C34_to_link_leak_refuted.

(** With a link made by [SchedClassifierLink::attached] for a filter the program
    already has, a refused [attach_to_link] detaches that filter. *)
Definition forged : list op := [OLoad 0; OAttach 0 (AsCall MExclusive 7 false false true); OForge 7].
Theorem C34_forged_refuted : exists l s t o u a, start s /\ t = run l s /\ step o t = (Err EAlreadyAttached, u) /\ live a t /\ ~ live a u /\ In a (flat_map call_att (map l_base (tracked u))).
Proof.
  exists forged, (initial [] two), (run forged (initial [] two)), (OToLink 0 0), (snd (step (OToLink 0 0) (run forged (initial [] two)))), 101. split; [exact two_start|]. split; [reflexivity|].
  split; [vm_compute; reflexivity|]. split; [right; vm_compute; auto|]. split; [intros [H|H]; vm_compute in H; [discriminate|contradiction]|vm_compute; auto].
Qed.
Print Assumptions C34_forged_refuted.

Example C34_example : let l := [OLoad 0; OAttach 0 (AsCall MExclusive 7 false true true)] in let t := run l (initial [] two) in
  reached l t /\ fst (step (OAttach 0 (AsCall MExclusive 7 false true true)) t) = Err ESyscall.
Proof. split; [apply two_reached; honest_ops|vm_compute; reflexivity]. Qed.

(** * C47: programs are loaded and unloaded in turn *)

(** Loads and closes of each program balance at all times: with what was
    given at the start, it is loaded once more than closed, or as often. *)
Theorem C47_balance : forall fails progs l i, let t := run l (initial fails progs) in
  (loads i t + given progs i = closes i t + match p_fd (prog_at i t) with Some _ => 1 | None => 0 end)%nat.
Proof. exact balance. Qed.
Print Assumptions C47_balance.

(** Success means that the kernel loaded it and the program has the
    descriptor. *)
Theorem C47_load_done : forall i s t, load i s = (Ok tt, t) ->
  fst (ask s) = false /\ p_fd (prog_at i s) = None /\ p_obj (prog_at i s) = true /\ p_fd (prog_at i t) = Some (s_next s) /\ s_log t = s_log s ++ [Loaded i].
Proof. exact load_done. Qed.
Print Assumptions C47_load_done.

Theorem C47_load_again : forall i s, p_fd (prog_at i s) <> None \/ p_obj (prog_at i s) = false -> load i s = (Err EAlreadyLoaded, s).
Proof. exact load_again. Qed.
Print Assumptions C47_load_again.

Theorem C47_attach_needs : forall i h s, p_fd (prog_at i s) = None -> attach i h s = (Err ENotLoaded, s).
Proof. exact attach_needs. Qed.
Print Assumptions C47_attach_needs.

(** Unloading is done with every link before the program is closed. *)
Theorem C47_unload : forall i s u, (i < length (s_progs s))%nat -> unload i s = (Ok tt, u) ->
  exists pre, s_log u = s_log s ++ pre ++ [Closed i] /\ program_events pre = [] /\ Forall (fun x => done (l_base x) pre u) (p_links (prog_at i s)) /\
    p_links (prog_at i u) = [] /\ p_fd (prog_at i s) <> None /\ p_fd (prog_at i u) = None.
Proof. exact unload_spec. Qed.
Print Assumptions C47_unload.

(** A failed unload leaves the program as loaded as it was, and without links. *)
Theorem C47_unload_failed : forall i s e u, (i < length (s_progs s))%nat -> unload i s = (Err e, u) ->
  p_fd (prog_at i u) = p_fd (prog_at i s) /\ p_links (prog_at i u) = [] /\ exists pre, s_log u = s_log s ++ pre /\ program_events pre = [] /\ Forall (fun x => finished x pre u) (p_links (prog_at i s)).
Proof. exact unload_error. Qed.
Print Assumptions C47_unload_failed.

(** Dropping unloads, whatever fails. *)
Theorem C47_drop : forall i s, (i < length (s_progs s))%nat ->
  exists pre, s_log (drop_prog i s) = s_log s ++ pre ++ match p_fd (prog_at i s) with Some _ => [Closed i] | None => [] end /\ program_events pre = [] /\
    Forall (fun x => finished x pre (drop_prog i s)) (p_links (prog_at i s)) /\ p_links (prog_at i (drop_prog i s)) = [] /\ p_fd (prog_at i (drop_prog i s)) = None.
Proof. exact drop_spec. Qed.
Print Assumptions C47_drop.

(** A request that fails during unloading leaves the program loaded; a lirc
    link after it is lost. *)
Example C47_example : let s := run [OLoad 0; OAttach 0 (AsCall MMulti 7 true false true); OAttach 0 (AsCall MMulti 8 true false false)] (initial [false; false; false; true] two) in
  fst (unload 0 s) = Err ESyscall /\ p_fd (prog_at 0 (snd (unload 0 s))) = Some 100 /\ s_lost (snd (unload 0 s)) = [(103, Leaked)] /\ loads 0 s = 1%nat.
Proof. vm_compute. repeat split. Qed.
Example C47_pinned_example : let t := run [OLoad 0; OUnload 0; OLoad 0] (initial [] [from_pinned 50]) in loads 0 t = 0%nat /\ closes 0 t = 1%nat /\ p_fd (prog_at 0 t) = None.
Proof. vm_compute. repeat split. Qed.
