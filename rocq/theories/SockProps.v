(** C99: programs attached to sockets. *)
From Coq Require Import String.
From Verif Require Import Base Text SockModel SockSpec SockProofs SockProofs2 SockProofs3 SockProofs4 SockProofs5 SockProofs6.
Open Scope Z_scope.

(** Attaching a loaded program to an open socket sets the slot of the
    abstraction used, the socket's filter or its group's selector, to that
    program and changes nothing else; it works exactly when the kernel's rules
    allow; otherwise nothing changes and the error names the option. *)
Theorem C99_attach : forall M T i p v sk id t n s,
  reached M T -> nth_error (st_progs T) i = Some p -> stands_for p (st_kern T) id t -> opens (st_kern T) sk n s ->
  match attach M (st_kern T) v p sk with
  | (Ok _, K') => takes v t s /\ sound K' /\ only_slot v n (Some id) (st_kern T) K'
  | (Err e, K') => ~ takes v t s /\ K' = st_kern T /\ exists c, e = reported v true c
  end.
Proof. exact attach_right. Qed.
Print Assumptions C99_attach.

(** Detaching empties that slot, whoever filled it, and changes nothing else. *)
Theorem C99_detach : forall M T v sk n s,
  reached M T -> opens (st_kern T) sk n s ->
  match detach M (st_kern T) v sk with
  | (Ok _, K') => gives_up M v (st_kern T) n s /\ sound K' /\ only_slot v n None (st_kern T) K'
  | (Err e, K') => ~ gives_up M v (st_kern T) n s /\ K' = st_kern T /\ exists c, e = reported v false c
  end.
Proof. exact detach_right. Qed.
Print Assumptions C99_detach.

(** Programs that are not loaded and descriptors that are not sockets. *)
Theorem C99_refused : forall M T i p v sk,
  reached M T -> nth_error (st_progs T) i = Some p ->
  (p_fd p = None -> attach M (st_kern T) v p sk = (Err NotLoaded, st_kern T)) /\
  ((forall n, ~ In (sk, FSock n) (k_files (st_kern T))) -> p_fd p <> None ->
     exists c, attach M (st_kern T) v p sk = (Err (reported v true c), st_kern T) /\ (c = 9 \/ c = 88)) /\
  ((forall n, ~ In (sk, FSock n) (k_files (st_kern T))) ->
     exists c, detach M (st_kern T) v sk = (Err (reported v false c), st_kern T) /\ (c = 9 \/ c = 88)).
Proof. exact refused. Qed.
Print Assumptions C99_refused.

(** A socket filter can be taken for a reuseport selector and back, a program
    of type sk_reuseport for neither; the program object stays the same. *)
Theorem C99_convert : forall v p,
  (same_kind v (p_variant p) -> as_view v p = Ok p) /\ (~ same_kind v (p_variant p) -> as_view v p = Err UnexpectedProgramType).
Proof. exact converts. Qed.
Print Assumptions C99_convert.

(** A socket's filter stays until somebody attaches to or detaches from that
    socket: neither unloading nor dropping the program nor anything done to
    reuseport groups removes it, and its program exists while the socket is
    open. *)
Theorem C99_filter_stays : forall M T h n,
  reached M T -> (n < length (k_socks (st_kern T)))%nat -> never M (fun K o => changes_filter K o n) h T ->
  let K' := st_kern (run M h T) in
  filter_of K' n = filter_of (st_kern T) n /\
  forall id fd, filter_of (st_kern T) n = Some id -> In (fd, FSock n) (k_files K') -> exists_prog K' id.
Proof. exact filter_stays. Qed.
Print Assumptions C99_filter_stays.

(** The same for the selector of a group. *)
Theorem C99_selector_stays : forall M T h g,
  reached M T -> (g < length (k_groups (st_kern T)))%nat -> never M (fun K o => changes_selector K o g) h T ->
  let K' := st_kern (run M h T) in
  selector K' g = selector (st_kern T) g /\
  forall id fd n, selector (st_kern T) g = Some id -> In (fd, FSock n) (k_files K') -> group_of K' n = Some g -> exists_prog K' id.
Proof. exact selector_stays. Qed.
Print Assumptions C99_selector_stays.

(** Loading, once, makes the object stand for a new program of the type of its
    kind; unloading and dropping close that descriptor and no other; pinning pins
    the program; opening a pinned one gives it a new descriptor. *)
Theorem C99_load : forall K v p fd id,
  (p_fd p <> None -> load K v p fd id = (Err AlreadyLoaded, p, K)) /\
  (p_fd p = None ->
   match load K v p fd id with
   | (Ok _, p', K') => p_variant p' = p_variant p /\ p_fd p' = Some fd /\ ~ In fd (map fst (k_files K)) /\ ~ exists_prog K id /\
       stands_for p' K' id (program_type v) /\ k_files K' = (fd, FProg id) :: k_files K /\ k_pins K' = k_pins K /\ sockets_same K K'
   | (Err e, p', K') => p' = p /\ K' = K /\ exists c, e = LoadError c
   end).
Proof. exact load_right. Qed.
Print Assumptions C99_load.

Theorem C99_unload : forall M T i p, nth_error (st_progs T) i = Some p ->
  (p_fd p = None -> step M (OUnload i) T = (RLib (Err NotLoaded), T) /\ step M (ODrop i) T = (RLib (Ok tt), T)) /\
  (forall fd, p_fd p = Some fd ->
     exists T', step M (OUnload i) T = (RLib (Ok tt), T') /\ step M (ODrop i) T = (RLib (Ok tt), T') /\
       nth_error (st_progs T') i = Some {| p_variant := p_variant p; p_fd := None |} /\
       (forall j, j <> i -> nth_error (st_progs T') j = nth_error (st_progs T) j) /\
       (forall x f, In (x, f) (k_files (st_kern T')) <-> In (x, f) (k_files (st_kern T)) /\ x <> fd) /\
       k_pins (st_kern T') = k_pins (st_kern T) /\ sockets_same (st_kern T) (st_kern T')).
Proof. exact unload_right. Qed.
Print Assumptions C99_unload.

Theorem C99_pin : forall M T i p, reached M T -> nth_error (st_progs T) i = Some p ->
  (p_fd p = None -> pin (st_kern T) p = (Err PinNoFd, st_kern T)) /\
  (forall fd id, p_fd p = Some fd -> In (fd, FProg id) (k_files (st_kern T)) ->
     exists K', pin (st_kern T) p = (Ok tt, K') /\ k_pins K' = id :: k_pins (st_kern T) /\ k_files K' = k_files (st_kern T) /\
       k_progs K' = k_progs (st_kern T) /\ sockets_same (st_kern T) K').
Proof. exact pin_right. Qed.
Print Assumptions C99_pin.

Theorem C99_from_pin : forall K v id fd,
  match from_pin K v id fd with
  | (Ok p, K') => In id (k_pins K) /\ ~ In fd (map fst (k_files K)) /\ p = {| p_variant := v; p_fd := Some fd |} /\
      k_files K' = (fd, FProg id) :: k_files K /\ k_pins K' = k_pins K /\ k_progs K' = k_progs K /\ sockets_same K K'
  | (Err e, K') => K' = K /\ ((e = GetCall 2 /\ ~ In id (k_pins K)) \/ (e = GetCall 24 /\ In id (k_pins K)))
  end.
Proof. exact from_pin_right. Qed.
Print Assumptions C99_from_pin.

(** In every state programs exist exactly while a descriptor, a pin, an open
    socket or the group of an open socket needs them: the library leaks none. *)
Theorem C99_freed : forall M T id, reached M T -> (exists_prog (st_kern T) id <-> needed (st_kern T) id).
Proof. exact freed. Qed.
Print Assumptions C99_freed.

(** Without SO_REUSEPORT, or bound before it was set, a socket takes no
    selector: EINVAL, as documented. *)
Theorem C99_no_group : forall M T i p v sk id t n s,
  reached M T -> nth_error (st_progs T) i = Some p -> stands_for p (st_kern T) id t -> opens (st_kern T) sk n s ->
  own_slot v = false -> s_locked s = false -> s_full s = false -> t = 1 \/ t = 21 /\ s_inet s = true ->
  s_group s = None -> s_reuse s = false \/ s_bound s = true ->
  attach M (st_kern T) v p sk = (Err (reported v true 22), st_kern T).
Proof. exact attach_group_error. Qed.
Print Assumptions C99_no_group.

(** Detaching from a socket that is in no group: EINVAL if it does not have
    SO_REUSEPORT, ENOENT if it has. *)
Theorem C99_detach_no_group : forall M T v sk n s,
  reached M T -> opens (st_kern T) sk n s -> own_slot v = false -> m_detach M = true -> s_group s = None ->
  detach M (st_kern T) v sk = (Err (reported v false (if s_reuse s then 2 else 22)), st_kern T).
Proof. exact detach_group_error. Qed.
Print Assumptions C99_detach_no_group.

(** * Histories that show the hypotheses can be met *)

Definition x86 : machine := {| m_big := false; m_mips := false; m_detach := true |}.
Definition mips : machine := {| m_big := true; m_mips := true; m_detach := true |}.
Definition at_first : state :=
  {| st_kern := nothing; st_progs := [{| p_variant := SocketFilter; p_fd := None |}; {| p_variant := SkReuseport; p_fd := None |};
                                      {| p_variant := SocketFilter; p_fd := None |}] |}.
Lemma at_first_fresh : fresh_start at_first.
Proof. split; [reflexivity|]. intros p [<-|[<-|[<-|[]]]]; reflexivity. Qed.

(** Two sockets of a group, a filter on the first and a selector of the group. *)
Definition setup : list op :=
  [OSocket 3 true; OSocket 4 true; OReuse 3 true; OReuse 4 true; OBind 3; OBindWith 4 3; OLoad 0 SocketFilter 5 101; OLoad 1 SkReuseport 6 102;
   OLoad 2 ReusePortSocketFilter 7 103; OAttach 0 SocketFilter 3; OAttach 1 SkReuseport 4].
Definition in_use (M : machine) : state := run M setup at_first.
Example C99_in_use_reached : reached x86 (in_use x86) /\ reached mips (in_use mips).
Proof. split; exists at_first, setup; (split; [exact at_first_fresh|reflexivity]). Qed.
Example C99_in_use :
  let K := st_kern (in_use mips) in
  filter_of K 0 = Some 101 /\ filter_of K 1 = None /\ selector_of K 0 = Some 102 /\ selector_of K 1 = Some 102 /\ st_kern (in_use x86) = K.
Proof. vm_compute. auto. Qed.
Example C99_in_use_hypotheses :
  exists p s, nth_error (st_progs (in_use x86)) 2 = Some p /\ stands_for p (st_kern (in_use x86)) 103 1 /\
    opens (st_kern (in_use x86)) 3 0 s /\ takes SocketFilter 1 s /\ takes ReusePortSocketFilter 1 s /\ gives_up x86 SkReuseport (st_kern (in_use x86)) 0 s.
Proof.
  exists {| p_variant := SocketFilter; p_fd := Some 7 |}.
  exists {| s_filter := Some 101; s_group := Some 0%nat; s_reuse := true; s_bound := true; s_locked := false; s_inet := true; s_full := false |}.
  split; [vm_compute; reflexivity|]. split; [split; [exists 7; split; [reflexivity|vm_compute; tauto]|vm_compute; tauto]|].
  split; [split; [vm_compute; tauto|vm_compute; reflexivity]|]. split; [vm_compute; auto|]. split; [vm_compute; auto|].
  split; [vm_compute; discriminate|reflexivity].
Qed.

(** Dropping all programs leaves both attached; the selector is replaced for
    both sockets by a socket filter and goes with the sockets. *)
Example C99_dropped :
  let T := run x86 [OAttach 2 ReusePortSocketFilter 3; ODrop 0; ODrop 1; OUnload 2] (in_use x86) in
  map fst (k_progs (st_kern T)) = [103; 101] /\ selector_of (st_kern T) 1 = Some 103 /\
  map fst (k_progs (st_kern (run x86 [OClose 3] T))) = [103] /\ k_progs (st_kern (run x86 [OClose 3; OClose 4] T)) = [] /\
  fst (step x86 (ODetach SkReuseport 4) T) = RLib (Ok tt).
Proof. vm_compute. auto. Qed.
Example C99_dropped_never :
  never x86 (fun K o => changes_filter K o 0) [OAttach 2 ReusePortSocketFilter 3; ODrop 0; ODrop 1; OUnload 2] (in_use x86) /\
  never x86 (fun K o => changes_selector K o 0) [OAttach 0 SocketFilter 4; ODetach SocketFilter 3; ODrop 1] (in_use x86).
Proof.
  split.
  - cbn [never changes_filter]. tauto.
  - cbn [never changes_selector]. tauto.
Qed.

(** ReusePortSocketFilter::detach documents EINVAL for sockets that are not in
    a reuseport group; one with SO_REUSEPORT that is not bound yet gets
    ENOENT. *)
Theorem C99_detach_error_refuted : exists T s,
  reached x86 T /\ opens (st_kern T) 3 0 s /\ s_group s = None /\
  fst (detach x86 (st_kern T) ReusePortSocketFilter 3) = Err (SocketFilterError (txt "SO_DETACH_REUSEPORT_BPF") 2).
Proof.
  exists (run x86 [OSocket 3 true; OReuse 3 true] at_first).
  exists {| s_filter := None; s_group := None; s_reuse := true; s_bound := false; s_locked := false; s_inet := true; s_full := false |}.
  repeat apply conj; [exists at_first, [OSocket 3 true; OReuse 3 true]; split; [exact at_first_fresh|reflexivity]| | | |]; vm_compute; auto.
Qed.
Print Assumptions C99_detach_error_refuted.

(** SkReuseport::attach documents EINVAL for sockets not configured with
    SO_REUSEPORT; one whose flag was cleared after it was bound takes it. *)
Theorem C99_attach_error_refuted : exists T s p,
  reached x86 T /\ opens (st_kern T) 3 0 s /\ s_reuse s = false /\ nth_error (st_progs T) 1 = Some p /\
  fst (attach x86 (st_kern T) SkReuseport p 3) = Ok tt.
Proof.
  exists (run x86 [OReuse 3 false] (in_use x86)).
  exists {| s_filter := Some 101; s_group := Some 0%nat; s_reuse := false; s_bound := true; s_locked := false; s_inet := true; s_full := false |}.
  exists {| p_variant := SkReuseport; p_fd := Some 6 |}.
  split; [exact (reached_run _ _ _ (proj1 C99_in_use_reached))|]. split; [split; [vm_compute; tauto|vm_compute; reflexivity]|]. split; [reflexivity|].
  split; vm_compute; reflexivity.
Qed.
Print Assumptions C99_attach_error_refuted.
