(** What is expected of programs at trace points and of iterators. *)
From Coq Require Import String.
From Verif Require Import Base Text TextParse TextSplit LogModel TraceModel.
Local Open Scope Z_scope.

(** * When programs run (kernel/trace/bpf_trace.c, kernel/bpf/syscall.c) *)

(** A link lives while a descriptor, or an open iterator, refers to it. *)
Definition link_alive (k : kernel) (n : nat) : Prop := exists fd, In (fd, OLink n) (k_fds k) \/ In (fd, OIter n) (k_fds k).
Definition perf_open_at (k : kernel) (n : nat) : Prop := exists fd, In (fd, OPerf n) (k_fds k).
(** A reason why a program runs at a trace point: a link to an event of that
    trace point, or an open, enabled event that has it. *)
Inductive reason := ByLink (n : nat) | ByPerf (n : nat).
Definition runs (k : kernel) (r : reason) (prog id : Z) (cookie : option Z) : Prop :=
  match r with
  | ByLink n => link_alive k n /\ exists m p, nth_error (k_links k) n = Some {| kl_prog := prog; kl_site := AtPerf m; kl_cookie := cookie |} /\ nth_error (k_perfs k) m = Some p /\ pf_id p = id /\ pf_on p = true
  | ByPerf n => perf_open_at k n /\ cookie = None /\ nth_error (k_perfs k) n = Some {| pf_id := id; pf_prog := Some prog; pf_on := true |}
  end.
(** An open iterator gives what this program writes. *)
Definition gives (k : kernel) (fd prog : Z) : Prop := exists n c, In (fd, OIter n) (k_fds k) /\ nth_error (k_links k) n = Some {| kl_prog := prog; kl_site := AtIter; kl_cookie := c |}.

(** States calls lead to: numbers of descriptors are used once, and refer to
    things there are. *)
Record sound (k : kernel) : Prop := {
  so_old : forall fd o, In (fd, o) (k_fds k) -> fd < k_next k;
  so_once : NoDup (map fst (k_fds k));
  so_there : forall fd o, In (fd, o) (k_fds k) -> match o with OPerf n => (n < length (k_perfs k))%nat | OLink n | OIter n => (n < length (k_links k))%nat end;
  so_site : forall n l m, nth_error (k_links k) n = Some l -> kl_site l = AtPerf m -> (m < length (k_perfs k))%nat
}.

(** The descriptor of a link. *)
Definition fd_of (l : plink) : Z := match l with LFd fd | LPerf fd => fd end.

(** * Trace points *)

(** What the kernel has in the file of an event. *)
Definition id_file (id : Z) : list Z := dec id ++ [10].
(** Where tracefs is mounted: of the two places the first that is. *)
Definition mounted (e : env) (t : list Z) : Prop :=
  e_tracefs e t = true /\ (t = txt "/sys/kernel/tracing" \/ (t = txt "/sys/kernel/debug/tracing" /\ e_tracefs e (txt "/sys/kernel/tracing") = false)).
Definition id_path (t category name : list Z) : list Z := t ++ txt "/events/" ++ category ++ txt "/" ++ name ++ txt "/id".
(** The name of one directory or file. *)
Definition plain (s : list Z) : Prop := s <> [] /\ ~ In 47 s.
Definition no_failure (k : kernel) : Prop := Forall (fun f => f = false) (k_fail k).

(** The trace point of this category and name has this number. *)
Definition numbered (e : env) (category name : list Z) (id : Z) : Prop :=
  exists t, mounted e t /\ e_files e (id_path t category name) = Some (id_file id).

(** * Many calls *)

(** What is held: links of a program at a trace point, links of iterators and
    iterator files. *)
Inductive held := HPoint (l : plink) (prog id : Z) | HIter (l : plink) (prog : Z) | HFile (fd prog : Z).
Definition held_fd (h : held) : Z := match h with HPoint l _ _ | HIter l _ => fd_of l | HFile fd _ => fd end.
Definition link_of (h : held) : option plink := match h with HPoint l _ _ | HIter l _ => Some l | HFile _ _ => None end.
(** One call, with what is held before and after. *)
Inductive step : kernel * list held -> kernel * list held -> Prop :=
| s_attach e g category name id k t l k' :
    plain category -> plain name -> 0 <= id < 2 ^ 64 -> numbered e category name id ->
    attach_trace_point e (Some g) category name k = (Ok l, k') ->
    step (k, t) (k', t ++ [HPoint l g id])
| s_attach_err e g category name k t x k' :
    attach_trace_point e g category name k = (Err x, k') -> step (k, t) (k', t)
| s_iter g k t l k' : attach_iter (Some g) k = (Ok l, k') -> step (k, t) (k', t ++ [HIter l g])
| s_iter_err g k t x k' : attach_iter g k = (Err x, k') -> step (k, t) (k', t)
| s_detach k a h b l : link_of h = Some l -> step (k, a ++ h :: b) (detach l k, a ++ b)
| s_file k a l g b fd k' : into_file l k = (Ok fd, k') -> step (k, a ++ HIter l g :: b) (k', a ++ b ++ [HFile fd g])
| s_file_err k a l g b x k' : into_file l k = (Err x, k') -> step (k, a ++ HIter l g :: b) (k', a ++ b)
| s_fd_err k a h l b x k' : link_of h = Some l -> into_fd_link l k = (Err x, k') -> step (k, a ++ h :: b) (k', a ++ b)
| s_close k a fd g b : step (k, a ++ HFile fd g :: b) (close fd k, a ++ b).
Inductive steps : kernel * list held -> kernel * list held -> Prop :=
| ss_none s : steps s s
| ss_more s s' s'' : steps s s' -> step s' s'' -> steps s s''.

(** The programs at trace points that are held. *)
Definition points (t : list held) : list (Z * Z) := flat_map (fun h => match h with HPoint _ g i => [(g, i)] | _ => [] end) t.
(** What runs and what is open is what was there at first and what is held,
    once each. *)
Definition accounts (k0 k : kernel) (t : list held) : Prop :=
  map fst (k_fds k) = map fst (k_fds k0) ++ map held_fd t /\
  (exists rs, NoDup rs /\ Forall2 (fun gi r => forall g i c, runs k r g i c <-> (g, i) = gi /\ c = None) (points t) rs /\
     (forall r, In r rs -> forall g i c, ~ runs k0 r g i c) /\
     (forall r, ~ In r rs -> forall g i c, runs k r g i c <-> runs k0 r g i c)) /\
  (forall fd g, gives k fd g <-> gives k0 fd g \/ In (HFile fd g) t).

(** Why attaching can fail: the program is not loaded, tracefs is nowhere, the
    file of the trace point cannot be read or has no number, or the kernel
    refused a call. *)
Definition refused (call : list Z) (perf_link : bool) : Prop :=
  call = txt "perf_event_open_trace_point" \/
  (perf_link = true /\ call = txt "bpf_link_create") \/
  (perf_link = false /\ (call = txt "PERF_EVENT_IOC_SET_BPF" \/ call = txt "PERF_EVENT_IOC_ENABLE")).
Definition why (e : env) (prog : option Z) (category name : list Z) (k : kernel) (x : terr) : Prop :=
  match x with
  | ENotLoaded => prog = None
  | ENoTracefs => forall t, ~ mounted e t
  | EFile path => exists t, mounted e t /\ path = id_path t category name /\ forall id, 0 <= id < 2 ^ 64 -> e_files e path <> Some (id_file id)
  | ESyscall call => refused call (e_perf_link e) /\ ~ no_failure k
  | ECookie | EInvalidLink => False
  end.
