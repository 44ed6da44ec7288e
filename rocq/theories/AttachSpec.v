(** What C33, C34 and C47 mean, for [AttachModel]. *)
From Verif Require Import Base AttachModel.
Local Open Scope Z_scope.

Definition tally (f : event -> bool) (l : list event) : nat := length (filter f l).
(** How often something happened to an attachment. *)
Definition asked (a : Z) (s : st) : nat := tally (fun e => match e with Asked x => x =? a | _ => false end) (s_log s).
Definition gone (a : Z) (s : st) : nat := tally (fun e => match e with Gone x => x =? a | _ => false end) (s_log s).
Definition made_link (a : Z) (s : st) : nat := tally (fun e => match e with MadeLink x => x =? a | _ => false end) (s_log s).
Definition made_call (a : Z) (s : st) : nat := tally (fun e => match e with MadeCall _ x => x =? a | _ => false end) (s_log s).
Definition loads (i : nat) (s : st) : nat := tally (fun e => match e with Loaded j => Nat.eqb j i | _ => false end) (s_log s).
Definition closes (i : nat) (s : st) : nat := tally (fun e => match e with Closed j => Nat.eqb j i | _ => false end) (s_log s).

Definition cnt (a : Z) (l : list Z) : nat := count_occ Z.eq_dec l a.
Definition call_att (b : base) : list Z := match b with BCall c => [c_att c] | BFd _ => [] end.
Definition fd_of (b : base) : list Z := match b with BFd fd => [fd] | BCall _ => [] end.

(** Everything somebody holds: programs, and the caller. *)
Definition tracked (s : st) : list link := flat_map p_links (s_progs s).
Definition bases_of (s : st) : list base :=
  map l_base (tracked s) ++ map l_base (s_owned s) ++ s_bases s ++ map (fun p => BFd (snd p)) (s_pinned s).
Definition held (s : st) : list Z := flat_map call_att (bases_of s).
Definition held_fds (s : st) : list Z := flat_map fd_of (bases_of s).

(** A BPF link or an attachment by a call is there. *)
Definition live (a : Z) (s : st) : Prop := referred a s = true \/ In a (map sl_att (s_slots s)).

(** The ways of attaching there are: tc and xdp identify a link by its place,
    the others by duplicated descriptors; only xdp names programs by number;
    only lirc links do not detach when dropped. *)
Definition real (h : how) : Prop :=
  match h with
  | AsLink => True
  | AsCall m _ dup raw drops => (dup = true <-> m <> MExclusive) /\ (raw = true -> m = MExclusive) /\ (drops = false -> m = MMulti)
  end.
(** Operations that do not make links for things attached by others. *)
Definition honest (o : op) : Prop := match o with OForge _ => False | OAttach _ h => real h | _ => True end.

(** Operations after which nothing is leaked: no lirc link is dropped instead
    of detached, no conversion of a link made by a call into an [FdLink], no
    [attach_to_link]. *)
Definition careful (o : op) : Prop :=
  match o with
  | OForge _ | OTryFd _ | OToLink _ _ => False
  | OAttach _ (AsCall _ _ _ _ drops) => drops = true
  | _ => True
  end.

(** The same except for the counters of the model. *)
Definition same_state (s t : st) : Prop :=
  s_progs t = s_progs s /\ s_owned t = s_owned s /\ s_bases t = s_bases s /\ s_pinned t = s_pinned s /\
  s_fds t = s_fds s /\ s_pins t = s_pins s /\ s_slots t = s_slots s /\ s_lost t = s_lost s /\ s_log t = s_log s.

(** A state to start from: nothing loaded by us, nothing attached. *)
Definition start (s : st) : Prop := exists fails progs, s = initial fails progs /\ Forall (fun p => p = from_object \/ exists g, g < 100 /\ p = from_pinned g) progs.
(** What honest callers can reach. *)
Definition reached (l : list op) (t : st) : Prop := Forall honest l /\ exists s, start s /\ t = run l s.

(** Loading and closing programs. *)
Definition program_events (l : list event) : list event := filter (fun e => match e with Loaded _ | Closed _ => true | _ => false end) l.
(** The inside of a link is done with: a descriptor closed, a call made. *)
Definition done (b : base) (pre : list event) (u : st) : Prop := match b with BFd fd => ~ In fd (map fst (s_fds u)) | BCall c => In (Asked (c_att c)) pre end.
(** The same for links that detach when dropped. *)
Definition finished (x : link) (pre : list event) (u : st) : Prop := l_drop x = true -> done (l_base x) pre u.
(** How many programs were there at the start. *)
Definition given (progs : list prog) (i : nat) : nat := match p_fd (nth i progs no_prog) with Some _ => 1%nat | None => 0%nat end.

(** The attachment a link stands for has been made, and is the last thing
    that happened. *)
Definition newest (b : base) (s : st) : Prop :=
  match b with
  | BFd fd => exists a, att_of fd s = Some a /\ exists l, s_log s = l ++ [MadeLink a]
  | BCall c => (exists l, s_log s = l ++ [MadeCall (c_mode c) (c_att c)]) /\
      In {| sl_mode := c_mode c; sl_place := c_place c; sl_prog := c_prog c; sl_att := c_att c |} (s_slots s)
  end.
