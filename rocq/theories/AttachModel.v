(** Model of programs and their links: aya/src/programs/links.rs, the life of
    a program in aya/src/programs/mod.rs, and the attach functions of the
    program types, over a small model of the kernel's attachments.

    An attachment has a number of its own, which the code does not see.  There
    are two sorts: BPF links, which live while a descriptor or a pin refers to
    them, and attachments made by a call (bpf_prog_attach, netlink) at a place,
    which live until another call removes them. *)
From Verif Require Import Base.
Local Open Scope Z_scope.

(** * Attachments made by a call *)

(** What the kernel does at a place that is taken: refuse (netlink with
    NLM_F_EXCL for tc, XDP_FLAGS_UPDATE_IF_NOEXIST for xdp), keep several
    programs and refuse the same one twice (cgroups with BPF_F_ALLOW_MULTI,
    lirc devices), or replace (cgroups otherwise, socket maps). *)
Inductive mode := MExclusive | MMulti | MSingle.
Definition mode_eqb (a b : mode) : bool :=
  match a, b with MExclusive, MExclusive | MMulti, MMulti | MSingle, MSingle => true | _, _ => false end.
Record slot := { sl_mode : mode; sl_place : Z; sl_prog : Z; sl_att : Z }.

(** The identifier of a link in a program's set: a descriptor (links.rs:292),
    duplicated descriptors, which are new with each attach (links.rs:400-447;
    lirc_mode2.rs:76-89), or the place (tc.rs:468-487, xdp.rs:249-264). *)
Inductive key := KFd (fd : Z) | KDup (n : Z) | KPlace (m : mode) (place : Z).
Definition key_eqb (a b : key) : bool :=
  match a, b with
  | KFd x, KFd y | KDup x, KDup y => x =? y
  | KPlace m x, KPlace n y => mode_eqb m n && (x =? y)
  | _, _ => false
  end.

(** A link made by a call.  [c_prog]: the program as loaded then, [c_owner]
    its handle; [c_raw]: detaching names the program by the descriptor number
    it had (xdp.rs:266-288 from Linux 5.7 on); [c_att]: the attachment. *)
Record by_call := { c_key : key; c_mode : mode; c_place : Z; c_prog : Z; c_owner : nat; c_raw : bool; c_att : Z }.
(** What a wrapper holds (links.rs:482-572): an [FdLink] or a link made by a
    call. *)
Inductive base := BFd (fd : Z) | BCall (c : by_call).
(** A link as programs keep it.  [l_drop]: dropping it detaches; so do all
    made by [define_link_wrapper!], but not [LircLink] (lirc_mode2.rs:131-183). *)
Record link := { l_base : base; l_drop : bool }.
Definition base_key (b : base) : key := match b with BFd fd => KFd fd | BCall c => c_key c end.

(** * State *)

Inductive event :=
| Loaded (i : nat) | Closed (i : nat)            (* a program's descriptor *)
| MadeLink (a : Z) | MadeCall (m : mode) (a : Z) (* a new attachment *)
| Asked (a : Z)                                  (* a call to detach the attachment made by this link *)
| Gone (a : Z).                                  (* the kernel removed it *)
(** Why a link made by a call was given up without detaching. *)
Inductive loss := Released | Leaked.

(** aya/src/programs/mod.rs:549-562 [ProgramData]: whether there is an object
    to load, the program loaded, the links kept. *)
Record prog := { p_alive : bool; p_obj : bool; p_fd : option Z; p_links : list link }.

(** [s_fail]: which of the next calls fail.  [s_owned]: links taken out;
    [s_bases]: their insides taken out; [s_pinned]: [PinnedLink]s with path and
    descriptor.  [s_fds], [s_pins]: descriptors and paths referring to BPF
    links. *)
Record st := {
  s_next : Z; s_fail : list bool; s_progs : list prog; s_owned : list link; s_bases : list base; s_pinned : list (Z * Z);
  s_fds : list (Z * Z); s_pins : list (Z * Z); s_slots : list slot; s_lost : list (Z * loss); s_log : list event }.

Definition set_next v s := {| s_next := v; s_fail := s_fail s; s_progs := s_progs s; s_owned := s_owned s; s_bases := s_bases s; s_pinned := s_pinned s; s_fds := s_fds s; s_pins := s_pins s; s_slots := s_slots s; s_lost := s_lost s; s_log := s_log s |}.
Definition set_fail v s := {| s_next := s_next s; s_fail := v; s_progs := s_progs s; s_owned := s_owned s; s_bases := s_bases s; s_pinned := s_pinned s; s_fds := s_fds s; s_pins := s_pins s; s_slots := s_slots s; s_lost := s_lost s; s_log := s_log s |}.
Definition set_progs v s := {| s_next := s_next s; s_fail := s_fail s; s_progs := v; s_owned := s_owned s; s_bases := s_bases s; s_pinned := s_pinned s; s_fds := s_fds s; s_pins := s_pins s; s_slots := s_slots s; s_lost := s_lost s; s_log := s_log s |}.
Definition set_owned v s := {| s_next := s_next s; s_fail := s_fail s; s_progs := s_progs s; s_owned := v; s_bases := s_bases s; s_pinned := s_pinned s; s_fds := s_fds s; s_pins := s_pins s; s_slots := s_slots s; s_lost := s_lost s; s_log := s_log s |}.
Definition set_bases v s := {| s_next := s_next s; s_fail := s_fail s; s_progs := s_progs s; s_owned := s_owned s; s_bases := v; s_pinned := s_pinned s; s_fds := s_fds s; s_pins := s_pins s; s_slots := s_slots s; s_lost := s_lost s; s_log := s_log s |}.
Definition set_pinned v s := {| s_next := s_next s; s_fail := s_fail s; s_progs := s_progs s; s_owned := s_owned s; s_bases := s_bases s; s_pinned := v; s_fds := s_fds s; s_pins := s_pins s; s_slots := s_slots s; s_lost := s_lost s; s_log := s_log s |}.
Definition set_fds v s := {| s_next := s_next s; s_fail := s_fail s; s_progs := s_progs s; s_owned := s_owned s; s_bases := s_bases s; s_pinned := s_pinned s; s_fds := v; s_pins := s_pins s; s_slots := s_slots s; s_lost := s_lost s; s_log := s_log s |}.
Definition set_pins v s := {| s_next := s_next s; s_fail := s_fail s; s_progs := s_progs s; s_owned := s_owned s; s_bases := s_bases s; s_pinned := s_pinned s; s_fds := s_fds s; s_pins := v; s_slots := s_slots s; s_lost := s_lost s; s_log := s_log s |}.
Definition set_slots v s := {| s_next := s_next s; s_fail := s_fail s; s_progs := s_progs s; s_owned := s_owned s; s_bases := s_bases s; s_pinned := s_pinned s; s_fds := s_fds s; s_pins := s_pins s; s_slots := v; s_lost := s_lost s; s_log := s_log s |}.
Definition lose a r s := {| s_next := s_next s; s_fail := s_fail s; s_progs := s_progs s; s_owned := s_owned s; s_bases := s_bases s; s_pinned := s_pinned s; s_fds := s_fds s; s_pins := s_pins s; s_slots := s_slots s; s_lost := s_lost s ++ [(a, r)]; s_log := s_log s |}.
Definition note l s := {| s_next := s_next s; s_fail := s_fail s; s_progs := s_progs s; s_owned := s_owned s; s_bases := s_bases s; s_pinned := s_pinned s; s_fds := s_fds s; s_pins := s_pins s; s_slots := s_slots s; s_lost := s_lost s; s_log := s_log s ++ l |}.

Definition ask (s : st) : bool * st := match s_fail s with [] => (false, s) | f :: r => (f, set_fail r s) end.
Definition take_next (s : st) : Z * st := (s_next s, set_next (s_next s + 1) s).

Definition no_prog : prog := {| p_alive := false; p_obj := false; p_fd := None; p_links := [] |}.
Definition prog_at (i : nat) (s : st) : prog := nth i (s_progs s) no_prog.
Definition put {A} (i : nat) (v : A) (l : list A) : list A := firstn i l ++ match skipn i l with [] => [] | _ :: r => v :: r end.
Definition put_prog (i : nat) (p : prog) (s : st) : st := set_progs (put i p (s_progs s)) s.
Definition with_links (l : list link) (p : prog) : prog := {| p_alive := p_alive p; p_obj := p_obj p; p_fd := p_fd p; p_links := l |}.
Definition with_fd (fd : option Z) (p : prog) : prog := {| p_alive := p_alive p; p_obj := p_obj p; p_fd := fd; p_links := p_links p |}.
Definition dead (p : prog) : prog := {| p_alive := false; p_obj := p_obj p; p_fd := p_fd p; p_links := p_links p |}.

(** * The kernel *)

(** A BPF link goes with the last reference to it. *)
Definition referred (a : Z) (s : st) : bool := existsb (fun p => snd p =? a) (s_fds s) || existsb (fun p => snd p =? a) (s_pins s).
Definition collect (a : Z) (s : st) : st := if referred a s then s else note [Gone a] s.
Definition att_of (fd : Z) (s : st) : option Z := option_map snd (find (fun p => fst p =? fd) (s_fds s)).
Definition close_fd (fd : Z) (s : st) : st :=
  match att_of fd s with
  | Some a => collect a (set_fds (filter (fun p => negb (fst p =? fd)) (s_fds s)) s)
  | None => s
  end.
Definition remove_pin (path : Z) (s : st) : option st :=
  match find (fun p => fst p =? path) (s_pins s) with
  | Some (_, a) => Some (collect a (set_pins (filter (fun p => negb (fst p =? path)) (s_pins s)) s))
  | None => None
  end.

(** Attaching by a call: the new attachment, if allowed. *)
Definition kernel_attach (m : mode) (place prog : Z) (s : st) : option (Z * st) :=
  let here e := mode_eqb (sl_mode e) m && (sl_place e =? place) in
  let add s := let (a, s) := take_next s in
               (a, note [MadeCall m a] (set_slots (s_slots s ++ [{| sl_mode := m; sl_place := place; sl_prog := prog; sl_att := a |}]) s)) in
  match m with
  | MExclusive => if existsb here (s_slots s) then None else Some (add s)
  | MMulti => if existsb (fun e => here e && (sl_prog e =? prog)) (s_slots s) then None else Some (add s)
  | MSingle => Some (add (note (map (fun e => Gone (sl_att e)) (filter here (s_slots s))) (set_slots (filter (fun e => negb (here e)) (s_slots s)) s)))
  end.

(** Detaching by a call.  Where several programs can be, and where the request
    names it, the program counts; otherwise whatever is at the place goes. *)
Definition matches (c : by_call) (e : slot) : bool :=
  mode_eqb (sl_mode e) (c_mode c) && (sl_place e =? c_place c) &&
  (if c_raw c then sl_prog e =? c_prog c else match c_mode c with MMulti => sl_prog e =? c_prog c | _ => true end).
(** A descriptor number is good while the program is loaded as it was. *)
Definition fd_good (c : by_call) (s : st) : bool := match p_fd (prog_at (c_owner c) s) with Some g => g =? c_prog c | None => false end.
Definition kernel_detach (c : by_call) (s : st) : bool * st :=
  let s := note [Asked (c_att c)] s in
  let (f, s) := ask s in
  if f || (c_raw c && negb (fd_good c s)) then (false, s)
  else (existsb (matches c) (s_slots s),
        note (map (fun e => Gone (sl_att e)) (filter (matches c) (s_slots s))) (set_slots (filter (fun e => negb (matches c e)) (s_slots s)) s)).

(** * Links *)

(** [Link::detach]: for an [FdLink] the descriptor is closed on return
    (links.rs:296-304). *)
Definition detach_base (b : base) (s : st) : bool * st :=
  match b with BFd fd => (true, close_fd fd s) | BCall c => kernel_detach c s end.
(** Dropping the inside of a link: nothing but descriptors is cleaned up. *)
Definition drop_base (r : loss) (b : base) (s : st) : st :=
  match b with BFd fd => close_fd fd s | BCall c => lose (c_att c) r s end.
(** Dropping a link: links.rs:515-523. *)
Definition drop_link (l : link) (s : st) : st :=
  if l_drop l then snd (detach_base (l_base l) s) else drop_base Leaked (l_base l) s.

Inductive lerr := ENotLoaded | EAlreadyLoaded | ELoad | ESyscall | EAlreadyAttached | ENotAttached | EInvalidLink | EPin | ENone.

(** aya/src/programs/links.rs:84-89 [Links::insert]: a link whose identifier is
    taken is dropped. *)
Definition insert (i : nat) (l : link) (s : st) : res lerr key * st :=
  let p := prog_at i s in
  if existsb (fun x => key_eqb (base_key (l_base x)) (base_key (l_base l))) (p_links p) then (Err EAlreadyAttached, drop_link l s)
  else (Ok (base_key (l_base l)), put_prog i (with_links (p_links p ++ [l]) p) s).

(** Taking a link out of a program's set: links.rs:91-101. *)
Definition has_key (k : key) (l : link) : bool := key_eqb (base_key (l_base l)) k.
Fixpoint pick (k : key) (l : list link) : option (link * list link) :=
  match l with
  | [] => None
  | x :: l => if has_key k x then Some (x, l) else match pick k l with Some (y, r) => Some (y, x :: r) | None => None end
  end.
Definition take_key (k : key) (i : nat) (s : st) : option (link * st) :=
  let p := prog_at i s in
  match pick k (p_links p) with
  | Some (l, r) => Some (l, put_prog i (with_links r p) s)
  | None => None
  end.

(** aya/src/programs/links.rs:103-111 [Links::remove_all]: the set is emptied;
    the first failure ends the loop, and the links left are dropped with the
    drain. *)
Fixpoint detach_all (l : list link) (s : st) : bool * st :=
  match l with
  | [] => (true, s)
  | x :: l =>
      let (ok, s) := detach_base (l_base x) s in
      if ok then detach_all l s else (false, fold_left (fun s x => drop_link x s) l s)
  end.
Definition remove_all (i : nat) (s : st) : bool * st :=
  let p := prog_at i s in detach_all (p_links p) (put_prog i (with_links [] p) s).

(** * Programs *)

(** aya/src/programs/mod.rs:705-793 [load_program]. *)
Definition load (i : nat) (s : st) : res lerr unit * st :=
  let p := prog_at i s in
  match p_fd p with
  | Some _ => (Err EAlreadyLoaded, s)
  | None =>
      if negb (p_obj p) then (Err EAlreadyLoaded, s)
      else
        let (f, s) := ask s in
        if f then (Err ELoad, s)
        else let (g, s) := take_next s in (Ok tt, note [Loaded i] (put_prog i (with_fd (Some g) p) s))
  end.
(** aya/src/programs/mod.rs:659-665 [unload_program]. *)
Definition unload (i : nat) (s : st) : res lerr unit * st :=
  let (ok, s) := remove_all i s in
  if negb ok then (Err ESyscall, s)
  else match p_fd (prog_at i s) with
       | Some _ => (Ok tt, note [Closed i] (put_prog i (with_fd None (prog_at i s)) s))
       | None => (Err ENotLoaded, s)
       end.
(** aya/src/programs/mod.rs:851-855: dropping a program unloads it; then its
    fields go, the descriptor before the (empty) set of links. *)
Definition drop_prog (i : nat) (s : st) : st :=
  let s := snd (unload i s) in
  let s := match p_fd (prog_at i s) with
           | Some _ => note [Closed i] (put_prog i (with_fd None (prog_at i s)) s)
           | None => s
           end in
  put_prog i (dead (prog_at i s)) s.

(** How a program is attached: with a BPF link, or by a call at a place; [dup]:
    identified by duplicated descriptors; [raw], [drops]: see [by_call],
    [link]. *)
Inductive how := AsLink | AsCall (m : mode) (place : Z) (dup raw drops : bool).
(** The attach functions, for example cgroup_skb.rs:80-117, tc.rs:362-424,
    xdp.rs:140-175, lirc_mode2.rs:71-90, sk_msg.rs:86-98: the program must be
    loaded, the kernel is asked, the link is kept. *)
Definition attach (i : nat) (h : how) (s : st) : res lerr key * st :=
  match p_fd (prog_at i s) with
  | None => (Err ENotLoaded, s)
  | Some g =>
      let (f, s) := ask s in
      if f then (Err ESyscall, s)
      else
        match h with
        | AsLink =>
            let (a, s) := take_next s in
            let (fd, s) := take_next s in
            insert i {| l_base := BFd fd; l_drop := true |} (note [MadeLink a] (set_fds (s_fds s ++ [(fd, a)]) s))
        | AsCall m place dup raw drops =>
            match kernel_attach m place g s with
            | None => (Err ESyscall, s)
            | Some (a, s) =>
                let (n, s) := take_next s in
                insert i {| l_base := BCall {| c_key := if dup then KDup n else KPlace m place; c_mode := m; c_place := place; c_prog := g; c_owner := i; c_raw := raw; c_att := a |}; l_drop := drops |} s
            end
        end
  end.

(** [attach_to_link] of tc.rs:319-360 and xdp.rs:192-240.  The link is taken
    apart before the kernel is asked; a failure loses what was in it.  For a
    raw (xdp netlink) link the kernel refuses (see C65). *)
Definition replace_prog (c : by_call) (g : Z) (s : st) : st :=
  set_slots (map (fun e => if matches c e then {| sl_mode := sl_mode e; sl_place := sl_place e; sl_prog := g; sl_att := sl_att e |} else e) (s_slots s)) s.
Definition attach_to_link (i : nat) (l : link) (s : st) : res lerr key * st :=
  match p_fd (prog_at i s) with
  | None => (Err ENotLoaded, drop_link l s)
  | Some g =>
      let (f, s) := ask s in
      match l_base l with
      | BFd fd => if f then (Err ESyscall, close_fd fd s) else insert i {| l_base := BFd fd; l_drop := true |} s
      | BCall c =>
          if f || c_raw c || negb (existsb (matches c) (s_slots s)) then (Err ESyscall, drop_base Leaked (BCall c) s)
          else insert i {| l_base := BCall {| c_key := c_key c; c_mode := c_mode c; c_place := c_place c; c_prog := g; c_owner := i; c_raw := false; c_att := c_att c |}; l_drop := l_drop l |} (replace_prog c g s)
      end
  end.

(** The program types that have it: tc and xdp. *)
Definition can_replace (l : link) : bool := match l_base l with BFd _ => true | BCall c => mode_eqb (c_mode c) MExclusive end.

(** * Histories *)

Definition take_nth {A} (n : nat) (l : list A) : option (A * list A) :=
  match nth_error l n with Some x => Some (x, firstn n l ++ skipn (S n) l) | None => None end.

(** What a caller can do.  [n] counts in the lists of things taken out. *)
Inductive op :=
| OLoad (i : nat) | OUnload (i : nat) | ODropProg (i : nat)
| OAttach (i : nat) (h : how) | ODetach (i : nat) (k : key) | OTake (i : nat) (k : key)
| ODropLink (n : nat)       (* drop a link taken out *)
| ODetachLink (n : nat)     (* detach it *)
| OInto (n : nat)           (* take its inside out: links.rs:543-547 *)
| OTryFd (n : nat)          (* the same for an [FdLink] only: links.rs:576-591 *)
| OWrap (n : nat)           (* make it a link again: links.rs:537-541 *)
| ODropBase (n : nat)       (* drop the inside of a link *)
| OPin (n : nat) (path : Z) (* links.rs:258-275 *)
| OFromPin (path : Z)       (* links.rs:329-342 *)
| OUnpin (n : nat)          (* links.rs:344-348 *)
| OPinned (n : nat)         (* links.rs:308-312 *)
| ODropPinned (n : nat)
| ORemovePin (path : Z)     (* the file is removed *)
| OToLink (i n : nat)       (* [attach_to_link] with a link taken out *)
| OForge (place : Z).       (* [SchedClassifierLink::attached] (tc.rs:598-613): a link for something at the place *)

Definition outcome {A} (r : res lerr A * st) : res lerr unit * st := match r with (Ok _, s) => (Ok tt, s) | (Err x, s) => (Err x, s) end.
Definition alive (i : nat) (s : st) (r : res lerr unit * st) : res lerr unit * st := if p_alive (prog_at i s) then r else (Err ENone, s).

Definition step (o : op) (s : st) : res lerr unit * st :=
  match o with
  | OLoad i => alive i s (load i s)
  | OUnload i => alive i s (unload i s)
  | ODropProg i => alive i s (Ok tt, drop_prog i s)
  | OAttach i h => alive i s (outcome (attach i h s))
  | ODetach i k =>
      alive i s
      match take_key k i s with
      | None => (Err ENotAttached, s)
      | Some (l, s) => let (ok, s) := detach_base (l_base l) s in (if ok then Ok tt else Err ESyscall, s)
      end
  | OTake i k =>
      alive i s
      match take_key k i s with
      | None => (Err ENotAttached, s)
      | Some (l, s) => (Ok tt, set_owned (s_owned s ++ [l]) s)
      end
  | ODropLink n => match take_nth n (s_owned s) with None => (Err ENone, s) | Some (l, r) => (Ok tt, drop_link l (set_owned r s)) end
  | ODetachLink n =>
      match take_nth n (s_owned s) with
      | None => (Err ENone, s)
      | Some (l, r) => let (ok, s) := detach_base (l_base l) (set_owned r s) in (if ok then Ok tt else Err ESyscall, s)
      end
  | OInto n =>
      match take_nth n (s_owned s) with
      | None => (Err ENone, s)
      | Some (l, r) => (Ok tt, set_bases (s_bases s ++ [l_base l]) (set_owned r s))
      end
  | OTryFd n =>
      match take_nth n (s_owned s) with
      | None => (Err ENone, s)
      | Some (l, r) =>
          match l_base l with
          | BFd fd => (Ok tt, set_bases (s_bases s ++ [BFd fd]) (set_owned r s))
          | BCall c => (Err EInvalidLink, drop_base Leaked (BCall c) (set_owned r s))
          end
      end
  | OWrap n =>
      match take_nth n (s_bases s) with
      | None => (Err ENone, s)
      | Some (b, r) => (Ok tt, set_owned (s_owned s ++ [{| l_base := b; l_drop := true |}]) (set_bases r s))
      end
  | ODropBase n =>
      match take_nth n (s_bases s) with
      | None => (Err ENone, s)
      | Some (b, r) => (Ok tt, drop_base Released b (set_bases r s))
      end
  | OPin n path =>
      match take_nth n (s_bases s) with
      | Some (BFd fd, r) =>
          let s := set_bases r s in
          let (f, s) := ask s in
          match att_of fd s with
          | Some a =>
              if f || existsb (fun p => fst p =? path) (s_pins s) then (Err EPin, close_fd fd s)
              else (Ok tt, set_pinned (s_pinned s ++ [(path, fd)]) (set_pins (s_pins s ++ [(path, a)]) s))
          | None => (Err EPin, s)
          end
      | _ => (Err ENone, s)
      end
  | OFromPin path =>
      match find (fun p => fst p =? path) (s_pins s) with
      | None => (Err ESyscall, s)
      | Some (_, a) =>
          let (f, s) := ask s in
          if f then (Err ESyscall, s)
          else let (fd, s) := take_next s in
               (Ok tt, set_pinned (s_pinned s ++ [(path, fd)]) (set_fds (s_fds s ++ [(fd, a)]) s))
      end
  | OUnpin n =>
      match take_nth n (s_pinned s) with
      | None => (Err ENone, s)
      | Some ((path, fd), r) =>
          let s := set_pinned r s in
          let (f, s) := ask s in
          match (if f then None else remove_pin path s) with
          | None => (Err EPin, close_fd fd s)
          | Some s => (Ok tt, set_bases (s_bases s ++ [BFd fd]) s)
          end
      end
  | OPinned n =>
      match take_nth n (s_pinned s) with
      | None => (Err ENone, s)
      | Some ((_, fd), r) => (Ok tt, set_bases (s_bases s ++ [BFd fd]) (set_pinned r s))
      end
  | ODropPinned n =>
      match take_nth n (s_pinned s) with
      | None => (Err ENone, s)
      | Some ((_, fd), r) => (Ok tt, close_fd fd (set_pinned r s))
      end
  | ORemovePin path => match remove_pin path s with None => (Err EPin, s) | Some s => (Ok tt, s) end
  | OToLink i n =>
      alive i s
      match take_nth n (s_owned s) with
      | None => (Err ENone, s)
      | Some (l, r) => if can_replace l then outcome (attach_to_link i l (set_owned r s)) else (Err ENone, s)
      end
  | OForge place =>
      (Ok tt, set_owned (s_owned s ++ [{| l_base := BCall {| c_key := KPlace MExclusive place; c_mode := MExclusive; c_place := place; c_prog := 0; c_owner := 0; c_raw := false;
                                            c_att := match find (fun e => mode_eqb (sl_mode e) MExclusive && (sl_place e =? place)) (s_slots s) with Some e => sl_att e | None => 0 end |}; l_drop := true |}]) s)
  end.

Fixpoint run (l : list op) (s : st) : st := match l with [] => s | o :: l => run l (snd (step o s)) end.

(** Programs as an object file gives them, and those opened from a pin
    (mod.rs:586-611), which have no object. *)
Definition from_object : prog := {| p_alive := true; p_obj := true; p_fd := None; p_links := [] |}.
Definition from_pinned (g : Z) : prog := {| p_alive := true; p_obj := false; p_fd := Some g; p_links := [] |}.
Definition initial (fails : list bool) (progs : list prog) : st :=
  {| s_next := 100; s_fail := fails; s_progs := progs; s_owned := []; s_bases := []; s_pinned := []; s_fds := []; s_pins := []; s_slots := []; s_lost := []; s_log := [] |}.
