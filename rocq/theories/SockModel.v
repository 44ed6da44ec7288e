(** Programs attached to sockets by setsockopt:
    /repo/aya/src/programs/socket_filter.rs (SocketFilter,
    ReusePortSocketFilter), sk_reuseport.rs (SkReuseport), and from
    /repo/aya/src/programs/mod.rs the conversions between the first two
    (1506-1542), unload and drop (836-858, 658-664), pin (666-686) and
    from_pin.

    Part one is the Linux side, an assumption: sockets, reuseport groups, the
    options the library sets, and when programs are freed (net/core/sock.c,
    net/core/filter.c, net/core/sock_reuseport.c as of v6.9). Left out: classic
    filters, the room a group has for closed sockets, memory other than the
    socket's option memory, and everything that runs the programs. Part two is
    the library. Part three are histories of both. *)
From Coq Require Import String.
From Verif Require Import Base Text.
Open Scope Z_scope.

(** * Linux *)

Definition EPERM : Z := 1.
Definition ENOENT : Z := 2.
Definition EBADF : Z := 9.
Definition ENOMEM : Z := 12.
Definition EBUSY : Z := 16.
Definition EINVAL : Z := 22.
Definition EMFILE : Z := 24.
Definition ENOTSOCK : Z := 88.
Definition ENOPROTOOPT : Z := 92.
Definition ENOTSUPP : Z := 524.

(** [s_filter] is sk->sk_filter (the program's id), [s_group] the number of
    sk->sk_reuseport_cb, [s_reuse] the flag SO_REUSEPORT, [s_bound] that the
    socket is hashed, [s_locked] SO_LOCK_FILTER, [s_inet] that it is TCP or UDP
    over IPv4 or IPv6, [s_full] that its option memory is used up. *)
Record sock := { s_filter : option Z; s_group : option nat; s_reuse : bool; s_bound : bool; s_locked : bool; s_inet : bool;
                 s_full : bool }.

(** What a descriptor refers to. *)
Inductive file := FSock (n : nat) | FProg (id : Z) | FOther.

(** [k_progs] are the programs that exist with their types, [k_groups] the
    selectors (reuse->prog) of the reuseport groups, [k_pins] the pinned
    programs. A socket exists while a descriptor refers to it. *)
Record kern := { k_files : list (Z * file); k_socks : list sock; k_groups : list (option Z); k_progs : list (Z * Z); k_pins : list Z }.

Definition file_at (K : kern) (fd : Z) : option file := assoc Z.eqb fd (k_files K).
Definition sock_at (K : kern) (n : nat) : option sock := nth_error (k_socks K) n.

Definition same_prog (id : Z) (o : option Z) : bool := match o with Some x => x =? id | None => false end.

(** Who keeps a program: descriptors, pins, the filter of an open socket, the
    selector of a group with an open socket. *)
Definition keeps (K : kern) (id : Z) (f : file) : bool :=
  match f with
  | FProg x => x =? id
  | FSock n =>
      match sock_at K n with
      | Some s => same_prog id (s_filter s) ||
                  match s_group s with Some g => match nth_error (k_groups K) g with Some o => same_prog id o | None => false end | None => false end
      | None => false
      end
  | FOther => false
  end.
Definition kept (K : kern) (id : Z) : bool := existsb (Z.eqb id) (k_pins K) || existsb (fun p => keeps K id (snd p)) (k_files K).

(** Programs nobody keeps are freed. *)
Definition collect (K : kern) : kern :=
  {| k_files := k_files K; k_socks := k_socks K; k_groups := k_groups K; k_pins := k_pins K;
     k_progs := filter (fun p => kept K (fst p)) (k_progs K) |}.

Definition with_sock (K : kern) (n : nat) (s : sock) : kern :=
  {| k_files := k_files K; k_socks := upd n s (k_socks K); k_groups := k_groups K; k_pins := k_pins K; k_progs := k_progs K |}.
Definition with_groups (K : kern) (g : list (option Z)) : kern :=
  {| k_files := k_files K; k_socks := k_socks K; k_groups := g; k_pins := k_pins K; k_progs := k_progs K |}.
Definition with_files (K : kern) (f : list (Z * file)) : kern :=
  {| k_files := f; k_socks := k_socks K; k_groups := k_groups K; k_pins := k_pins K; k_progs := k_progs K |}.
Definition set_filter (s : sock) (o : option Z) : sock :=
  {| s_filter := o; s_group := s_group s; s_reuse := s_reuse s; s_bound := s_bound s; s_locked := s_locked s; s_inet := s_inet s; s_full := s_full s |}.
Definition set_group (s : sock) (o : option nat) : sock :=
  {| s_filter := s_filter s; s_group := o; s_reuse := s_reuse s; s_bound := s_bound s; s_locked := s_locked s; s_inet := s_inet s; s_full := s_full s |}.

(** The outcome of a call: [None] for 0, otherwise the error number. *)
Definition outcome := option Z.

(** bpf_prog_get_type: the program a descriptor refers to, if of that type. *)
Definition prog_get (K : kern) (fd ty : Z) : res Z Z :=
  match file_at K fd with
  | None => Err EBADF
  | Some (FProg id) =>
      match assoc Z.eqb id (k_progs K) with Some t => if t =? ty then Ok id else Err EINVAL | None => Err EBADF end
  | Some _ => Err EINVAL
  end.

(** sk_attach_bpf (filter.c). *)
Definition sk_attach_bpf (K : kern) (n : nat) (s : sock) (ufd : Z) : outcome * kern :=
  if s_locked s then (Some EPERM, K)
  else match prog_get K ufd 1 with
       | Err e => (Some e, K)
       | Ok id => if s_full s then (Some ENOMEM, K) else (None, collect (with_sock K n (set_filter s (Some id))))
       end.

(** sk_detach_filter (filter.c). *)
Definition sk_detach_filter (K : kern) (n : nat) (s : sock) : outcome * kern :=
  if s_locked s then (Some EPERM, K)
  else match s_filter s with
       | None => (Some ENOENT, K)
       | Some _ => (None, collect (with_sock K n (set_filter s None)))
       end.

(** reuseport_attach_prog (sock_reuseport.c): an unbound socket gets a group
    of its own if it has none. *)
Definition reuseport_attach_prog (K : kern) (n : nat) (s : sock) (id : Z) : outcome * kern :=
  match s_group s with
  | Some g =>
      if s_bound s || s_reuse s then (None, collect (with_groups K (upd g (Some id) (k_groups K)))) else (Some EINVAL, K)
  | None =>
      if s_bound s then (Some EINVAL, K)
      else if s_reuse s
           then (None, collect (with_groups (with_sock K n (set_group s (Some (length (k_groups K))))) (k_groups K ++ [Some id])))
           else (Some EINVAL, K)
  end.

(** sk_reuseport_attach_bpf (filter.c): socket filters on any socket, programs
    of type sk_reuseport on TCP and UDP only. *)
Definition sk_reuseport_attach_bpf (K : kern) (n : nat) (s : sock) (ufd : Z) : outcome * kern :=
  if s_locked s then (Some EPERM, K)
  else match prog_get K ufd 1 with
       | Ok id => if s_full s then (Some ENOMEM, K) else reuseport_attach_prog K n s id
       | Err e =>
           if e =? EINVAL
           then match prog_get K ufd 21 with
                | Err e' => (Some e', K)
                | Ok id => if s_inet s then if s_full s then (Some ENOMEM, K) else reuseport_attach_prog K n s id else (Some ENOTSUPP, K)
                end
           else (Some e, K)
       end.

(** reuseport_detach_prog (sock_reuseport.c). *)
Definition reuseport_detach_prog (K : kern) (s : sock) : outcome * kern :=
  match s_group s with
  | None => (Some (if s_reuse s then ENOENT else EINVAL), K)
  | Some g =>
      match nth_error (k_groups K) g with
      | Some (Some _) => (None, collect (with_groups K (upd g None (k_groups K))))
      | _ => (Some ENOENT, K)
      end
  end.

(** The machine: byte order, and the number of SOL_SOCKET (0xffff on MIPS, 1
    elsewhere); [m_detach] that the kernel knows SO_DETACH_REUSEPORT_BPF
    (since 5.3). *)
Record machine := { m_big : bool; m_mips : bool; m_detach : bool }.
Definition int_bytes (M : machine) (v : Z) : list Z := if m_big M then rev (le_enc 4 (v mod 2 ^ 32)) else le_enc 4 (v mod 2 ^ 32).
Definition int_value (M : machine) (b : list Z) : Z := if m_big M then le_dec (rev b) else le_dec b.
Definition level_socket (M : machine) : Z := if m_mips M then 65535 else 1.

(** setsockopt (sk_setsockopt, sock.c): options of other levels and other
    options than the four are left out. *)
Definition setsockopt (M : machine) (K : kern) (fd level option : Z) (value : list Z) : outcome * kern :=
  match file_at K fd with
  | None => (Some EBADF, K)
  | Some (FSock n) =>
      match sock_at K n with
      | None => (Some EBADF, K)
      | Some s =>
          if negb (level =? level_socket M) then (Some ENOPROTOOPT, K)
          else if (length value <? 4)%nat then (Some EINVAL, K)
          else if option =? 50
               then if (length value =? 4)%nat then sk_attach_bpf K n s (int_value M value) else (Some EINVAL, K)
          else if option =? 27 then sk_detach_filter K n s
          else if option =? 52
               then if (length value =? 4)%nat then sk_reuseport_attach_bpf K n s (int_value M value) else (Some EINVAL, K)
          else if (option =? 68) && m_detach M then reuseport_detach_prog K s
          else (Some ENOPROTOOPT, K)
      end
  | Some _ => (Some ENOTSOCK, K)
  end.

(** close. *)
Definition close (K : kern) (fd : Z) : kern := collect (with_files K (filter (fun p => negb (fst p =? fd)) (k_files K))).

(** BPF_PROG_LOAD and BPF_OBJ_GET; the kernel's choice of descriptor and id is
    given, one that is not free stands for a failure. *)
Definition free_fd (K : kern) (fd : Z) : bool := (0 <=? fd) && (fd <? 2 ^ 31) && match file_at K fd with None => true | Some _ => false end.
Definition prog_load (K : kern) (ty fd id : Z) : outcome * kern :=
  if free_fd K fd && negb (existsb (fun p => fst p =? id) (k_progs K)) && negb (kept K id)
  then (None, {| k_files := (fd, FProg id) :: k_files K; k_socks := k_socks K; k_groups := k_groups K; k_pins := k_pins K;
                 k_progs := (id, ty) :: k_progs K |})
  else (Some EMFILE, K).
Definition obj_get (K : kern) (id fd : Z) : outcome * kern :=
  if existsb (Z.eqb id) (k_pins K)
  then if free_fd K fd then (None, with_files K ((fd, FProg id) :: k_files K)) else (Some EMFILE, K)
  else (Some ENOENT, K).
Definition obj_pin (K : kern) (fd : Z) : outcome * kern :=
  match file_at K fd with
  | Some (FProg id) =>
      (None, {| k_files := k_files K; k_socks := k_socks K; k_groups := k_groups K; k_progs := k_progs K; k_pins := id :: k_pins K |})
  | Some _ => (Some EINVAL, K)
  | None => (Some EBADF, K)
  end.

(** What the rest of the process does to sockets: a new one, a second
    descriptor for one, SO_REUSEPORT, SO_LOCK_FILTER, and bind, alone or to
    the address of a bound one, whose group it joins if both have the flag
    (inet_reuseport_add_sock). *)
Definition new_sock (K : kern) (fd : Z) (inet : bool) : outcome * kern :=
  if free_fd K fd
  then (None, {| k_files := (fd, FSock (length (k_socks K))) :: k_files K; k_groups := k_groups K; k_pins := k_pins K; k_progs := k_progs K;
                 k_socks := k_socks K ++ [{| s_filter := None; s_group := None; s_reuse := false; s_bound := false; s_locked := false;
                                             s_inet := inet; s_full := false |}] |})
  else (Some EMFILE, K).
Definition dup (K : kern) (fd fd' : Z) : outcome * kern :=
  match file_at K fd with
  | None => (Some EBADF, K)
  | Some f => if free_fd K fd' then (None, with_files K ((fd', f) :: k_files K)) else (Some EMFILE, K)
  end.
Definition on_sock (K : kern) (fd : Z) (act : nat -> sock -> outcome * kern) : outcome * kern :=
  match file_at K fd with
  | Some (FSock n) => match sock_at K n with Some s => act n s | None => (Some EBADF, K) end
  | Some _ => (Some ENOTSOCK, K)
  | None => (Some EBADF, K)
  end.
Definition set_reuse (K : kern) (fd : Z) (b : bool) : outcome * kern :=
  on_sock K fd (fun n s =>
    (None, with_sock K n {| s_filter := s_filter s; s_group := s_group s; s_reuse := b; s_bound := s_bound s; s_locked := s_locked s;
                            s_inet := s_inet s; s_full := s_full s |})).
Definition set_locked (K : kern) (fd : Z) : outcome * kern :=
  on_sock K fd (fun n s =>
    (None, with_sock K n {| s_filter := s_filter s; s_group := s_group s; s_reuse := s_reuse s; s_bound := s_bound s; s_locked := true;
                            s_inet := s_inet s; s_full := s_full s |})).
Definition bound (s : sock) (g : option nat) : sock :=
  {| s_filter := s_filter s; s_group := g; s_reuse := s_reuse s; s_bound := true; s_locked := s_locked s; s_inet := s_inet s; s_full := s_full s |}.
Definition bind_alone (K : kern) (fd : Z) : outcome * kern :=
  on_sock K fd (fun n s =>
    if s_bound s then (Some EINVAL, K)
    else if s_reuse s
         then match s_group s with
              | Some g => (None, with_sock K n (bound s (Some g)))
              | None => (None, with_groups (with_sock K n (bound s (Some (length (k_groups K))))) (k_groups K ++ [None]))
              end
         else (None, with_sock K n (bound s (s_group s)))).
Definition bind_with (K : kern) (fd fd2 : Z) : outcome * kern :=
  on_sock K fd (fun n s => on_sock K fd2 (fun _ s2 =>
    if s_bound s then (Some EINVAL, K)
    else if s_reuse s && s_reuse s2 && s_bound s2
         then match s_group s2 with
              | Some g => (None, collect (with_sock K n (bound s (Some g))))
              | None => (Some EBUSY, K)
              end
         else (Some EBUSY, K))).

(** * The library *)

(** The three program abstractions. [p_variant] is the variant of [Program] a
    program is stored as; [p_fd] is [ProgramData::fd]. *)
Inductive view := SocketFilter | ReusePortSocketFilter | SkReuseport.
Record prog := { p_variant : view; p_fd : option Z }.

(** ProgramError as far as it is met here. The two wrapped errors carry the
    name of the option and the error number. *)
Inductive error :=
| UnexpectedProgramType | AlreadyLoaded | NotLoaded | LoadError (e : Z) | PinNoFd | PinCall (e : Z) | GetCall (e : Z)
| SocketFilterError (option : list Z) (e : Z) | SkReuseportError (option : list Z) (e : Z).

(** TryFrom<&Program> (mod.rs 1506-1542, 1454-1479): socket filters can be
    taken for reuseport selectors and back, the reference is cast. *)
Definition as_view (v : view) (p : prog) : res error prog :=
  match v, p_variant p with
  | SocketFilter, SocketFilter => Ok p
  | SocketFilter, ReusePortSocketFilter => Ok p
  | ReusePortSocketFilter, ReusePortSocketFilter => Ok p
  | ReusePortSocketFilter, SocketFilter => Ok p
  | SkReuseport, SkReuseport => Ok p
  | _, _ => Err UnexpectedProgramType
  end.

(** The options: SO_ATTACH_BPF and SO_DETACH_BPF of the generated bindings
    (linux_bindings_*.rs 299-300, the same on every architecture), the others
    of libc. *)
Definition SO_ATTACH_BPF : Z := 50.
Definition SO_DETACH_BPF : Z := 27.
Definition SO_ATTACH_REUSEPORT_EBPF : Z := 52.
Definition SO_DETACH_REUSEPORT_BPF : Z := 68.

(** load (socket_filter.rs 128-131, 315-318, sk_reuseport.rs 148-151):
    load_program refuses loaded programs. The attach type of SkReuseport does
    not matter here. *)
Definition load_type (v : view) : Z := match v with SocketFilter => 1 | ReusePortSocketFilter => 1 | SkReuseport => 21 end.
Definition load (K : kern) (v : view) (p : prog) (fd id : Z) : res error unit * prog * kern :=
  match p_fd p with
  | Some _ => (Err AlreadyLoaded, p, K)
  | None =>
      match prog_load K (load_type v) fd id with
      | (None, K') => (Ok tt, {| p_variant := p_variant p; p_fd := Some fd |}, K')
      | (Some e, _) => (Err (LoadError e), p, K)
      end
  end.

(** The macros setsockopt_socket_filter! (socket_filter.rs 22-43) and
    setsockopt_reuseport! (sk_reuseport.rs 21-42): a value of type c_int, its
    size as length. *)
Definition call (M : machine) (K : kern) (sk opt : Z) (v : Z) (wrap : Z -> error) : res error unit * kern :=
  match setsockopt M K sk (level_socket M) opt (int_bytes M v) with
  | (None, K') => (Ok tt, K')
  | (Some e, K') => (Err (wrap e), K')
  end.

(** attach (socket_filter.rs 138-149, 324-335, sk_reuseport.rs 161-167). *)
Definition attach (M : machine) (K : kern) (v : view) (p : prog) (sk : Z) : res error unit * kern :=
  match p_fd p with
  | None => (Err NotLoaded, K)
  | Some fd =>
      match v with
      | SocketFilter => call M K sk SO_ATTACH_BPF fd (SocketFilterError (txt "SO_ATTACH_BPF"))
      | ReusePortSocketFilter => call M K sk SO_ATTACH_REUSEPORT_EBPF fd (SocketFilterError (txt "SO_ATTACH_REUSEPORT_EBPF"))
      | SkReuseport => call M K sk SO_ATTACH_REUSEPORT_EBPF fd (SkReuseportError (txt "SO_ATTACH_REUSEPORT_EBPF"))
      end
  end.

(** detach (socket_filter.rs 160-179, 344-360, sk_reuseport.rs 176-186). *)
Definition detach (M : machine) (K : kern) (v : view) (sk : Z) : res error unit * kern :=
  match v with
  | SocketFilter => call M K sk SO_DETACH_BPF 0 (SocketFilterError (txt "SO_DETACH_BPF"))
  | ReusePortSocketFilter => call M K sk SO_DETACH_REUSEPORT_BPF 0 (SocketFilterError (txt "SO_DETACH_REUSEPORT_BPF"))
  | SkReuseport => call M K sk SO_DETACH_REUSEPORT_BPF 0 (SkReuseportError (txt "SO_DETACH_REUSEPORT_BPF"))
  end.

(** unload (mod.rs 658-664): no links are tracked for these kinds; the
    descriptor is dropped. *)
Definition unload (K : kern) (p : prog) : res error unit * prog * kern :=
  match p_fd p with
  | None => (Err NotLoaded, p, K)
  | Some fd => (Ok tt, {| p_variant := p_variant p; p_fd := None |}, close K fd)
  end.

(** pin (mod.rs 666-686) and from_pin; paths stand for the program pinned. *)
Definition pin (K : kern) (p : prog) : res error unit * kern :=
  match p_fd p with
  | None => (Err PinNoFd, K)
  | Some fd => match obj_pin K fd with (None, K') => (Ok tt, K') | (Some e, _) => (Err (PinCall e), K) end
  end.
Definition from_pin (K : kern) (v : view) (id fd : Z) : res error prog * kern :=
  match obj_get K id fd with
  | (None, K') => (Ok {| p_variant := v; p_fd := Some fd |}, K')
  | (Some e, _) => (Err (GetCall e), K)
  end.

(** * Histories *)

(** The program objects of the process and the kernel. *)
Record state := { st_progs : list prog; st_kern : kern }.

(** [ODrop] is dropping a program, whose result is ignored (mod.rs 851-855). *)
Inductive op :=
| OLoad (i : nat) (v : view) (fd id : Z) | OAttach (i : nat) (v : view) (sk : Z) | ODetach (v : view) (sk : Z) | OUnload (i : nat) | ODrop (i : nat)
| OPin (i : nat) | OFromPin (v : view) (id fd : Z) | OSocket (fd : Z) (inet : bool) | ODup (fd fd' : Z) | OClose (fd : Z)
| OReuse (fd : Z) (b : bool) | OLock (fd : Z) | OBind (fd : Z) | OBindWith (fd fd2 : Z).

(** Results: the library's, or the kernel's for what the process does itself,
    or that there is no such program. *)
Inductive result := RLib (r : res error unit) | RSys (o : outcome) | RNone.

Definition put (T : state) (i : nat) (p : prog) (K : kern) : state := {| st_progs := upd i p (st_progs T); st_kern := K |}.
Definition kernel_did (T : state) (x : outcome * kern) : result * state := (RSys (fst x), {| st_progs := st_progs T; st_kern := snd x |}).

Definition step (M : machine) (o : op) (T : state) : result * state :=
  let K := st_kern T in
  match o with
  | OLoad i v fd id =>
      match nth_error (st_progs T) i with
      | None => (RNone, T)
      | Some p => match as_view v p with
                  | Err e => (RLib (Err e), T)
                  | Ok p => let '(r, p', K') := load K v p fd id in (RLib r, put T i p' K')
                  end
      end
  | OAttach i v sk =>
      match nth_error (st_progs T) i with
      | None => (RNone, T)
      | Some p => match as_view v p with
                  | Err e => (RLib (Err e), T)
                  | Ok p => let '(r, K') := attach M K v p sk in (RLib r, put T i p K')
                  end
      end
  | ODetach v sk => let '(r, K') := detach M K v sk in (RLib r, {| st_progs := st_progs T; st_kern := K' |})
  | OUnload i =>
      match nth_error (st_progs T) i with
      | None => (RNone, T)
      | Some p => let '(r, p', K') := unload K p in (RLib r, put T i p' K')
      end
  | ODrop i =>
      match nth_error (st_progs T) i with
      | None => (RNone, T)
      | Some p => let '(_, p', K') := unload K p in (RLib (Ok tt), put T i p' K')
      end
  | OPin i =>
      match nth_error (st_progs T) i with
      | None => (RNone, T)
      | Some p => let '(r, K') := pin K p in (RLib r, put T i p K')
      end
  | OFromPin v id fd =>
      match from_pin K v id fd with
      | (Ok p, K') => (RLib (Ok tt), {| st_progs := st_progs T ++ [p]; st_kern := K' |})
      | (Err e, K') => (RLib (Err e), {| st_progs := st_progs T; st_kern := K' |})
      end
  | OSocket fd inet => kernel_did T (new_sock K fd inet)
  | ODup fd fd' => kernel_did T (dup K fd fd')
  | OClose fd => kernel_did T (match file_at K fd with Some (FSock _) => (None, close K fd) | _ => (Some EBADF, K) end)
  | OReuse fd b => kernel_did T (set_reuse K fd b)
  | OLock fd => kernel_did T (set_locked K fd)
  | OBind fd => kernel_did T (bind_alone K fd)
  | OBindWith fd fd2 => kernel_did T (bind_with K fd fd2)
  end.

Fixpoint run (M : machine) (h : list op) (T : state) : state := match h with [] => T | o :: r => run M r (snd (step M o T)) end.
