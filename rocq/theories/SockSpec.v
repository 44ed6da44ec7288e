(** What is claimed about programs attached to sockets. Only the state's
    fields are used, none of the functions of the model. *)
From Coq Require Import String.
From Verif Require Import Base Text SockModel.
Open Scope Z_scope.

(** The two slots. *)
Definition filter_of (K : kern) (n : nat) : option Z := match nth_error (k_socks K) n with Some s => s_filter s | None => None end.
Definition group_of (K : kern) (n : nat) : option nat := match nth_error (k_socks K) n with Some s => s_group s | None => None end.
Definition selector (K : kern) (g : nat) : option Z := nth g (k_groups K) None.
Definition selector_of (K : kern) (n : nat) : option Z := match group_of K n with Some g => selector K g | None => None end.

(** A program exists, and somebody needs it. *)
Definition exists_prog (K : kern) (id : Z) : Prop := In id (map fst (k_progs K)).
Definition needed (K : kern) (id : Z) : Prop :=
  In id (k_pins K) \/ (exists fd, In (fd, FProg id) (k_files K)) \/
  (exists fd n, In (fd, FSock n) (k_files K) /\ (filter_of K n = Some id \/ selector_of K n = Some id)).

(** Kernel states that make sense: descriptors and ids are unambiguous,
    sockets and groups exist, and exactly the needed programs do. *)
Record sound (K : kern) : Prop := {
  snd_fds : NoDup (map fst (k_files K));
  snd_range : forall fd f, In (fd, f) (k_files K) -> 0 <= fd < 2 ^ 31;
  snd_ids : NoDup (map fst (k_progs K));
  snd_socks : forall fd n, In (fd, FSock n) (k_files K) -> (n < length (k_socks K))%nat;
  snd_groups : forall n g, group_of K n = Some g -> (g < length (k_groups K))%nat;
  snd_needed : forall id, exists_prog K id <-> needed K id }.

(** Program objects own their descriptors, each its own. *)
Record owns (P : list prog) (K : kern) : Prop := {
  own_file : forall i p fd, nth_error P i = Some p -> p_fd p = Some fd -> exists id, In (fd, FProg id) (k_files K);
  own_alone : forall i j p q fd, nth_error P i = Some p -> nth_error P j = Some q -> p_fd p = Some fd -> p_fd q = Some fd -> i = j }.
Definition good (T : state) : Prop := sound (st_kern T) /\ owns (st_progs T) (st_kern T).

(** The abstraction decides the slot: the socket's own or its group's. *)
Definition own_slot (v : view) : bool := match v with SocketFilter => true | _ => false end.

(** After setting the filter of socket [n] to [o] nothing else is different. *)
Definition only_filter (n : nat) (o : option Z) (K K' : kern) : Prop :=
  filter_of K' n = o /\ (forall m, m <> n -> filter_of K' m = filter_of K m) /\
  (forall m, group_of K' m = group_of K m) /\ (forall g, selector K' g = selector K g) /\
  length (k_socks K') = length (k_socks K) /\ length (k_groups K') = length (k_groups K) /\
  k_files K' = k_files K /\ k_pins K' = k_pins K.

(** After setting the selector of the group of [n] to [o] nothing else is
    different, except that [n] may have got a group of its own. *)
Definition only_selector (n : nat) (o : option Z) (K K' : kern) : Prop :=
  (exists g, group_of K' n = Some g /\
     (group_of K n = Some g \/ (group_of K n = None /\ (length (k_groups K) <= g)%nat /\ forall m, m <> n -> group_of K' m <> Some g)) /\
     selector K' g = o /\ (forall x, x <> g -> selector K' x = selector K x)) /\
  (forall m, filter_of K' m = filter_of K m) /\ (forall m, m <> n -> group_of K' m = group_of K m) /\
  length (k_socks K') = length (k_socks K) /\ (length (k_groups K) <= length (k_groups K'))%nat /\
  k_files K' = k_files K /\ k_pins K' = k_pins K.

Definition only_slot (v : view) (n : nat) (o : option Z) (K K' : kern) : Prop :=
  if own_slot v then only_filter n o K K' else only_selector n o K K'.
Definition slot_of (v : view) (K : kern) (n : nat) : option Z := if own_slot v then filter_of K n else selector_of K n.

(** The options, as the kernel's headers call and number them, and the error
    they are reported in. *)
Definition reported (v : view) (attaching : bool) (e : Z) : error :=
  match v, attaching with
  | SocketFilter, true => SocketFilterError (txt "SO_ATTACH_BPF") e
  | SocketFilter, false => SocketFilterError (txt "SO_DETACH_BPF") e
  | ReusePortSocketFilter, true => SocketFilterError (txt "SO_ATTACH_REUSEPORT_EBPF") e
  | ReusePortSocketFilter, false => SocketFilterError (txt "SO_DETACH_REUSEPORT_BPF") e
  | SkReuseport, true => SkReuseportError (txt "SO_ATTACH_REUSEPORT_EBPF") e
  | SkReuseport, false => SkReuseportError (txt "SO_DETACH_REUSEPORT_BPF") e
  end.

(** When attaching program [id] of type [ty] to a socket works. *)
Definition takes (v : view) (ty : Z) (s : sock) : Prop :=
  s_locked s = false /\ s_full s = false /\
  if own_slot v then ty = 1
  else (ty = 1 \/ ty = 21 /\ s_inet s = true) /\
       match s_group s with Some _ => s_bound s = true \/ s_reuse s = true | None => s_bound s = false /\ s_reuse s = true end.

(** When detaching from a socket works. *)
Definition gives_up (M : machine) (v : view) (K : kern) (n : nat) (s : sock) : Prop :=
  slot_of v K n <> None /\ if own_slot v then s_locked s = false else m_detach M = true.

(** Operations that may change what is in the filter slot of socket [n], and
    in the selector of group [g]. *)
Definition meets (K : kern) (sk : Z) (n : nat) : Prop := In (sk, FSock n) (k_files K).
Definition meets_group (K : kern) (sk : Z) (g : nat) : Prop := exists n, meets K sk n /\ group_of K n = Some g.
Definition changes_filter (K : kern) (o : op) (n : nat) : Prop :=
  match o with OAttach _ SocketFilter sk => meets K sk n | ODetach SocketFilter sk => meets K sk n | _ => False end.
Definition changes_selector (K : kern) (o : op) (g : nat) : Prop :=
  match o with
  | OAttach _ ReusePortSocketFilter sk | OAttach _ SkReuseport sk | ODetach ReusePortSocketFilter sk | ODetach SkReuseport sk => meets_group K sk g
  | _ => False
  end.

(** No operation of a history does, each in the state it meets. *)
Fixpoint never (M : machine) (ch : kern -> op -> Prop) (h : list op) (T : state) : Prop :=
  match h with [] => True | o :: r => ~ ch (st_kern T) o /\ never M ch r (snd (step M o T)) end.

(** The beginning: nothing is open, nothing is loaded. *)
Definition nothing : kern := {| k_files := []; k_socks := []; k_groups := []; k_progs := []; k_pins := [] |}.
Definition fresh_start (T : state) : Prop := st_kern T = nothing /\ forall p, In p (st_progs T) -> p_fd p = None.
Definition reached (M : machine) (T : state) : Prop := exists T0 h, fresh_start T0 /\ T = run M h T0.

(** Kinds of program with the same section, hence the same program type. *)
Definition same_kind (v w : view) : Prop := v = w \/ (v <> SkReuseport /\ w <> SkReuseport).

(** The program a program object stands for. *)
Definition stands_for (p : prog) (K : kern) (id t : Z) : Prop :=
  (exists fd, p_fd p = Some fd /\ In (fd, FProg id) (k_files K)) /\ In (id, t) (k_progs K).

(** The socket a descriptor stands for. *)
Definition opens (K : kern) (sk : Z) (n : nat) (s : sock) : Prop := In (sk, FSock n) (k_files K) /\ nth_error (k_socks K) n = Some s.

(** The program types a kind is loaded as (BPF_PROG_TYPE_SOCKET_FILTER,
    BPF_PROG_TYPE_SK_REUSEPORT). *)
Definition program_type (v : view) : Z := match v with SkReuseport => 21 | _ => 1 end.
(** Nothing but descriptors, programs and pins is different. *)
Definition sockets_same (K K' : kern) : Prop := k_socks K' = k_socks K /\ k_groups K' = k_groups K.
