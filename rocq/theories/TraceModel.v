(** Programs at trace points, and iterators: aya/src/programs/trace_point.rs,
    iter.rs, perf_attach.rs, utils.rs ([find_tracefs_path]), over a small model
    of the kernel's perf events, links and descriptors.

    Simplifications: tracefs is looked for at every attach (the code remembers
    where it was first found); link identifiers are the links themselves;
    numbers of descriptors are never used again. *)
From Coq Require Import String.
From Verif Require Import Base Text TextParse TextSplit LogModel.
Local Open Scope Z_scope.

(** * The kernel *)

(** A perf event for a trace point, with the program set on it by ioctl and
    whether it is enabled; events are opened enabled. *)
Record perf := { pf_id : Z; pf_prog : option Z; pf_on : bool }.
(** What a link attaches a program to: a perf event, or an iterator target,
    which was chosen when the program was loaded. *)
Inductive site := AtPerf (n : nat) | AtIter.
Record klink := { kl_prog : Z; kl_site : site; kl_cookie : option Z }.
(** What descriptors refer to: events, links, and open iterators of a link. *)
Inductive object := OPerf (n : nat) | OLink (n : nat) | OIter (n : nat).
(** [k_fail]: which of the next calls fail. Objects without references stay in
    the lists, without effect. *)
Record kernel := { k_perfs : list perf; k_links : list klink; k_fds : list (Z * object); k_next : Z; k_fail : list bool }.

Definition call (k : kernel) : bool * kernel :=
  match k_fail k with
  | [] => (false, k)
  | f :: r => (f, {| k_perfs := k_perfs k; k_links := k_links k; k_fds := k_fds k; k_next := k_next k; k_fail := r |})
  end.
Definition new_fd (o : object) (k : kernel) : Z * kernel :=
  (k_next k, {| k_perfs := k_perfs k; k_links := k_links k; k_fds := k_fds k ++ [(k_next k, o)]; k_next := k_next k + 1; k_fail := k_fail k |}).
Definition close (fd : Z) (k : kernel) : kernel :=
  {| k_perfs := k_perfs k; k_links := k_links k; k_fds := filter (fun x => negb (fst x =? fd)) (k_fds k); k_next := k_next k; k_fail := k_fail k |}.
Definition object_at (fd : Z) (k : kernel) : option object := option_map snd (find (fun x => fst x =? fd) (k_fds k)).

(** perf_event_open for a trace point. *)
Definition perf_open (id : Z) (k : kernel) : option Z * kernel :=
  let (f, k) := call k in
  if f then (None, k)
  else
    let '(fd, k) := new_fd (OPerf (length (k_perfs k))) k in
    (Some fd, {| k_perfs := k_perfs k ++ [{| pf_id := id; pf_prog := None; pf_on := true |}]; k_links := k_links k; k_fds := k_fds k; k_next := k_next k; k_fail := k_fail k |}).
(** BPF_LINK_CREATE. *)
Definition link_create (prog : Z) (s : site) (cookie : option Z) (k : kernel) : option Z * kernel :=
  let (f, k) := call k in
  if f then (None, k)
  else
    let '(fd, k) := new_fd (OLink (length (k_links k))) k in
    (Some fd, {| k_perfs := k_perfs k; k_links := k_links k ++ [{| kl_prog := prog; kl_site := s; kl_cookie := cookie |}]; k_fds := k_fds k; k_next := k_next k; k_fail := k_fail k |}).
(** The ioctls on events. *)
Definition ioctl (fd : Z) (g : perf -> perf) (k : kernel) : bool * kernel :=
  let (f, k) := call k in
  if f then (false, k)
  else
    match object_at fd k with
    | Some (OPerf n) =>
        match nth_error (k_perfs k) n with
        | Some p => (true, {| k_perfs := upd n (g p) (k_perfs k); k_links := k_links k; k_fds := k_fds k; k_next := k_next k; k_fail := k_fail k |})
        | None => (false, k)
        end
    | _ => (false, k)
    end.
(** BPF_ITER_CREATE: an open iterator keeps the link alive. *)
Definition iter_create (fd : Z) (k : kernel) : option Z * kernel :=
  let (f, k) := call k in
  if f then (None, k)
  else
    match object_at fd k with
    | Some (OLink n) =>
        match nth_error (k_links k) n with
        | Some {| kl_site := AtIter |} => let '(fd, k) := new_fd (OIter n) k in (Some fd, k)
        | _ => (None, k)
        end
    | _ => (None, k)
    end.

(** * The library *)

(** [e_tracefs]: whether a directory exists and has entries; [e_files]: files
    that can be read; the features detected (C46). *)
Record env := { e_tracefs : list Z -> bool; e_files : list Z -> option (list Z); e_perf_link : bool; e_cookie : bool }.
Inductive terr := ENotLoaded | ENoTracefs | EFile (path : list Z) | ESyscall (call : list Z) | ECookie | EInvalidLink.
(** perf_attach.rs 25-29. *)
Inductive plink := LFd (fd : Z) | LPerf (fd : Z).

(** utils.rs 33-59. *)
Definition find_tracefs (e : env) : option (list Z) :=
  find (e_tracefs e) [txt "/sys/kernel/tracing"; txt "/sys/kernel/debug/tracing"].
(** [Path::join]: an absolute path replaces what it is joined to. *)
Definition slash (a b : list Z) : list Z :=
  if starts_with [47] b then b else if (last a 47 =? 47) then a ++ b else a ++ 47 :: b.
(** trace_point.rs 106-130. *)
Definition read_id (e : env) (tracefs category name : list Z) : res terr Z :=
  let filename := slash (slash (slash (slash tracefs (txt "events")) category) name) (txt "id") in
  match e_files e filename with
  | None => Err (EFile filename)
  | Some t => if negb (utf8 t) then Err (EFile filename) else match dec_u64 (trim t) with Some id => Ok id | None => Err (EFile filename) end
  end.

Definition set_prog (g : Z) (p : perf) : perf := {| pf_id := pf_id p; pf_prog := Some g; pf_on := pf_on p |}.
Definition set_on (b : bool) (p : perf) : perf := {| pf_id := pf_id p; pf_prog := pf_prog p; pf_on := b |}.

(** perf_attach.rs 102-122: the event's descriptor is dropped at the end. *)
Definition attach_bpf_link (e : env) (prog pfd : Z) (cookie : option Z) (k : kernel) : res terr Z * kernel :=
  match cookie, e_cookie e with
  | Some _, false => (Err ECookie, close pfd k)
  | _, _ =>
      match (match object_at pfd k with Some (OPerf n) => link_create prog (AtPerf n) cookie k | _ => (None, k) end) with
      | (Some fd, k) => (Ok fd, close pfd k)
      | (None, k) => (Err (ESyscall (txt "bpf_link_create")), close pfd k)
      end
  end.
(** perf_attach.rs 124-147, without a probe event. *)
Definition attach_perf_event (prog pfd : Z) (k : kernel) : res terr Z * kernel :=
  match ioctl pfd (set_prog prog) k with
  | (false, k) => (Err (ESyscall (txt "PERF_EVENT_IOC_SET_BPF")), close pfd k)
  | (true, k) =>
      match ioctl pfd (set_on true) k with
      | (false, k) => (Err (ESyscall (txt "PERF_EVENT_IOC_ENABLE")), close pfd k)
      | (true, k) => (Ok pfd, k)
      end
  end.
(** perf_attach.rs 86-100. *)
Definition perf_attach (e : env) (prog pfd : Z) (cookie : option Z) (k : kernel) : res terr plink * kernel :=
  if e_perf_link e then
    match attach_bpf_link e prog pfd cookie k with (Ok fd, k) => (Ok (LFd fd), k) | (Err x, k) => (Err x, k) end
  else
    match cookie with
    | Some _ => (Err ECookie, close pfd k)
    | None => match attach_perf_event prog pfd k with (Ok fd, k) => (Ok (LPerf fd), k) | (Err x, k) => (Err x, k) end
    end.
(** trace_point.rs 66-81. *)
Definition attach_trace_point (e : env) (prog : option Z) (category name : list Z) (k : kernel) : res terr plink * kernel :=
  match prog with
  | None => (Err ENotLoaded, k)
  | Some prog =>
      match find_tracefs e with
      | None => (Err ENoTracefs, k)
      | Some t =>
          match read_id e t category name with
          | Err x => (Err x, k)
          | Ok id =>
              match perf_open id k with
              | (None, k) => (Err (ESyscall (txt "perf_event_open_trace_point")), k)
              | (Some pfd, k) => perf_attach e prog pfd None k
              end
          end
      end
  end.

(** perf_attach.rs 41-46 and 73-82, and dropping the link (links.rs 516-524):
    what the ioctl says is ignored. *)
Definition detach (l : plink) (k : kernel) : kernel :=
  match l with
  | LFd fd => close fd k
  | LPerf fd => let '(_, k) := ioctl fd (set_on false) k in close fd k
  end.
(** mod.rs [impl_try_into_fdlink]: the descriptor to pin a link with. *)
Definition into_fd_link (l : plink) (k : kernel) : res terr Z * kernel :=
  match l with LFd fd => (Ok fd, k) | LPerf fd => (Err EInvalidLink, close fd k) end.

(** iter.rs 74-88. *)
Definition attach_iter (prog : option Z) (k : kernel) : res terr plink * kernel :=
  match prog with
  | None => (Err ENotLoaded, k)
  | Some prog =>
      match link_create prog AtIter None k with
      | (Some fd, k) => (Ok (LFd fd), k)
      | (None, k) => (Err (ESyscall (txt "bpf_link_create")), k)
      end
  end.
(** iter.rs 110-128: the link goes at the end, in every case. *)
Definition into_file (l : plink) (k : kernel) : res terr Z * kernel :=
  match l with
  | LFd fd =>
      match iter_create fd k with
      | (Some f, k) => (Ok f, close fd k)
      | (None, k) => (Err (ESyscall (txt "bpf_iter_create")), close fd k)
      end
  | LPerf fd => (Err EInvalidLink, close fd k)
  end.
