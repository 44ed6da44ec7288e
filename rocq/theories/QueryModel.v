(** Asking the kernel which programs are attached.

    Sources: aya/src/programs/mod.rs 795-835 ([query]), aya/src/sys/bpf.rs
    635-668 ([bpf_prog_query]), aya/src/programs/tc.rs 447-471 ([query_tcx]),
    aya/src/programs/lirc_mode2.rs 108-122 and cgroup_device.rs 110-131
    ([query]), aya/src/programs/links.rs 439-447 ([ProgAttachLink::detach]),
    515-523 (dropping a wrapper). *)
From Verif Require Import Base.
Local Open Scope Z_scope.

(** * The kernel *)

(** A program at a hook: its number and whether a BPF link put it there. *)
Record entry := { en_id : Z; en_link : bool }.
Record hook := { hk_progs : list entry; hk_rev : Z }.
Definition ids (h : hook) : list Z := map en_id (hk_progs h).
Definition ENOSPC : Z := 28.

(** What one call does: the error, what is written to the buffer, the count
    and the revision stored in the request.  kernel/bpf/cgroup.c
    [__cgroup_bpf_query], kernel/bpf/mprog.c [bpf_mprog_query],
    drivers/media/rc/bpf-lirc.c [lirc_prog_query]: the count is stored first;
    what fits is copied.  A call that fails otherwise changes nothing. *)
Inductive reply := Sees (h : hook) | Fails (errno : Z).
Record answer := { an_err : option Z; an_write : list Z; an_cnt : Z; an_rev : Z }.
Definition kernel_query (r : reply) (room : nat) : answer :=
  match r with
  | Fails e => {| an_err := Some e; an_write := []; an_cnt := Z.of_nat room; an_rev := 0 |}
  | Sees h =>
      let l := ids h in
      {| an_err := if ((room =? 0) || (length l <=? room))%nat then None else Some ENOSPC;
         an_write := firstn room l; an_cnt := Z.of_nat (length l); an_rev := hk_rev h |}
  end.

(** * [query] *)

(** [Vec::resize] with zeroes. *)
Definition resize (n : nat) (l : list Z) : list Z := firstn n l ++ repeat 0 (n - length l).
(** The buffer after the kernel wrote to its start. *)
Definition written (w buf : list Z) : list Z := w ++ skipn (length w) buf.
(** [r1] and [r2] are what the kernel does with the first and the second
    call. *)
Definition query (r1 r2 : reply) : res Z (Z * list Z) :=
  let buf := repeat 0 64 in
  let a := kernel_query r1 (length buf) in
  let buf := written (an_write a) buf in
  match an_err a with
  | None => Ok (an_rev a, resize (Z.to_nat (an_cnt a)) buf)
  | Some e =>
      if e =? ENOSPC then
        let buf := resize (Z.to_nat (an_cnt a)) buf in
        let a := kernel_query r2 (length buf) in
        let buf := written (an_write a) buf in
        match an_err a with
        | None => Ok (an_rev a, resize (Z.to_nat (an_cnt a)) buf)
        | Some e => Err e
        end
      else Err e
  end.

(** * Its callers *)

(** [BPF_PROG_GET_FD_BY_ID] and what is made of the descriptor: [get] tells
    for which programs that works. *)
Definition query_tcx (r1 r2 : reply) (get : Z -> res Z Z) : res Z (Z * list Z) :=
  bind (query r1 r2) (fun '(rev, l) => bind (mapM get l) (fun l => Ok (rev, l))).

(** [BPF_PROG_DETACH] of a program: kernel/bpf/cgroup.c [find_detach_entry]
    finds the one put there without a link. *)
Fixpoint remove_prog (id : Z) (l : list entry) : list entry :=
  match l with
  | [] => []
  | e :: l => if (en_id e =? id) && negb (en_link e) then l else e :: remove_prog id l
  end.
Definition kernel_detach (id : Z) (h : hook) : hook := {| hk_progs := remove_prog id (hk_progs h); hk_rev := hk_rev h |}.

(** The links made from the numbers, up to the first failure. *)
Fixpoint make_links (get : Z -> res Z Z) (l : list Z) : list Z * option Z :=
  match l with
  | [] => ([], None)
  | id :: l =>
      match get id with
      | Err e => ([], Some e)
      | Ok _ => let '(made, err) := make_links get l in (id :: made, err)
      end
  end.
(** Dropping a list of links: a wrapper detaches, a [LircLink] does not. *)
Definition drop_links (wrapper : bool) (l : list Z) (h : hook) : hook := if wrapper then fold_left (fun h id => kernel_detach id h) l h else h.
(** A query for links and the hook after it: the links made before a failure
    are dropped with the error. *)
Definition query_links (wrapper : bool) (h : hook) (get : Z -> res Z Z) : res Z (list Z) * hook :=
  match query (Sees h) (Sees h) with
  | Err e => (Err e, h)
  | Ok (_, l) =>
      match make_links get l with
      | (made, None) => (Ok made, h)
      | (made, Some e) => (Err e, drop_links wrapper made h)
      end
  end.
Definition lirc_query := query_links false.
Definition device_query := query_links true.
(** What the caller does with the result of a query: looks at it and drops
    it. *)
Definition look (wrapper : bool) (q : res Z (list Z) * hook) : hook :=
  match q with
  | (Ok l, h) => drop_links wrapper l h
  | (Err _, h) => h
  end.
