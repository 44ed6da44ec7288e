(** Running programs with test data.

    Sources: aya/src/sys/bpf.rs 684-798 ([invoke_prog_test_run],
    [bpf_prog_test_run], [bpf_prog_test_run_raw_tp],
    [bpf_prog_test_run_tracing]), aya/src/programs/mod.rs 638-657 ([test_run]
    and its likes), 937-965 ([TestRunAttrs]), 973-1013 ([TestRunOptions]),
    1031-1061 ([RawTracePointRunOptions]), 1129-1175 (the implementations of
    [TestRun]).  Simplification: little-endian hosts, and every address is
    mapped. *)
From Coq Require Import String.
From Verif Require Import Base LayoutModel LayoutDecls ProgModel.
Import ListNotations.
Local Open Scope Z_scope.

(** * Memory *)

Definition mem := Z -> Z.
Definition load (m : mem) (a : Z) (n : nat) : list Z := map (fun i => m (a + Z.of_nat i)) (seq 0 n).
Definition store (m : mem) (a : Z) (l : list Z) : mem :=
  fun x => if (a <=? x) && (x <? a + Z.of_nat (length l)) then nth (Z.to_nat (x - a)) l 0 else m x.

(** * The kernel *)

Definition EINVAL : Z := 22.
Definition ENXIO : Z := 6.
Definition ENOSPC : Z := 28.
Definition u_at (o s : nat) (attr : list Z) : Z := le_dec (slice o s attr).

(** A call: the error if there is one, the request after it, memory after
    it. *)
Definition call := list Z -> mem -> option Z * list Z * mem.
(** What the program does: from the packet, the context, the repetitions,
    flags, CPU and batch size, to what it returns, the nanoseconds of a run,
    the packet and the context afterwards, or an error. *)
Record ran := { rn_ret : Z; rn_time : Z; rn_packet : list Z; rn_ctx : list Z }.
Definition behaviour := list Z -> option (list Z) -> Z -> Z -> Z -> Z -> res Z ran.

(** net/bpf/test_run.c [bpf_test_finish]: "Clamp copy if the user has
    provided a size hint, but copy the full buffer if not to retain old
    behaviour." *)
Definition finish_data (r : ran) (attr : list Z) (m : mem) : option Z * list Z * mem :=
  let full := Z.of_nat (length (rn_packet r)) in
  let room := u_at 12 4 attr in
  let clamp := negb (room =? 0) && (room <? full) in
  let n := if clamp then room else full in
  let out := u_at 24 8 attr in
  let m := if out =? 0 then m else store m out (firstn (Z.to_nat n) (rn_packet r)) in
  let attr := splice 12 (le_enc 4 full) attr in
  let attr := splice 4 (le_enc 4 (rn_ret r)) attr in
  let attr := splice 36 (le_enc 4 (rn_time r)) attr in
  (if clamp then Some ENOSPC else None, attr, m).
(** [bpf_ctx_finish]. *)
Definition finish_ctx (r : ran) (attr : list Z) (m : mem) : option Z * list Z * mem :=
  let full := Z.of_nat (length (rn_ctx r)) in
  let room := u_at 44 4 attr in
  let out := u_at 56 8 attr in
  if out =? 0 then (None, attr, m)
  else
    let clamp := room <? full in
    let n := if clamp then room else full in
    (if clamp then Some ENOSPC else None, splice 44 (le_enc 4 full) attr, store m out (firstn (Z.to_nat n) (rn_ctx r))).
(** kernel/bpf/syscall.c [bpf_prog_test_run]: a context has an address if and
    only if it has a size.  net/bpf/test_run.c [bpf_prog_test_run_skb],
    [bpf_prog_test_run_xdp], [bpf_prog_test_run_flow_dissector]. *)
Definition lopsided (size ptr : Z) : bool := negb (Bool.eqb (size =? 0) (ptr =? 0)).
Definition kernel_run (p : behaviour) : call := fun attr m =>
  if lopsided (u_at 40 4 attr) (u_at 48 8 attr) || lopsided (u_at 44 4 attr) (u_at 56 8 attr) then (Some EINVAL, attr, m)
  else
    let data := load m (u_at 16 8 attr) (Z.to_nat (u_at 8 4 attr)) in
    let ctx := if u_at 48 8 attr =? 0 then None else Some (load m (u_at 48 8 attr) (Z.to_nat (u_at 40 4 attr))) in
    match p data ctx (u_at 32 4 attr) (u_at 64 4 attr) (u_at 68 4 attr) (u_at 72 4 attr) with
    | Err e => (Some e, attr, m)
    | Ok r =>
        match finish_data r attr m with
        | (None, attr, m) => finish_ctx r attr m
        | x => x
        end
    end.

(** [bpf_prog_test_run_raw_tp]: [largest] is the largest offset the program
    reads, [online] tells which CPUs are there.  The program is given the
    context and the CPU it was asked for. *)
Definition kernel_raw_tp (largest : Z) (online : Z -> bool) (p : list Z -> option Z -> Z) : call := fun attr m =>
  if lopsided (u_at 40 4 attr) (u_at 48 8 attr) || lopsided (u_at 44 4 attr) (u_at 56 8 attr) then (Some EINVAL, attr, m)
  else if negb ((u_at 16 8 attr =? 0) && (u_at 24 8 attr =? 0) && (u_at 56 8 attr =? 0) && (u_at 36 4 attr =? 0) && (u_at 32 4 attr =? 0) && (u_at 72 4 attr =? 0)) then (Some EINVAL, attr, m)
  else if (u_at 40 4 attr <? largest) || (96 <? u_at 40 4 attr) then (Some EINVAL, attr, m)
  else
    let pinned := Z.testbit (u_at 64 4 attr) 0 in
    if negb pinned && negb (u_at 68 4 attr =? 0) then (Some EINVAL, attr, m)
    else if pinned && negb (online (u_at 68 4 attr)) then (Some ENXIO, attr, m)
    else
      let ctx := load m (u_at 48 8 attr) (Z.to_nat (u_at 40 4 attr)) in
      (None, splice 4 (le_enc 4 (p ctx (if pinned then Some (u_at 68 4 attr) else None))) attr, m).
(** [bpf_prog_test_run_tracing]; [err]: what the fixed sequence of calls
    ends with. *)
Definition kernel_tracing (err : option Z) : call := fun attr m =>
  if negb ((u_at 64 4 attr =? 0) && (u_at 68 4 attr =? 0) && (u_at 72 4 attr =? 0)) then (Some EINVAL, attr, m)
  else match err with Some e => (Some e, attr, m) | None => (None, splice 4 (le_enc 4 0) attr, m) end.

(** * The library *)

Definition A := d_bpf_attr.
Definition zeroed : list Z := repeat 0 (Z.to_nat (size A)).
(** [attr.test.f = v]. *)
Definition put (f : string) (v : Z) (attr : list Z) : list Z :=
  match field ["test"%string; f] A with Some (o, s) => splice (Z.to_nat o) (le_enc (Z.to_nat s) v) attr | None => attr end.
Definition fetch (f : string) (attr : list Z) : Z :=
  match field ["test"%string; f] A with Some (o, s) => u_at (Z.to_nat o) (Z.to_nat s) attr | None => 0 end.

(** A slice: its address, which is never null, and its length. *)
Record buf := { b_ptr : Z; b_len : Z }.
Record run_attrs := { ra_batch : Z; ra_flags : Z }.
Record options := { o_data_in : option buf; o_data_out : option buf; o_ctx_in : option buf; o_ctx_out : option buf; o_repeat : Z; o_attrs : run_attrs }.
Definition LIVE_FRAMES : Z := 2.
Definition ON_CPU : Z := 1.
Definition new_attrs : run_attrs := {| ra_batch := 0; ra_flags := 0 |}.
Definition xdp_live_frames (n : Z) (a : run_attrs) : run_attrs := {| ra_batch := n; ra_flags := Z.lor (ra_flags a) LIVE_FRAMES |}.
Definition new_options : options := {| o_data_in := None; o_data_out := None; o_ctx_in := None; o_ctx_out := None; o_repeat := 1; o_attrs := new_attrs |}.

(** [as u32] keeps the low bits, which [put] does. *)
Definition put_buf (ptr len : string) (b : option buf) (attr : list Z) : list Z :=
  match b with Some b => put len (b_len b) (put ptr (b_ptr b) attr) | None => attr end.
Definition request (fd : Z) (o : options) : list Z :=
  let a := put "prog_fd" fd zeroed in
  let a := put "repeat" (o_repeat o) a in
  let a := put "flags" (ra_flags (o_attrs o)) a in
  let a := put "batch_size" (ra_batch (o_attrs o)) a in
  let a := put_buf "data_in" "data_size_in" (o_data_in o) a in
  let a := put_buf "data_out" "data_size_out" (o_data_out o) a in
  let a := put_buf "ctx_in" "ctx_size_in" (o_ctx_in o) a in
  put_buf "ctx_out" "ctx_size_out" (o_ctx_out o) a.
(** [duration] in nanoseconds. *)
Record result := { t_ret : Z; t_time : Z; t_data_size : Z; t_ctx_size : Z }.
Inductive terr := ENotLoaded | ESys (errno : Z).
Definition test_run (k : call) (fd : option Z) (o : options) (m : mem) : res terr result * mem :=
  match fd with
  | None => (Err ENotLoaded, m)
  | Some fd =>
      match k (request fd o) m with
      | (Some e, _, m) => (Err (ESys e), m)
      | (None, a, m) => (Ok {| t_ret := fetch "retval" a; t_time := fetch "duration" a; t_data_size := fetch "data_size_out" a; t_ctx_size := fetch "ctx_size_out" a |}, m)
      end
  end.

(** [args] is at [ptr] on the stack, as [bpf_prog_test_run_raw_tp] owns the
    options. *)
Definition request_raw_tp (fd ptr : Z) (args : list Z) (cpu : option Z) : list Z :=
  let a := put "prog_fd" fd zeroed in
  let a := put "ctx_in" ptr a in
  let a := put "ctx_size_in" (8 * Z.of_nat (length args)) a in
  match cpu with
  | Some cpu => let a := put "cpu" cpu a in put "flags" (Z.lor (fetch "flags" a) ON_CPU) a
  | None => a
  end.
Definition test_run_raw_tp (k : call) (fd : option Z) (ptr : Z) (args : list Z) (cpu : option Z) (m : mem) : res terr Z * mem :=
  match fd with
  | None => (Err ENotLoaded, m)
  | Some fd =>
      match k (request_raw_tp fd ptr args cpu) (store m ptr (concat (map (le_enc 8) args))) with
      | (Some e, _, m) => (Err (ESys e), m)
      | (None, a, m) => (Ok (fetch "retval" a), m)
      end
  end.
Definition request_tracing (fd : Z) : list Z := put "prog_fd" fd zeroed.
Definition test_run_tracing (k : call) (fd : option Z) (m : mem) : res terr unit * mem :=
  match fd with
  | None => (Err ENotLoaded, m)
  | Some fd => match k (request_tracing fd) m with (Some e, _, m) => (Err (ESys e), m) | (None, _, m) => (Ok tt, m) end
  end.

(** Which kinds implement [TestRun], and with which of the three.
    [ReusePortSocketFilter] is a [SocketFilter] by another name. *)
Inductive how := Packet | RawTp | Tracing.
Definition implements (k : kind) : option how :=
  match k with
  | KSocketFilter | KSchedClassifier | KXdp _ | KCgroupSkb _ | KFlowDissector => Some Packet
  | KRawTracePoint => Some RawTp
  | KFExit => Some Tracing
  | _ => None
  end.
