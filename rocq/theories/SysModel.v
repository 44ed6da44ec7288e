(** Model of the retry loops of aya/src/sys/bpf.rs and of the cached feature
    probes of aya/src/kernel_features.rs. *)
From Verif Require Import Base LogModel.
Local Open Scope Z_scope.

(** * Loading with a verifier log *)

(** errno values; an error that is not an errno is any other number. *)
Definition EPERM : Z := 1.
Definition ENOSPC : Z := 28.

(** aya/src/sys/bpf.rs:1540-1541. *)
Definition MIN_LOG : Z := 10240.
Definition MAX_LOG : Z := (2 ^ 32 - 1) / 2 ^ 8.

(** [Ord::clamp]. *)
Definition clamp (lo hi x : Z) : Z := if x <? lo then lo else if hi <? x then hi else x.

(** A byte vector: contents and capacity.  [Vec::resize] to more than the
    capacity grows it to the larger of twice the capacity and the new length
    (alloc/src/raw_vec.rs [grow_amortized]; the minimum of 8 does not matter
    here). *)
Record vec := { v_bytes : list Z; v_cap : Z }.
Definition vec_new : vec := {| v_bytes := []; v_cap := 0 |}.
Definition resize (len : Z) (v : vec) : vec :=
  {| v_bytes := if Z.of_nat (length (v_bytes v)) <=? len
                then v_bytes v ++ repeat 0 (Z.to_nat (len - Z.of_nat (length (v_bytes v))))
                else firstn (Z.to_nat len) (v_bytes v);
     v_cap := if len <=? v_cap v then v_cap v else Z.max (2 * v_cap v) len |}.

(** aya/src/sys/bpf.rs:1552-1554. *)
Definition zero_first (l : list Z) : list Z := match l with [] => [] | _ :: l => 0 :: l end.

(** aya/src/sys/bpf.rs:1560-1562: the text before the first zero byte. *)
Fixpoint until_zero (l : list Z) : list Z :=
  match l with
  | [] => []
  | c :: l => if c =? 0 then [] else c :: until_zero l
  end.

(** aya/src/sys/bpf.rs:1536-1567 [retry_with_verifier_logs].  [f i buf]: the
    outcome of the [i]th call with the given buffer, and the buffer after it.
    [None]: the log is not UTF-8 and line 1563 panics.  The last component
    lists the buffers of the calls, in order. *)
Fixpoint retry_loop {T} (f : nat -> list Z -> res Z T * list Z) (more : nat) (retries : nat) (buf : vec) : option (res Z T * list Z) * list (list Z) :=
  let (ret, bytes) := f retries (v_bytes buf) in
  let finish := (if utf8 (until_zero bytes) then Some (ret, until_zero bytes) else None, [v_bytes buf]) in
  match more, ret with
  | S more, Err e =>
      if (retries =? 0)%nat || (e =? ENOSPC) then
        let len := clamp MIN_LOG MAX_LOG (v_cap buf * 10) in
        let buf' := resize len {| v_bytes := bytes; v_cap := v_cap buf |} in
        let (r, calls) := retry_loop f more (S retries) {| v_bytes := zero_first (v_bytes buf'); v_cap := v_cap buf' |} in
        (r, v_bytes buf :: calls)
      else finish
  | _, _ => finish
  end.
Definition retry_with_verifier_logs {T} (max_retries : nat) (f : nat -> list Z -> res Z T * list Z) : option (res Z T * list Z) * list (list Z) :=
  retry_loop f max_retries 0 vec_new.

(** * Raising the memory limit *)

(** aya/src/sys/bpf.rs:937-997 [with_raised_rlimit_retry]: [old] is that the
    kernel is older than 5.11, [errnos] the errors that may come from the
    limit.  [op raised n]: the outcome of the [n]th call.  [raised] is the
    process-wide [Once]: whether it has run already; what [setrlimit] did is
    in [op].  Returns the outcome,
    the new state of the [Once] and the number of calls. *)
Definition with_raised_rlimit_retry {T} (old : bool) (errnos : list Z) (op : bool -> nat -> res Z T) (raised : bool) : res Z T * bool * nat :=
  match op raised 0%nat with
  | Err e => if old && existsb (Z.eqb e) errnos then (op true 1%nat, true, 2%nat) else (Err e, raised, 1%nat)
  | Ok v => (Ok v, raised, 1%nat)
  end.

(** * Feature probes *)

(** aya/src/kernel_features.rs:64-74 [Feature] and aya/src/sys/feature_probe.rs
    [BtfFeature]. *)
Inductive feature :=
  | BpfName | BpfProbeReadKernel | BpfPerfLink | BpfGlobalData | BpfCookie | CpuMapProgId | DevMapProgId | Btf
  | BtfFunc | BtfFuncGlobal | BtfDataSec | BtfDataSecZero | BtfFloat | BtfDeclTag | BtfTypeTag | BtfEnum64.

(** The kernel interfaces probed (aya/src/kernel_features.rs:93-106, 152-163,
    192-203). *)
Inductive probe :=
  | PBpfName | PHelperProbeReadKernel | PPerfLink | PGlobalData | PHelperAttachCookie | PCpuMapProg | PDevMapProg | PBtf
  | PBtfFunc | PBtfFuncGlobal | PBtfDataSec | PBtfDataSecZero | PBtfFloat | PBtfDeclTag | PBtfTypeTag | PBtfEnum64.

(** aya/src/kernel_features.rs:81-91, 140-149: one cell per feature. *)
Inductive slot :=
  | s_bpf_name | s_bpf_probe_read_kernel | s_bpf_perf_link | s_bpf_global_data | s_bpf_cookie | s_cpumap_prog_id | s_devmap_prog_id | s_btf
  | s_func | s_func_global | s_datasec | s_datasec_zero | s_float | s_decl_tag | s_type_tag | s_enum64.

(** aya/src/kernel_features.rs:93-106, 152-163: the probe of each cell. *)
Definition slot_probe (s : slot) : probe :=
  match s with
  | s_bpf_name => PBpfName
  | s_bpf_probe_read_kernel => PHelperProbeReadKernel
  | s_bpf_perf_link => PPerfLink
  | s_bpf_global_data => PGlobalData
  | s_bpf_cookie => PHelperAttachCookie
  | s_cpumap_prog_id => PCpuMapProg
  | s_devmap_prog_id => PDevMapProg
  | s_btf => PBtf
  | s_func => PBtfFunc
  | s_func_global => PBtfFuncGlobal
  | s_datasec => PBtfDataSec
  | s_datasec_zero => PBtfDataSecZero
  | s_float => PBtfFloat
  | s_decl_tag => PBtfDeclTag
  | s_type_tag => PBtfTypeTag
  | s_enum64 => PBtfEnum64
  end.

(** aya/src/kernel_features.rs:120-129, 176-185: the cell of each feature. *)
Definition feature_slot (f : feature) : slot :=
  match f with
  | BpfName => s_bpf_name
  | BpfProbeReadKernel => s_bpf_probe_read_kernel
  | BpfPerfLink => s_bpf_perf_link
  | BpfGlobalData => s_bpf_global_data
  | BpfCookie => s_bpf_cookie
  | CpuMapProgId => s_cpumap_prog_id
  | DevMapProgId => s_devmap_prog_id
  | Btf => s_btf
  | BtfFunc => s_func
  | BtfFuncGlobal => s_func_global
  | BtfDataSec => s_datasec
  | BtfDataSecZero => s_datasec_zero
  | BtfFloat => s_float
  | BtfDeclTag => s_decl_tag
  | BtfTypeTag => s_type_tag
  | BtfEnum64 => s_enum64
  end.

Scheme Equality for slot.
Scheme Equality for probe.

(** [OnceLock]: empty, being filled by a thread, filled. *)
Inductive cell := Empty | Running (t : nat) | Ready (v : res Z bool).

(** A thread asking for features, one after the other.  [PhAsk]: about to
    ask for the first of [t_todo]; [PhProbe]: running the initialiser of its
    cell.  Answers are collected in [t_done]. *)
Inductive phase := PhAsk | PhProbe.
Record thread := { t_phase : phase; t_todo : list feature; t_done : list (feature * bool) }.

(** [p_runs]: the probes run so far, latest first, with their results. *)
Record pstate := { p_cells : slot -> cell; p_threads : nat -> thread; p_runs : list (probe * res Z bool) }.

Definition set_cell (s : slot) (c : cell) (f : slot -> cell) : slot -> cell := fun s' => if slot_beq s s' then c else f s'.
Definition set_thread (t : nat) (x : thread) (f : nat -> thread) : nat -> thread := fun t' => if (t =? t')%nat then x else f t'.

(** aya/src/kernel_features.rs:37-39: a failed probe counts as unsupported. *)
Definition answer (v : res Z bool) : bool := match v with Ok b => b | Err _ => false end.

(** aya/src/kernel_features.rs:27-40 [FeatureProbe::get], interleaved: one step
    of thread [t].  [kernel]: what a probe run at this point returns.
    [OnceLock::get_or_init] (trusted): a filled cell is read; an empty one is
    claimed by one thread, which runs the initialiser and fills it; others
    wait. *)
Inductive pstep : pstate -> pstate -> Prop :=
  | PRead : forall st t f rest v, t_todo (p_threads st t) = f :: rest -> t_phase (p_threads st t) = PhAsk ->
      p_cells st (feature_slot f) = Ready v ->
      pstep st {| p_cells := p_cells st;
                  p_threads := set_thread t {| t_phase := PhAsk; t_todo := rest; t_done := (f, answer v) :: t_done (p_threads st t) |} (p_threads st);
                  p_runs := p_runs st |}
  | PClaim : forall st t f rest, t_todo (p_threads st t) = f :: rest -> t_phase (p_threads st t) = PhAsk ->
      p_cells st (feature_slot f) = Empty ->
      pstep st {| p_cells := set_cell (feature_slot f) (Running t) (p_cells st);
                  p_threads := set_thread t {| t_phase := PhProbe; t_todo := f :: rest; t_done := t_done (p_threads st t) |} (p_threads st);
                  p_runs := p_runs st |}
  | PFill : forall st t f rest v, t_todo (p_threads st t) = f :: rest -> t_phase (p_threads st t) = PhProbe ->
      pstep st {| p_cells := set_cell (feature_slot f) (Ready v) (p_cells st);
                  p_threads := set_thread t {| t_phase := PhAsk; t_todo := rest; t_done := (f, answer v) :: t_done (p_threads st t) |} (p_threads st);
                  p_runs := (slot_probe (feature_slot f), v) :: p_runs st |}.

(** Any number of steps from a start where no cell is filled and threads have
    any list of questions. *)
Definition pstart (ask : nat -> list feature) : pstate :=
  {| p_cells := fun _ => Empty; p_threads := fun t => {| t_phase := PhAsk; t_todo := ask t; t_done := [] |}; p_runs := [] |}.
Inductive psteps : pstate -> pstate -> Prop :=
  | PRefl : forall st, psteps st st
  | PStep : forall a b c, psteps a b -> pstep b c -> psteps a c.
