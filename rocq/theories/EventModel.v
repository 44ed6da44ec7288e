(** The requests to [perf_event_open] and the bit-field accessors they use.

    Sources: aya/src/sys/perf_event.rs 24-187, aya/src/programs/perf_event.rs
    41-435 and 450-478, aya/src/programs/probe.rs 509-534,
    aya-obj/src/generated/linux_bindings_x86_64.rs 1-138 (bit fields),
    2178-2260 (numbers) and 2278-2335 ([perf_event_attr]).

    The host has 64-bit words; its byte order is a parameter of the bit
    fields, elsewhere little endian. *)
From Coq Require Import String.
From Verif Require Import Base Text TextParse TextSplit.
Local Open Scope Z_scope.

(** * [__BindgenBitfieldUnit] *)

(** [change_bit], bindings 45-53. *)
Definition bit_index (be : bool) (index : nat) : Z := if be then 7 - Z.of_nat (index mod 8) else Z.of_nat (index mod 8).
Definition change_bit (be : bool) (byte : Z) (index : nat) (v : bool) : Z :=
  let mask := 2 ^ bit_index be index in
  if v then Z.lor byte mask else Z.ldiff byte mask.
(** [extract_bit] 19-27. *)
Definition extract_bit (be : bool) (byte : Z) (index : nat) : bool :=
  let mask := 2 ^ bit_index be index in Z.land byte mask =? mask.
(** [set_bit] 55-60 and [get_bit] 29-34. *)
Definition set_bit (be : bool) (st : list Z) (index : nat) (v : bool) : list Z :=
  upd (index / 8) (change_bit be (nth (index / 8) st 0) index v) st.
Definition get_bit (be : bool) (st : list Z) (index : nat) : bool := extract_bit be (nth (index / 8) st 0) index.
(** [set] 107-121: the bits [0 .. width) of [val], lowest first. *)
Definition place (be : bool) (width i : nat) : nat := if be then width - 1 - i else i.
Definition bf_set (be : bool) (st : list Z) (off width : nat) (val : Z) : list Z :=
  fold_left (fun st i => set_bit be st (place be width i + off) (Z.land val (2 ^ Z.of_nat i) =? 2 ^ Z.of_nat i)) (seq 0 width) st.
(** [get] 71-87. *)
Definition bf_get (be : bool) (st : list Z) (off width : nat) : Z :=
  fold_left (fun v i => if get_bit be st (i + off) then Z.lor v (2 ^ Z.of_nat (place be width i)) else v) (seq 0 width) 0.

(** * [perf_event_attr] *)

(** The enumerations of programs/perf_event.rs with their [into_primitive]. *)
Inductive hw_event := CpuCycles | Instructions | CacheReferences | CacheMisses | BranchInstructions | BranchMisses | BusCycles
  | StalledCyclesFrontend | StalledCyclesBackend | RefCpuCycles.
Definition hw_id (e : hw_event) : Z :=
  match e with
  | CpuCycles => 0 | Instructions => 1 | CacheReferences => 2 | CacheMisses => 3 | BranchInstructions => 4 | BranchMisses => 5 | BusCycles => 6
  | StalledCyclesFrontend => 7 | StalledCyclesBackend => 8 | RefCpuCycles => 9
  end.
Inductive sw_event := CpuClock | TaskClock | PageFaults | ContextSwitches | CpuMigrations | PageFaultsMin | PageFaultsMaj | AlignmentFaults
  | EmulationFaults | Dummy | BpfOutput | CgroupSwitches.
Definition sw_id (e : sw_event) : Z :=
  match e with
  | CpuClock => 0 | TaskClock => 1 | PageFaults => 2 | ContextSwitches => 3 | CpuMigrations => 4 | PageFaultsMin => 5 | PageFaultsMaj => 6
  | AlignmentFaults => 7 | EmulationFaults => 8 | Dummy => 9 | BpfOutput => 10 | CgroupSwitches => 11
  end.
Inductive cache_event := L1d | L1i | Ll | Dtlb | Itlb | Bpu | Node.
Definition cache_id (e : cache_event) : Z := match e with L1d => 0 | L1i => 1 | Ll => 2 | Dtlb => 3 | Itlb => 4 | Bpu => 5 | Node => 6 end.
Inductive cache_op := OpRead | OpWrite | OpPrefetch.
Definition op_id (o : cache_op) : Z := match o with OpRead => 0 | OpWrite => 1 | OpPrefetch => 2 end.
Inductive cache_result := Access | Miss.
Definition result_id (r : cache_result) : Z := match r with Access => 0 | Miss => 1 end.
Inductive bp_type := BpRead | BpWrite | BpReadWrite.
Definition bp_id (t : bp_type) : Z := match t with BpRead => 1 | BpWrite => 2 | BpReadWrite => 3 end.
Inductive bp_length := Len1 | Len2 | Len4 | Len8.
Definition len_id (l : bp_length) : Z := match l with Len1 => 1 | Len2 => 2 | Len4 => 4 | Len8 => 8 end.

Inductive event_config :=
| Hardware (e : hw_event) | Software (e : sw_event) | Tracepoint (id : Z) | HwCache (e : cache_event) (o : cache_op) (r : cache_result)
| Raw (id : Z) | BreakData (t : bp_type) (addr : Z) (l : bp_length) | BreakInstruction (addr : Z) | Pmu (ty config : Z).
Inductive sample_policy := Period (n : Z) | Frequency (n : Z).
Inductive wakeup_policy := Events (n : Z) | Watermark (n : Z).
Inductive event_scope := CallingProcess (cpu : option Z) | OneProcess (pid : Z) (cpu : option Z) | AllProcessesOneCpu (cpu : Z).

(** The fields of the structure that are ever set; the unions hold one
    number.  [at_bits] is the bit-field unit. *)
Record attr := {
  at_type : Z; at_size : Z; at_config : Z; at_sample : Z; at_sample_type : Z; at_bits : list Z; at_wakeup : Z; at_bp_type : Z;
  at_config1 : Z; at_config2 : Z }.
(** The structure in memory: 136 bytes, [repr(C)]. *)
Definition attr_bytes (a : attr) : list Z :=
  le_enc 4 (at_type a) ++ le_enc 4 (at_size a) ++ le_enc 8 (at_config a) ++ le_enc 8 (at_sample a) ++ le_enc 8 (at_sample_type a) ++
  le_enc 8 0 (* read_format *) ++ at_bits a ++ le_enc 4 (at_wakeup a) ++ le_enc 4 (at_bp_type a) ++ le_enc 8 (at_config1 a) ++
  le_enc 8 (at_config2 a) ++ repeat 0 64.

Definition PERF_SAMPLE_RAW : Z := 1024.
Definition PERF_FLAG_FD_CLOEXEC : Z := 8.
Definition ATTR_SIZE : Z := 136.

(** One call of the system call. *)
Record open_call := { oc_attr : list Z; oc_pid : Z; oc_cpu : Z; oc_group : Z; oc_flags : Z }.

(** [perf_event_open], sys/perf_event.rs 24-133. *)
Definition config_of (c : event_config) : Z * Z :=
  match c with
  | Pmu ty config => (ty, config)
  | Hardware e => (0, hw_id e)
  | Software e => (1, sw_id e)
  | Tracepoint id => (2, id)
  | HwCache e o r => (3, Z.lor (Z.lor (cache_id e) (Z.shiftl (op_id o) 8)) (Z.shiftl (result_id r) 16))
  | Raw id => (4, id)
  | BreakData _ _ _ | BreakInstruction _ => (5, 0)
  end.
(** Breakpoint type, address and length, 66-98; an instruction's length is
    that of [c_long]. *)
Definition break_of (c : event_config) : option (Z * Z * Z) :=
  match c with
  | BreakData t addr l => Some (bp_id t, addr, len_id l)
  | BreakInstruction addr => Some (4, addr, 8)
  | _ => None
  end.
Definition scope_of (s : event_scope) : Z * Z :=
  let cpu_of cpu := match cpu with Some c => i32 c | None => -1 end in
  match s with
  | CallingProcess cpu => (0, cpu_of cpu)
  | OneProcess pid cpu => (i32 pid, cpu_of cpu)
  | AllProcessesOneCpu cpu => (-1, i32 cpu)
  end.
Definition perf_event_open (c : event_config) (s : event_scope) (sample : sample_policy) (wakeup : wakeup_policy) (inherit : bool) (flags : Z) : open_call :=
  let '(ty, config) := config_of c in
  let '(bty, addr, len) := match break_of c with Some b => b | None => (0, 0, 0) end in
  let bits := repeat 0 8 in
  let bits := match break_of c with Some _ => bf_set false bits 15 2 2 | None => bits end in
  let bits := bf_set false bits 1 1 (if inherit then 1 else 0) in
  let bits := match sample with Period _ => bits | Frequency _ => bf_set false bits 10 1 1 end in
  let bits := match wakeup with Events _ => bits | Watermark _ => bf_set false bits 14 1 1 end in
  let a :=
    {| at_type := ty; at_size := ATTR_SIZE; at_config := config; at_sample := match sample with Period n | Frequency n => n end;
       at_sample_type := PERF_SAMPLE_RAW; at_bits := bits; at_wakeup := match wakeup with Events n | Watermark n => n end;
       at_bp_type := bty; at_config1 := addr; at_config2 := len |} in
  let '(pid, cpu) := scope_of s in
  {| oc_attr := attr_bytes a; oc_pid := pid; oc_cpu := cpu; oc_group := -1; oc_flags := flags |}.

(** [PerfEvent::attach], programs/perf_event.rs 450-478, up to the call. *)
Definition event_attach (c : event_config) (s : event_scope) (sample : sample_policy) (inherit : bool) : open_call :=
  perf_event_open c s sample (Events 1) inherit 0.

(** [perf_event_open_trace_point], sys/perf_event.rs 165-187. *)
Definition open_trace_point (id : Z) (pid : option Z) : open_call :=
  perf_event_open (Tracepoint id) (match pid with Some pid => OneProcess pid None | None => AllProcessesOneCpu 0 end) (Period 0) (Events 1) false
    PERF_FLAG_FD_CLOEXEC.

(** [perf_event_open_probe], 135-163.  [ptr] is the address of the copy of
    the name; [None]: [CString::new] fails and [unwrap] panics.  [1 << ret_bit]
    is a 64-bit shift whose count is taken modulo 64 in release builds. *)
Definition open_probe (ty : Z) (ret_bit : option Z) (name : list Z) (ptr offset : Z) (pid : option Z) : option open_call :=
  if existsb (Z.eqb 0) name then None
  else
    let '(p, cpu) := match pid with Some pid => (i32 pid, -1) | None => (-1, 0) end in
    Some {| oc_attr := attr_bytes {| at_type := ty; at_size := ATTR_SIZE; at_config := match ret_bit with Some b => 2 ^ (b mod 64) | None => 0 end;
              at_sample := 0; at_sample_type := 0; at_bits := repeat 0 8; at_wakeup := 0; at_bp_type := 0; at_config1 := ptr; at_config2 := offset |};
            oc_pid := p; oc_cpu := cpu; oc_group := -1; oc_flags := PERF_FLAG_FD_CLOEXEC |}.

(** * The numbers of the probe PMUs *)

(** [read_sys_fs_perf_type], probe.rs 509-517: the content of the file. *)
Definition perf_type (file : list Z) : option Z := dec_u32 (trim file).
(** [read_sys_fs_perf_ret_probe], 519-534: what follows the first colon. *)
Definition ret_probe_bit (file : list Z) : option Z := match after_first [58] (trim file) with Some config => dec_u32 config | None => None end.
