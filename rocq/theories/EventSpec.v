(** What the kernel makes of a call to [perf_event_open], and what bit fields
    are. *)
From Coq Require Import String.
From Verif Require Import Base Text EventModel.
Local Open Scope Z_scope.

(** * Bit fields *)

(** The unit as one integer of the host. *)
Definition unit_value (be : bool) (st : list Z) : Z := le_dec (if be then rev st else st).
(** Where C puts a field of [width] bits after [off] bits: from the lowest bit
    up on little-endian hosts, from the highest bit down on big-endian ones. *)
Definition field_shift (be : bool) (bytes off width : nat) : Z :=
  if be then 8 * Z.of_nat bytes - Z.of_nat off - Z.of_nat width else Z.of_nat off.

(** * The kernel's reading of the structure *)

(** include/uapi/linux/perf_event.h: the numbers at their offsets. *)
Definition rd (off len : nat) (b : list Z) : Z := le_dec (slice off len b).
Inductive kevent :=
| KHardware (n : Z) | KSoftware (n : Z) | KTracepoint (n : Z) | KCache (id op result : Z) | KRaw (n : Z)
| KBreakpoint (ty addr len : Z) | KOther (ty config : Z).
Definition k_event (b : list Z) : kevent :=
  let ty := rd 0 4 b in
  let config := rd 8 8 b in
  if ty =? 0 then KHardware config
  else if ty =? 1 then KSoftware config
  else if ty =? 2 then KTracepoint config
  else if ty =? 3 then KCache (config mod 256) ((config / 256) mod 256) (config / 65536)
  else if ty =? 4 then KRaw config
  else if ty =? 5 then KBreakpoint (rd 52 4 b) (rd 56 8 b) (rd 64 8 b)
  else KOther ty config.
Inductive ksampling := KPeriod (n : Z) | KFrequency (n : Z).
Definition k_sampling (b : list Z) : ksampling := if Z.testbit (rd 40 8 b) 10 then KFrequency (rd 16 8 b) else KPeriod (rd 16 8 b).
Inductive kwakeup := KEvents (n : Z) | KWatermark (n : Z).
Definition k_wakeup (b : list Z) : kwakeup := if Z.testbit (rd 40 8 b) 14 then KWatermark (rd 48 4 b) else KEvents (rd 48 4 b).
Definition k_inherit (b : list Z) : bool := Z.testbit (rd 40 8 b) 1.
Definition k_precise (b : list Z) : Z := (rd 40 8 b / 2 ^ 15) mod 4.

(** Which processes and which CPU; [perf_event_open(2)]. *)
Inductive kscope := KNobody | KScope (who : option Z) (calling : bool) (cpu : option Z).
Definition k_scope (pid cpu : Z) : kscope :=
  if (pid <? -1) || (cpu <? -1) || ((pid =? -1) && (cpu =? -1)) then KNobody
  else KScope (if pid =? -1 then None else if pid =? 0 then None else Some pid) (pid =? 0) (if cpu =? -1 then None else Some cpu).

(** * What is asked for *)

(** The names of perf_event_open(2) in the order of their numbers. *)
Definition wanted (c : event_config) : kevent :=
  match c with
  | Hardware e => KHardware match e with
      | CpuCycles => 0 | Instructions => 1 | CacheReferences => 2 | CacheMisses => 3 | BranchInstructions => 4 | BranchMisses => 5 | BusCycles => 6
      | StalledCyclesFrontend => 7 | StalledCyclesBackend => 8 | RefCpuCycles => 9 end
  | Software e => KSoftware match e with
      | CpuClock => 0 | TaskClock => 1 | PageFaults => 2 | ContextSwitches => 3 | CpuMigrations => 4 | PageFaultsMin => 5 | PageFaultsMaj => 6
      | AlignmentFaults => 7 | EmulationFaults => 8 | Dummy => 9 | BpfOutput => 10 | CgroupSwitches => 11 end
  | Tracepoint id => KTracepoint id
  | HwCache e o r => KCache
      match e with L1d => 0 | L1i => 1 | Ll => 2 | Dtlb => 3 | Itlb => 4 | Bpu => 5 | Node => 6 end
      match o with OpRead => 0 | OpWrite => 1 | OpPrefetch => 2 end
      match r with Access => 0 | Miss => 1 end
  | Raw id => KRaw id
  | BreakData t addr l => KBreakpoint match t with BpRead => 1 | BpWrite => 2 | BpReadWrite => 3 end addr match l with Len1 => 1 | Len2 => 2 | Len4 => 4 | Len8 => 8 end
  | BreakInstruction addr => KBreakpoint 4 addr 8
  | Pmu ty config => KOther ty config
  end.
Definition u64_ok (n : Z) : Prop := 0 <= n < 2 ^ 64.
(** Arguments of their Rust types; a PMU found in sysfs has a number above the
    fixed ones. *)
Definition config_ok (c : event_config) : Prop :=
  match c with
  | Tracepoint id | Raw id => u64_ok id
  | BreakData _ addr _ | BreakInstruction addr => u64_ok addr
  | Pmu ty config => 6 <= ty < 2 ^ 32 /\ u64_ok config
  | _ => True
  end.
Definition breakpoint (c : event_config) : bool := match c with BreakData _ _ _ | BreakInstruction _ => true | _ => false end.
Definition sampling (s : sample_policy) : ksampling := match s with Period n => KPeriod n | Frequency n => KFrequency n end.
Definition sample_ok (s : sample_policy) : Prop := match s with Period n | Frequency n => u64_ok n end.

(** The scope asked for, in the words of the documentation. *)
Definition in_scope (s : event_scope) : kscope :=
  match s with
  | CallingProcess cpu => KScope None true cpu
  | OneProcess pid cpu => KScope (Some pid) false cpu
  | AllProcessesOneCpu cpu => KScope None false (Some cpu)
  end.
(** Numbers the kernel can have given out. *)
Definition num_ok (n : Z) : Prop := 0 <= n < 2 ^ 31.
Definition scope_ok (s : event_scope) : Prop :=
  let cpu_ok cpu := match cpu with Some c => num_ok c | None => True end in
  match s with
  | CallingProcess cpu => cpu_ok cpu
  | OneProcess pid cpu => num_ok pid /\ pid <> 0 /\ cpu_ok cpu
  | AllProcessesOneCpu cpu => num_ok cpu
  end.

(** * Probes *)

(** The files of sysfs the kernel shows: a number and a line feed, and
    [config:] with the number of a bit. *)
Definition type_file (n : Z) : list Z := dec n ++ [10].
Definition retprobe_file (bit : Z) : list Z := txt "config:" ++ dec bit ++ [10].
(** A probe as the kernel's PMU reads it: return probe, name or path, offset. *)
Definition k_probe (ret_bit : Z) (b : list Z) : Z * bool * Z * Z := (rd 0 4 b, Z.testbit (rd 8 8 b) ret_bit, rd 56 8 b, rd 64 8 b).
