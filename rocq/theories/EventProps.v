(** Perf events: what is asked of the kernel (C80) and bit fields (C81). *)
From Coq Require Import String.
From Verif Require Import Base Text EventModel EventSpec EventProofs EventProofs2 ProbeModel.
Local Open Scope Z_scope.

(** The kernel reads the event that was asked for out of the structure. *)
Theorem C80_event : forall c s sample wakeup inherit flags, config_ok c ->
  k_event (oc_attr (perf_event_open c s sample wakeup inherit flags)) = wanted c.
Proof. exact open_event. Qed.
Print Assumptions C80_event.
(** Sampling, wake-ups, inheritance and precision are those asked for, and no
    other of the 64 flag bits is set. *)
Theorem C80_policy : forall c s sample wakeup inherit flags, sample_ok sample -> match wakeup with Events n | Watermark n => 0 <= n < 2 ^ 32 end ->
  let b := oc_attr (perf_event_open c s sample wakeup inherit flags) in
  k_sampling b = sampling sample /\ k_wakeup b = match wakeup with Events n => KEvents n | Watermark n => KWatermark n end /\ k_inherit b = inherit /\
  k_precise b = (if breakpoint c then 2 else 0) /\ rd 24 8 b = 1024 /\ rd 4 4 b = 136 /\ length b = 136%nat.
Proof. exact open_policy. Qed.
Print Assumptions C80_policy.
Theorem C80_flags : forall c s sample wakeup inherit flags j, 0 <= j -> ~ In j [1; 10; 14; 15; 16] ->
  Z.testbit (rd 40 8 (oc_attr (perf_event_open c s sample wakeup inherit flags))) j = false.
Proof. exact open_bits. Qed.
Print Assumptions C80_flags.
(** The processes and the CPU are those asked for when their numbers are ones
    the kernel gives out. *)
Theorem C80_scope_partial : forall c s sample wakeup inherit flags, scope_ok s ->
  let call := perf_event_open c s sample wakeup inherit flags in k_scope (oc_pid call) (oc_cpu call) = in_scope s /\ oc_group call = -1 /\ oc_flags call = flags.
Proof. exact open_scope. Qed.
Print Assumptions C80_scope_partial.
(** Other numbers select something else: process 0xffffffff is every process,
    process 0 the caller, CPU 0xffffffff every CPU. *)
Theorem C80_scope_refuted :
  (exists s : event_scope, s = OneProcess (2 ^ 32 - 1) (Some 3) /\ k_scope (fst (scope_of s)) (snd (scope_of s)) = in_scope (AllProcessesOneCpu 3)) /\
  (exists s, s = OneProcess 0 (Some 3) /\ k_scope (fst (scope_of s)) (snd (scope_of s)) = in_scope (CallingProcess (Some 3))) /\
  (exists s, s = CallingProcess (Some (2 ^ 32 - 1)) /\ k_scope (fst (scope_of s)) (snd (scope_of s)) = in_scope (CallingProcess None)).
Proof. exact scope_wrong. Qed.
Print Assumptions C80_scope_refuted.
(** A trace point is opened by its number, close-on-exec. *)
Theorem C80_tracepoint : forall id pid, u64_ok id -> match pid with Some p => num_ok p /\ p <> 0 | None => True end ->
  let call := open_trace_point id pid in
  k_event (oc_attr call) = KTracepoint id /\ k_scope (oc_pid call) (oc_cpu call) = match pid with Some p => KScope (Some p) false None | None => KScope None false (Some 0) end /\
  oc_flags call = 8.
Proof. exact trace_point_spec. Qed.
Print Assumptions C80_tracepoint.
(** A probe's type, return flag, name and offset reach the kernel, and nothing
    else is set; the descriptor is close-on-exec. *)
Theorem C80_probe : forall ty ret_bit name ptr offset pid call, 0 <= ty < 2 ^ 32 -> u64_ok ptr -> u64_ok offset ->
  match ret_bit with Some b => 0 <= b < 64 | None => True end ->
  open_probe ty ret_bit name ptr offset pid = Some call ->
  k_probe (match ret_bit with Some b => b | None => 0 end) (oc_attr call) = (ty, match ret_bit with Some _ => true | None => false end, ptr, offset) /\
  (forall j, 0 <= j -> ret_bit <> Some j -> Z.testbit (rd 8 8 (oc_attr call)) j = false) /\
  rd 40 8 (oc_attr call) = 0 /\ rd 4 4 (oc_attr call) = 136 /\ length (oc_attr call) = 136%nat /\ oc_group call = -1 /\ oc_flags call = 8.
Proof. exact open_probe_spec. Qed.
Print Assumptions C80_probe.
Theorem C80_probe_scope : forall ty ret_bit name ptr offset pid call, match pid with Some p => num_ok p /\ p <> 0 | None => True end ->
  open_probe ty ret_bit name ptr offset pid = Some call ->
  k_scope (oc_pid call) (oc_cpu call) = match pid with Some p => KScope (Some p) false None | None => KScope None false (Some 0) end.
Proof. exact open_probe_scope. Qed.
Print Assumptions C80_probe_scope.
(** Opening a probe goes without a panic exactly for names without a zero
    byte. *)
Theorem C80_probe_panic : forall ty ret_bit name ptr offset pid, (exists call, open_probe ty ret_bit name ptr offset pid = Some call) <-> ~ In 0 name.
Proof. exact open_probe_defined. Qed.
Print Assumptions C80_probe_panic.
(** The numbers of the PMUs are read back from the files the kernel shows. *)
Theorem C80_files : (forall n, 0 <= n < 2 ^ 32 -> perf_type (type_file n) = Some n) /\ (forall n, 0 <= n < 2 ^ 32 -> ret_probe_bit (retprobe_file n) = Some n).
Proof. split; [exact perf_type_file|exact ret_probe_file]. Qed.
Print Assumptions C80_files.
(** [PerfEvent::attach] opens its event without close-on-exec. *)
Theorem C80_cloexec_refuted : forall c s sample inherit, oc_flags (event_attach c s sample inherit) = 0 /\ oc_flags (open_trace_point 1 None) = 8.
Proof. intros. unfold event_attach. rewrite open_attr. split; reflexivity. Qed.
Print Assumptions C80_cloexec_refuted.
(** Return probes of kernel functions opened through the PMU carry the
    offset; created through tracefs they drop it. *)
Theorem C80_return_offset_refuted : forall name target offset1 offset2,
  create_command true true name target offset1 = create_command true true name target offset2.
Proof. reflexivity. Qed.
Print Assumptions C80_return_offset_refuted.

(** Setting a bit field changes the field to the low bits of the value and
    nothing else. *)
Theorem C81_set : forall be st off width val, bytes_ok st = true -> (off + width <= 8 * length st)%nat ->
  bytes_ok (bf_set be st off width val) = true /\ length (bf_set be st off width val) = length st /\
  forall j, 0 <= j -> Z.testbit (unit_value be (bf_set be st off width val)) j =
    let i := j - field_shift be (length st) off width in
    if (0 <=? i) && (i <? Z.of_nat width) then Z.testbit val i else Z.testbit (unit_value be st) j.
Proof. exact bf_set_spec. Qed.
Print Assumptions C81_set.
(** Reading one yields the field as C reads it. *)
Theorem C81_get : forall be st off width, bytes_ok st = true -> (off + width <= 8 * length st)%nat ->
  bf_get be st off width = (unit_value be st / 2 ^ field_shift be (length st) off width) mod 2 ^ Z.of_nat width.
Proof. exact bf_get_spec. Qed.
Print Assumptions C81_get.
Theorem C81_get_set : forall be st off width val, bytes_ok st = true -> (off + width <= 8 * length st)%nat ->
  bf_get be (bf_set be st off width val) off width = val mod 2 ^ Z.of_nat width.
Proof. exact bf_get_set. Qed.
Print Assumptions C81_get_set.

Example bitfield_example :
  bf_set false [0; 0; 0; 0] 4 4 5 = [80; 0; 0; 0] /\ bf_set true [0; 0; 0; 0] 4 4 5 = [5; 0; 0; 0] /\ bf_set false [255; 255] 6 4 9 = [127; 254] /\
  bf_get false [127; 254] 6 4 = 9 /\ bf_get true [5; 0; 0; 0] 4 4 = 5.
Proof. repeat split; reflexivity. Qed.
Example event_example :
  k_event (oc_attr (event_attach (HwCache Ll OpRead Miss) (OneProcess 7 None) (Frequency 99) true)) = KCache 2 0 1 /\
  k_sampling (oc_attr (event_attach (HwCache Ll OpRead Miss) (OneProcess 7 None) (Frequency 99) true)) = KFrequency 99 /\
  config_ok (Pmu 8 1) /\ scope_ok (OneProcess 7 (Some 2)) /\ perf_type (type_file 8) = Some 8 /\ ret_probe_bit (retprobe_file 0) = Some 0 /\
  (exists call, open_probe 8 (Some 0) (txt "do_exit") 4096 16 None = Some call).
Proof. repeat split; unfold u64_ok, num_ok; try lia; try reflexivity. eexists. reflexivity. Qed.
