(** Probes created through tracefs (C82). *)
From Coq Require Import String.
From Verif Require Import Base Text ProbeModel ProbeCmdSpec ProbeCmdProofs.
Local Open Scope Z_scope.

(** The kernel reads the probe that was asked for out of the line, for targets
    of letters, digits and [_ . / -]; return probes of kernel functions are put
    at offset 0. *)
Theorem C82_created_partial : forall kprobe ret pid target offset index, 0 <= pid < 10 ^ 20 -> 0 <= index < 10 ^ 20 -> 0 <= offset < 2 ^ 64 ->
  target <> [] -> Forall (fun c => path_char c = true) target ->
  k_create kprobe (create_command kprobe ret (alias pid ret target offset index) target offset) =
  Some {| kd_return := ret; kd_group := if kprobe then txt "kprobes" else txt "uprobes"; kd_event := alias pid ret target offset index; kd_target := target;
          kd_offset := if kprobe && ret then 0 else offset |}.
Proof. exact create_read. Qed.
Print Assumptions C82_created_partial.
(** Whatever the offset asked for, it is not in the line of a return probe of
    a kernel function. *)
Theorem C82_return_offset_refuted : exists pid target index, forall offset, 0 < offset < 2 ^ 64 ->
  exists d, k_create true (create_command true true (alias pid true target offset index) target offset) = Some d /\ kd_target d = target /\ kd_offset d <> offset.
Proof.
  exists 7, (txt "do_exit"), 0. intros offset H. rewrite create_read; try lia; try discriminate; [|repeat constructor].
  eexists. split; [reflexivity|]. split; [reflexivity|]. cbn. lia.
Qed.
Print Assumptions C82_return_offset_refuted.
(** Paths with other characters are refused: the plus sign gets into the name
    of the event, a blank ends the path, a number sign the line. *)
Theorem C82_target_refuted :
  k_create false (create_command false false (alias 7 false (txt "/usr/lib/libstdc++.so.6") 16 0) (txt "/usr/lib/libstdc++.so.6") 16) = None /\
  k_create false (create_command false false (alias 7 false (txt "/opt/my app/bin") 16 0) (txt "/opt/my app/bin") 16) = None /\
  k_create false (create_command false false (alias 7 false (txt "/opt/c#") 16 0) (txt "/opt/c#") 16) = None.
Proof. repeat split; vm_compute; reflexivity. Qed.
Print Assumptions C82_target_refuted.

Example created_example :
  k_create false (txt "p:uprobes/aya_1 /bin/sh:0xff" ++ [10]) =
    Some {| kd_return := false; kd_group := txt "uprobes"; kd_event := txt "aya_1"; kd_target := txt "/bin/sh"; kd_offset := 255 |} /\
  k_create true (txt "r:kprobes/aya_1 do_exit" ++ [10]) =
    Some {| kd_return := true; kd_group := txt "kprobes"; kd_event := txt "aya_1"; kd_target := txt "do_exit"; kd_offset := 0 |} /\
  forallb path_char (txt "/usr/lib/x86_64-linux-gnu/libc.so.6") = true.
Proof. repeat split; vm_compute; reflexivity. Qed.
