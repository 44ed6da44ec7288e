(** C44 and C54. *)
From Coq Require Import String.
From Verif Require Import Base Text TextParse TextSplit LogModel UProbeModel ProbeModel ProbeSpec ProbeProofs ProbeProofs2.
Local Open Scope Z_scope.

(** * C44: all or nothing *)

(** Whatever calls fail, a failed attach leaves exactly the attachments there
    were. *)
Theorem C44_failure : forall e points w x w1,
  fresh w -> attach_single e points w = (Err x, w1) -> same_attached w w1.
Proof. intros e points w x w1 F H. exact (attach_single_ok e points w (Err x) w1 F H). Qed.
Print Assumptions C44_failure.

(** A successful one adds every point in order, with its cookie. *)
Theorem C44_success : forall e points w l w1,
  fresh w -> attach_single e points w = (Ok l, w1) -> attached_points points w w1 /\ points <> [].
Proof. intros e points w l w1 F H. pose proof (attach_single_ok e points w (Ok l) w1 F H) as (A & _ & B). exact (conj A B). Qed.
Print Assumptions C44_success.

(** Detaching the link takes away all of them and nothing else. *)
Theorem C44_detach : forall e points w l w1,
  fresh w -> attach_single e points w = (Ok l, w1) -> same_attached w (detach e l w1).
Proof. intros e points w l w1 F H. pose proof (attach_single_ok e points w (Ok l) w1 F H) as (_ & A & _). exact A. Qed.
Print Assumptions C44_detach.

(** A program of unknown kind is attached one way only, and its kind is settled
    by the way that worked. *)
Theorem C44_mode : forall A (multi : res bool A) (single : res unit A) r m,
  attach_unknown multi single = (r, m) ->
  (m = MMulti /\ (exists l, multi = Ok l /\ r = Ok l)) \/
  (m = MSingle /\ multi = Err true /\ (exists l, single = Ok l /\ r = Ok l)) \/
  (m = MUnknown /\ r = Err tt /\ (multi = Err false \/ (multi = Err true /\ single = Err tt))).
Proof.
  intros A [l|[]] [k|[]] r m H; cbn in H; apply pair_equal_spec in H as [<- <-]; eauto 10.
Qed.
Print Assumptions C44_mode.

Definition env_old (busy : bool) : env :=
  {| e_pmu := false; e_link := false; e_cookie := false; e_busy := busy; e_pid := 77; e_kprobe := false; e_return := false; e_target := txt "/bin/sh" |}.
Definition env_new : env :=
  {| e_pmu := true; e_link := true; e_cookie := true; e_busy := true; e_pid := 77; e_kprobe := false; e_return := true; e_target := txt "/bin/sh" |}.
Definition start (fails : list bool) : world :=
  {| w_next := 3; w_perf := []; w_links := []; w_events := [{| ev_head := txt "p:uprobes"; ev_name := txt "other"; ev_rest := txt "/bin/ls:0x10" |}]; w_index := 0; w_log := []; w_fail := fails |}.
Lemma start_fresh fails : fresh (start fails). Proof. split; constructor. Qed.

(** Three points with cookies; the same with the link of the third failing. *)
Example C44_example :
  (let (r, w) := attach_single env_new [(16, Some 1); (32, None); (48, Some 3)] (start []) in
   map (fun l => (bl_point l, bl_cookie l)) (w_links w) = [(16, Some 1); (32, None); (48, Some 3)] /\ w_perf w = [] /\
   match r with Ok l => w_links (detach env_new l w) = [] | Err _ => False end) /\
  (let (r, w) := attach_single env_new [(16, Some 1); (32, None); (48, Some 3)] (start [false; false; false; false; false; false; false; false; false; false; false; true]) in
   r = Err PSyscall /\ w_links w = [] /\ w_perf w = [] /\ w_next w = 8) /\
  (let (r, w) := attach_single (env_old false) [(16, None); (32, None)] (start []) in
   map (fun p => (pf_point p, pf_prog p, pf_on p)) (w_perf w) = [(16, true, true); (32, true, true)]).
Proof. vm_compute. auto 10. Qed.

(** * C54: tracefs events *)

(** No two events made by a process, and no two processes' events, share a
    name (while process ids differ). *)
Theorem C54_alias : forall p1 p2 r1 r2 t1 t2 o1 o2 i1 i2,
  0 <= p1 < 2 ^ 32 -> 0 <= p2 < 2 ^ 32 -> 0 <= i1 < 2 ^ 64 -> 0 <= i2 < 2 ^ 64 ->
  alias p1 r1 t1 o1 i1 = alias p2 r2 t2 o2 i2 -> p1 = p2 /\ i1 = i2.
Proof. exact alias_inj. Qed.
Print Assumptions C54_alias.

(** The command written names the event exactly; it is written if some event's
    name starts with it. *)
Theorem C54_command : forall l n c, Forall event_ok l -> plain n -> n <> [] ->
  (delete_command (events_file l) n = Some c <-> c = txt "-:" ++ n ++ [10] /\ exists v x, In v l /\ ev_name v = n ++ x).
Proof. exact delete_command_spec. Qed.
Print Assumptions C54_command.

(** Removing a name leaves every event of another name, also those whose names
    extend it. *)
Theorem C54_exact : forall e n w v, In v (w_events w) -> ev_name v <> n -> In v (w_events (detach_debug_fs e n w)).
Proof. exact removal_exact. Qed.
Print Assumptions C54_exact.

(** If the kernel lets go of an event in use, a failed attach and a detach leave
    the events there were, and each name created was created once and removed
    once. *)
Theorem C54_cleanup_partial : forall e points w r w1,
  e_busy e = false -> ready e points w -> attach_single e points w = (r, w1) ->
  match r with Ok l => cleaned w (detach e l w1) | Err _ => cleaned w w1 end.
Proof. exact lifecycle. Qed.
Print Assumptions C54_cleanup_partial.

(** A kernel that refuses to remove an event in use (as Linux does) keeps the
    event: on detach and on a failed SET_BPF the removal is attempted while the
    perf event is still open (perf_attach.rs:73-82, 124-147), and the error is
    ignored. *)
Theorem C54_busy_refuted : exists e w,
  e_busy e = true /\ fresh w /\
  (exists l w1, attach_single e [(16, None)] w = (Ok l, w1) /\ w_perf (detach e l w1) = [] /\ w_events (detach e l w1) <> w_events w) /\
  (exists w1, attach_single e [(16, None)] {| w_next := w_next w; w_perf := w_perf w; w_links := w_links w; w_events := w_events w; w_index := w_index w; w_log := w_log w; w_fail := [false; false; false; false; true] |} = (Err PSyscall, w1) /\
     w_perf w1 = [] /\ w_events w1 <> w_events w).
Proof.
  exists (env_old true), (start []). split; [reflexivity|]. split; [apply start_fresh|]. split.
  - exists (LinkPerf {| pl_fd := 3; pl_event := Some {| pe_alias := txt "aya_77_p__bin_sh_0x10_0"; pe_armed := Some false |} |}).
    exists (snd (attach_single (env_old true) [(16, None)] (start []))). split; [vm_compute; reflexivity|]. split; [vm_compute; reflexivity|]. vm_compute. discriminate.
  - exists (snd (attach_single (env_old true) [(16, None)] (start [false; false; false; false; true]))). split; [vm_compute; reflexivity|]. split; [vm_compute; reflexivity|]. vm_compute. discriminate.
Qed.
Print Assumptions C54_busy_refuted.

(** Two processes with the same id in different pid namespaces use the same
    name for the same point: the second's event replaces the first's, if it is
    not in use yet. *)
Theorem C54_namespace_refuted : exists e w v w1,
  fresh w /\ (exists p, create_probe_event e 16 w = (Ok p, v)) /\
  (exists p, create_probe_event e 16 {| w_next := w_next v; w_perf := w_perf v; w_links := w_links v; w_events := w_events v; w_index := w_index w; w_log := w_log v; w_fail := w_fail v |} = (Ok p, w1)) /\
  w_events w1 = w_events v /\ creations (txt "aya_77_p__bin_sh_0x10_0") (w_log w1) = 2%nat.
Proof.
  set (p := {| pe_alias := txt "aya_77_p__bin_sh_0x10_0"; pe_armed := Some true |}). set (v := snd (create_probe_event (env_old true) 16 (start []))).
  set (v0 := {| w_next := w_next v; w_perf := w_perf v; w_links := w_links v; w_events := w_events v; w_index := w_index (start []); w_log := w_log v; w_fail := w_fail v |}).
  exists (env_old true), (start []), v, (snd (create_probe_event (env_old true) 16 v0)). split; [apply start_fresh|]. split; [exists p; vm_compute; reflexivity|]. split; [exists p; vm_compute; reflexivity|]. vm_compute. auto.
Qed.
Print Assumptions C54_namespace_refuted.

(** The hypotheses can hold. *)
Example C54_ready : ready (env_old false) [(16, None); (32, None)] (start []).
Proof.
  unfold ready. cbn [e_pid env_old w_index start length e_target e_return w_events map ev_name].
  split; [lia|]. split; [lia|]. split; [vm_compute; discriminate|]. split; [vm_compute; repeat constructor|]. split; [|split].
  - constructor; [|constructor]. unfold event_ok. vm_compute. intuition discriminate.
  - repeat constructor; cbn [fst]; lia.
  - intros p i _ _ [E|[]]. apply (f_equal (hd 0)) in E. discriminate.
Qed.
Example C54_example :
  alias 77 false (txt "/usr/lib/libc-2.so") 4096 3 = txt "aya_77_p__usr_lib_libc_2_so_0x1000_3" /\
  create_command false false (txt "aya_1") (txt "/bin/sh") 255 = txt "p:uprobes/aya_1 /bin/sh:0xff" ++ [10] /\
  create_command true true (txt "aya_1") (txt "do_exit") 255 = txt "r:kprobes/aya_1 do_exit" ++ [10] /\
  (let (r, w) := attach_single (env_old false) [(16, None); (32, None)] (start [false; false; false; false; false; false; false; false; false; false; true]) in
   r = Err PSyscall /\ map ev_name (w_events w) = [txt "other"] /\
   w_log w = [Created (txt "aya_77_p__bin_sh_0x10_0"); Created (txt "aya_77_p__bin_sh_0x20_1"); Removed (txt "aya_77_p__bin_sh_0x20_1"); Removed (txt "aya_77_p__bin_sh_0x10_0")]).
Proof. vm_compute. auto 10. Qed.
