(** Claims about running the tests. *)
From Coq Require Import String.
From Verif Require Import Base Text TextParse LogModel TextSplit KmodModel CpioModel CpioSpec CpioProofs5 VmModel VmSpec VmProofs VmProofs2 VmProofs3 VmProofs4.
Local Open Scope Z_scope.

(** * C110: tests succeed when every test program does *)

(** In the machine: all file systems are mounted in order, then each program in /bin
    is run once with the arguments; init reports success exactly when all exit with
    zero. *)
Theorem C110_init : forall M c names, mountable M -> k_cmdline M = Some c -> k_bin M = Some (map Some names) ->
  (forall n, In n names -> k_exec M (txt "/bin/" ++ n) (init_args c) <> None) ->
  mounted (fst (fst (init_run M))) = needed /\ programs_run (fst (fst (init_run M))) = map (fun n => (txt "/bin/" ++ n, init_args c)) names /\
  (snd (init_run M) = None <-> Forall (passes M (init_args c)) names).
Proof.
  intros M c names MT C B St. destruct (init_runs M c _ MT C B) as (A1 & A2 & A3). split; [exact A1|]. split.
  - rewrite A2. clear - St. induction names as [|n names IH]; [reflexivity|]. cbn [map flat_map]. rewrite IH by (intros m I; apply St; right; exact I).
    unfold started. destruct (k_exec M (txt "/bin/" ++ n) (init_args c)) eqn:E; [reflexivity|]. exfalso. exact (St n (or_introl eq_refl) E).
  - rewrite A3, Forall_map. apply Forall_forall_iff. intros n _. split; [intros (m & E & P); apply some_inj in E; subst m; exact P|intros P; exists n; auto].
Qed.
Print Assumptions C110_init.
(** The programs init blames are those that failed. *)
Theorem C110_blamed : forall M c names l, mountable M -> k_cmdline M = Some c -> k_bin M = Some (map Some names) -> snd (init_run M) = Some (EPrograms l) ->
  forall j, In j l <-> exists n, nth_error names j = Some n /\ ~ passes M (init_args c) n.
Proof. exact init_blames. Qed.
Print Assumptions C110_blamed.
(** Success is reported only after everything was mounted, the arguments and the
    programs were read, and all programs passed. *)
Theorem C110_success : forall M, snd (init_run M) = None -> mounted (fst (fst (init_run M))) = needed /\
  exists c names, k_cmdline M = Some c /\ k_bin M = Some (map Some names) /\ Forall (passes M (init_args c)) names.
Proof. exact init_success_names. Qed.
Print Assumptions C110_success.
(** If something cannot be mounted or read no program is run. *)
Theorem C110_nothing_run : forall M, snd (init_run M) <> None -> (forall l, snd (init_run M) <> Some (EPrograms l)) -> programs_run (fst (fst (init_run M))) = [].
Proof. exact init_no_runs. Qed.
Print Assumptions C110_nothing_run.
(** The arguments arrive unless they contain blanks. *)
Theorem C110_args_partial : forall console args, no_blank console -> Forall no_blank args -> init_args (kernel_args console args ++ [10]) = txt "--test-threads=1" :: args.
Proof. exact args_arrive. Qed.
Print Assumptions C110_args_partial.

(** Outside: a machine succeeded when its only verdict is success, failed when it is
    failure, and it was readable and ended well; everything else is an error. *)
Theorem C110_verdict : forall v, (run_vm v = Ok true <-> vm_verdict v [txt "init: success"]) /\ (run_vm v = Ok false <-> vm_verdict v [txt "init: failure"]).
Proof. intros v. split; [exact (run_vm_ok v true)|exact (run_vm_ok v false)]. Qed.
Print Assumptions C110_verdict.
Theorem C110_done : forall l, run_vms 0 [] l = Done <-> Forall (fun v => vm_verdict v [txt "init: success"]) l.
Proof. intros l. rewrite vms_done. apply Forall_forall_iff. intros v _. exact (run_vm_ok v true). Qed.
Print Assumptions C110_done.
(** Machines that failed are all reported. *)
Theorem C110_failed : forall l bad, run_vms 0 [] l = Failed bad ->
  bad <> [] /\ forall j v, nth_error l j = Some v -> if in_dec Nat.eq_dec j bad then vm_verdict v [txt "init: failure"] else vm_verdict v [txt "init: success"].
Proof.
  intros l bad H. apply vms_failed in H as (N & bs & F & ->). split; [exact N|]. intros j v Hv.
  assert (X : exists b, nth_error bs j = Some b /\ run_vm v = Ok b).
  { clear N. revert j Hv. induction F as [|w b l bs Hw _ IH]; intros j Hv; [destruct j; discriminate Hv|]. destruct j as [|j]; [apply some_inj in Hv; subst w; exists b; auto|exact (IH j Hv)]. }
  destruct X as (b & Hb & R). apply run_vm_ok in R. destruct (in_dec Nat.eq_dec j (positions 0 bs)) as [I|I].
  - apply positions_in in I as (i & -> & E). cbn [Nat.add] in Hb. rewrite E in Hb. apply some_inj in Hb. subst b. exact R.
  - destruct b; [exact R|]. exfalso. apply I. apply positions_in. exists j. auto.
Qed.
Print Assumptions C110_failed.

(** From end to end: when programs print whole lines that do not look like a verdict,
    the run succeeds exactly when all programs do, with the arguments given. *)
Theorem C110_run_partial : forall (l : list (str * machine * list str * vm)) console args,
  no_blank console -> Forall no_blank args ->
  Forall (fun '(kernel, M, names, v) => well_behaved M /\ mountable M /\ k_cmdline M = Some (kernel_args console args ++ [10]) /\ k_bin M = Some (map Some names) /\ seen_from_outside kernel M v) l ->
  (run_vms 0 [] (map snd l) = Done <-> Forall (fun '(kernel, M, names, v) => Forall (passes M (txt "--test-threads=1" :: args)) names) l).
Proof. exact run_all. Qed.
Print Assumptions C110_run_partial.
(** The programs are those of the archive: with /bin as it was unpacked, init succeeds
    exactly when each test program put into the archive does. *)
Theorem C110_archive : forall i now out t M c names, good i -> 0 <= now -> initramfs i now = Ok out -> boot out = Some t ->
  mountable M -> k_cmdline M = Some c -> k_bin M = Some (map Some names) -> (forall n, In n names <-> t [txt "bin"; n] <> None) ->
  (snd (init_run M) = None <-> forall p l n s, In (p, l) (i_binaries i) -> In (n, s) l -> passes M (init_args c) (p ++ txt "-" ++ n)).
Proof.
  intros i now out t M c names G Hn H B MT C K N. destruct (booted i now out G Hn H) as (t' & B' & _ & W). rewrite B in B'. apply some_inj in B'. subst t'.
  assert (R : readable i) by (apply (built i now G); exists out; exact H). destruct R as (_ & _ & _ & _ & R).
  destruct (init_runs M c _ MT C K) as (_ & _ & A). rewrite A, Forall_map, Forall_forall. split.
  - intros P p l n s I J. destruct (R p l n s I J) as (d & D & _). destruct (P (p ++ txt "-" ++ n)) as (m & E & Q).
    + apply N. assert (X : t [txt "bin"; p ++ txt "-" ++ n] = Some (NFile 493 d)) by (apply W; [discriminate|exact (w_binary i p l n s d I J D)]). rewrite X. discriminate.
    + apply some_inj in E. subst m. exact Q.
  - intros P n I. apply N in I. destruct (t [txt "bin"; n]) as [x|] eqn:X; [|contradiction]. apply W in X; [|discriminate]. exists n. split; [reflexivity|].
    remember [txt "bin"; n] as q eqn:Q. destruct X; try discriminate Q. apply (f_equal (fun q => nth 1 q [])) in Q. cbn [nth] in Q. subst n. exact (P _ _ _ _ H0 H1).
Qed.
Print Assumptions C110_archive.

(** The emulator is told to stop when a line shows a panic, or at the second lockup. *)
Theorem C110_stop : forall lines o, snd (watch no_counts None lines) = Ok o ->
  ((1 <= fst (watch no_counts None lines))%nat <-> (exists l, In l lines /\ panic l) \/
     exists a l1 b l2 c, lines = a ++ l1 :: b ++ l2 :: c /\ lockup l1 /\ lockup l2).
Proof. intros lines o. exact (watch_told lines 0%nat 0%nat 0%nat None o). Qed.
Print Assumptions C110_stop.

(** Without a machine: every program is run, below the runner and with the arguments,
    and the run succeeds when all exit with zero. *)
Theorem C110_local : forall exec words args binaries, words <> [] -> Forall word words ->
  (forall p l n b, In (p, l) binaries -> In (n, b) l -> exec (words ++ [b] ++ txt "--test-threads=1" :: args) <> None) ->
  fst (run_local exec (join 32 words) args binaries) = flat_map (fun '(_, l) => map (fun '(_, b) => words ++ [b] ++ txt "--test-threads=1" :: args) l) binaries /\
  (snd (run_local exec (join 32 words) args binaries) = LDone <->
   forall p l n b, In (p, l) binaries -> In (n, b) l -> exec (words ++ [b] ++ txt "--test-threads=1" :: args) = Some (Some 0)).
Proof. exact local_runs. Qed.
Print Assumptions C110_local.
Theorem C110_local_failed : forall exec words args binaries bad, words <> [] -> Forall word words ->
  snd (run_local exec (join 32 words) args binaries) = LFailed bad ->
  bad <> [] /\ forall p n, In (p, n) bad <-> exists l b, In (p, l) binaries /\ In (n, b) l /\ exec (words ++ [b] ++ txt "--test-threads=1" :: args) <> Some (Some 0).
Proof. exact local_failed. Qed.
Print Assumptions C110_local_failed.

(** * Examples and refutations *)

Definition some_machine (out : str) (code : Z) : machine := {|
  k_stat := fun _ _ => Some (16384 + 493); k_mkdir := fun _ _ _ => true; k_mount := fun _ _ => true;
  k_cmdline := Some (kernel_args (txt "ttyS0") [txt "--skip=x"] ++ [10]); k_bin := Some [Some (txt "dev-tests")];
  k_exec := fun _ _ => Some (Some code, out); k_show := fun p _ => p; k_errors := fun _ => txt "failed" |}.
Definition some_vm (out : str) (code : Z) : vm := {| v_stdout := onlcr (txt "Booting" ++ [10] ++ init_console (some_machine out code)); v_stderr := []; v_status := Some 0 |}.
Lemma some_mountable out code : mountable (some_machine out code).
Proof. repeat split; try reflexivity. exists 493. split; [reflexivity|lia]. Qed.
Lemma some_seen out code : seen_from_outside (txt "Booting" ++ [10]) (some_machine out code) (some_vm out code).
Proof.
  split; [unfold some_vm; cbn [v_stdout]; rewrite <- app_assoc; reflexivity|]. split; [exact quiet_nil|]. split; [|reflexivity]. apply quiet_line.
  split; [cbn; intuition discriminate|]. split; [reflexivity|]. intros (r & E). discriminate E.
Qed.
Example C110_some : run_vms 0 [] [some_vm (txt "test result: ok" ++ [10]) 0] = Done /\ run_vms 0 [] [some_vm [] 0; some_vm [] 1; some_vm [] 0] = Failed [1%nat].
Proof. vm_compute. auto. Qed.
Example C110_some_behaved : well_behaved {|
  k_stat := fun _ _ => Some (16384 + 493); k_mkdir := fun _ _ _ => true; k_mount := fun _ _ => true; k_cmdline := None; k_bin := None;
  k_exec := fun _ _ => Some (Some 0, txt "ok" ++ [10]); k_show := fun _ _ => []; k_errors := fun _ => txt "failed" |}.
Proof.
  assert (P : forall s, starts_with (txt "init: ") s = false -> utf8 s = true -> ~ In 10 s -> plain_line s).
  { intros s A B C. split; [exact C|]. split; [exact B|]. intros V. apply starts_with_iff in V. congruence. }
  split; [|split].
  - intros p a c out E. cbn [k_exec] in E. apply some_inj in E. apply pair_equal_spec in E as [_ <-]. apply quiet_line. apply P; [reflexivity|reflexivity|cbn; intuition discriminate].
  - intros p a. apply P; [reflexivity|reflexivity|cbn; intuition discriminate].
  - intros l. apply quiet_line. apply P; [reflexivity|reflexivity|cbn; intuition discriminate].
Qed.

(** Refuted: an argument with a blank arrives cut. *)
Theorem C110_blank_refuted : exists args, init_args (kernel_args (txt "ttyS0") args ++ [10]) <> txt "--test-threads=1" :: args /\
  init_args (kernel_args (txt "ttyS0") args ++ [10]) = [txt "--test-threads=1"; txt "two"].
Proof. exists [txt "two words"]. vm_compute. split; [discriminate|reflexivity]. Qed.
Print Assumptions C110_blank_refuted.
(** Refuted: all programs succeed, but one prints a line that looks like a verdict. *)
Theorem C110_printed_refuted : exists kernel M v, mountable M /\ seen_from_outside kernel M v /\ snd (init_run M) = None /\ run_vms 0 [] [v] = Stopped 0 EMultiple.
Proof.
  exists (txt "Booting" ++ [10]), (some_machine (txt "init: success" ++ [10]) 0), (some_vm (txt "init: success" ++ [10]) 0).
  split; [apply some_mountable|]. split; [apply some_seen|]. split; vm_compute; reflexivity.
Qed.
Print Assumptions C110_printed_refuted.
(** Refuted: all programs succeed, but one does not end its last line. *)
Theorem C110_unended_refuted : exists kernel M v, mountable M /\ seen_from_outside kernel M v /\ snd (init_run M) = None /\ run_vms 0 [] [v] = Stopped 0 ENoOutcome.
Proof.
  exists (txt "Booting" ++ [10]), (some_machine (txt "done") 0), (some_vm (txt "done") 0).
  split; [apply some_mountable|]. split; [apply some_seen|]. split; vm_compute; reflexivity.
Qed.
Print Assumptions C110_unended_refuted.
(** Refuted: a machine that panics after a program printed a verdict has succeeded. *)
Theorem C110_panic_refuted : exists v, (1 <= fst (watch no_counts None (buf_lines [] (v_stdout v))))%nat /\ (exists l, In l (buf_lines [] (v_stdout v)) /\ panic l) /\ run_vms 0 [] [v] = Done.
Proof.
  exists {| v_stdout := txt "init: success" ++ [13; 10] ++ txt "---[ end Kernel panic" ++ [13; 10]; v_stderr := []; v_status := Some 0 |}.
  split; [vm_compute; lia|]. split; [|vm_compute; reflexivity]. exists (txt "---[ end Kernel panic"). split; [right; left; reflexivity|]. left. exists (txt "---[ "), []. reflexivity.
Qed.
Print Assumptions C110_panic_refuted.
(** Refuted: a block device is taken for a directory to mount at. *)
Theorem C110_device_refuted : exists M m, m_mode m = None /\ (exists st, k_stat M [] (m_target m) = Some st /\ st / 4096 = 6) /\ snd (do_mount M [] m) = None.
Proof.
  exists {| k_stat := fun _ _ => Some (24576 + 432); k_mkdir := fun _ _ _ => true; k_mount := fun _ _ => true; k_cmdline := None; k_bin := None;
            k_exec := fun _ _ => None; k_show := fun _ _ => []; k_errors := fun _ => [] |}, {| m_source := txt "dev"; m_target := txt "/dev"; m_fstype := txt "devtmpfs"; m_mode := None |}.
  split; [reflexivity|]. split; [exists (24576 + 432); split; reflexivity|]. vm_compute. reflexivity.
Qed.
Print Assumptions C110_device_refuted.
