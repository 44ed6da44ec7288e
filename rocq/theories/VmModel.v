(** Running the tests: /repo/test-distro/src/init.rs inside the test machine, and
    /repo/xtask/src/run.rs 366-410 and 640-790 outside.

    Simplifications: text is ASCII white space and UTF-8; building the programs and
    starting the emulator works; error texts and the shown form of commands are
    given by the machine; stdin of the emulator takes what is written. *)
From Coq Require Import String.
From Verif Require Import Base Text TextParse LogModel TextSplit KmodModel.
Local Open Scope Z_scope.

(** * init *)

Record mount := { m_source : str; m_target : str; m_fstype : str; m_mode : option Z }.
(** init.rs 27-33. *)
Definition rxrxrx : Z := Z.lor (Z.lor (Z.lor (Z.lor (Z.lor 256 64) 32) 8) 4) 1.
(** init.rs 52-117. *)
Definition mounts : list mount :=
  [{| m_source := txt "proc"; m_target := txt "/proc"; m_fstype := txt "proc"; m_mode := Some rxrxrx |};
   {| m_source := txt "dev"; m_target := txt "/dev"; m_fstype := txt "devtmpfs"; m_mode := None |};
   {| m_source := txt "tmpfs"; m_target := txt "/tmp"; m_fstype := txt "tmpfs"; m_mode := Some 4095 |};
   {| m_source := txt "sysfs"; m_target := txt "/sys"; m_fstype := txt "sysfs"; m_mode := Some rxrxrx |};
   {| m_source := txt "debugfs"; m_target := txt "/sys/kernel/debug"; m_fstype := txt "debugfs"; m_mode := None |};
   {| m_source := txt "bpffs"; m_target := txt "/sys/fs/bpf"; m_fstype := txt "bpf"; m_mode := None |};
   {| m_source := txt "cgroup2"; m_target := txt "/sys/fs/cgroup"; m_fstype := txt "cgroup2"; m_mode := None |};
   {| m_source := txt "securityfs"; m_target := txt "/sys/kernel/security"; m_fstype := txt "securityfs"; m_mode := None |}].

(** The machine: the kernel's answers given what was done so far, the parameters,
    the names in /bin, and what programs do: the exit code, nothing if killed by a
    signal, and what they print; nothing if they cannot be started. *)
Inductive action := AStat (t : str) | AMkdir (t : str) (mode : Z) | AMount (s t f : str) | ARun (path : str) (args : list str).
Record machine := {
  k_stat : list action -> str -> option Z;
  k_mkdir : list action -> str -> Z -> bool;
  k_mount : list action -> mount -> bool;
  k_cmdline : option str;
  k_bin : option (list (option str));
  k_exec : str -> list str -> option (option Z * str);
  k_show : str -> list str -> str;
  k_errors : list nat -> str
}.
Inductive ierr := EStat (t : str) | ENotDir (t : str) | EMkdir (t : str) | EMount (t : str) | ECmdline | EReadDir | EPrograms (l : list nat).

(** init.rs 118-139. *)
Definition do_mount (M : machine) (done : list action) (m : mount) : list action * option ierr :=
  let '(acts, r) :=
    match m_mode m with
    | None =>
        ([AStat (m_target m)],
         match k_stat M done (m_target m) with
         | None => Some (EStat (m_target m))
         | Some st => if Z.land st 16384 =? 16384 then None else Some (ENotDir (m_target m))
         end)
    | Some mode => ([AMkdir (m_target m) mode], if k_mkdir M done (m_target m) mode then None else Some (EMkdir (m_target m)))
    end in
  match r with
  | Some e => (done ++ acts, Some e)
  | None =>
      let done := done ++ acts in
      (done ++ [AMount (m_source m) (m_target m) (m_fstype m)], if k_mount M done m then None else Some (EMount (m_target m)))
  end.
Fixpoint do_mounts (M : machine) (done : list action) (l : list mount) : list action * option ierr :=
  match l with
  | [] => (done, None)
  | m :: l => match do_mount M done m with (done, None) => do_mounts M done l | r => r end
  end.

(** init.rs 145-154. *)
Definition init_args (cmdline : str) : list str :=
  flat_map (fun p => match strip_prefix (txt "init.arg=") p with Some a => [a] | None => [] end) (ws_words cmdline).
(** init.rs 158-177: what is done, printed, and whether it failed. *)
Definition run_entry (M : machine) (args : list str) (entry : option str) : list action * str * bool :=
  match entry with
  | None => ([], [], true)
  | Some n =>
      let path := txt "/bin/" ++ n in
      let shown := txt "running " ++ k_show M path args ++ [10] in
      match k_exec M path args with
      | None => ([], shown, true)
      | Some (code, out) => ([ARun path args], shown ++ out, match code with Some c => negb (c =? 0) | None => true end)
      end
  end.
(** init.rs 158-193: the positions of those that failed. *)
Fixpoint run_entries (M : machine) (args : list str) (k : nat) (l : list (option str)) : list action * str * list nat :=
  match l with
  | [] => ([], [], [])
  | x :: l =>
      let '(a, o, f) := run_entry M args x in
      let '(acts, out, failed) := run_entries M args (S k) l in
      (a ++ acts, o ++ out, if f then k :: failed else failed)
  end.
(** init.rs 26-199. *)
Definition init_run (M : machine) : list action * str * option ierr :=
  match do_mounts M [] mounts with
  | (done, Some e) => (done, [], Some e)
  | (done, None) =>
      match k_cmdline M with
      | None => (done, [], Some ECmdline)
      | Some c =>
          match k_bin M with
          | None => (done, [], Some EReadDir)
          | Some l => let '(acts, out, failed) := run_entries M (init_args c) 0 l in (done ++ acts, out, match failed with [] => None | _ => Some (EPrograms failed) end)
          end
      end
  end.
(** init.rs 201-211: what is printed. *)
Definition init_console (M : machine) : str :=
  let '(_, out, r) := init_run M in
  out ++ match r with
         | None => txt "init: success" ++ [10]
         | Some e => k_errors M match e with EPrograms l => l | _ => [] end ++ [10] ++ txt "init: failure" ++ [10]
         end.

(** * The parameters of the kernel *)

(** run.rs 368-374. *)
Definition all_args (run_args : list str) : list str := txt "--test-threads=1" :: run_args.
(** run.rs 651-676. *)
Definition kernel_args (console : str) (run_args : list str) : str :=
  let '(_, acc) :=
    fold_left (fun '(i, acc) '(k, v) => (S i, (if Nat.eqb i 0 then acc else acc ++ [32]) ++ k ++ [61] ++ v))
      ((txt "console", console) :: map (fun a => (txt "init.arg", a)) (all_args run_args)) (0%nat, []) in
  acc ++ txt " noapic" ++ txt " lsm=bpf".

(** * Watching *)

Fixpoint contains (p s : str) : bool := starts_with p s || match s with [] => false | _ :: s => contains p s end.
(** run.rs 703-707. *)
Definition markers : list (str * nat) :=
  [(txt "end Kernel panic", 0); (txt "rcu: RCU grace-period kthread stack dump:", 0); (txt "watchdog: BUG: soft lockup", 1)]%nat.
(** run.rs 710-731: the counts, and whether the emulator is told to stop. *)
Fixpoint note_line (ms : list (str * nat)) (counts : list nat) (line : str) : list nat * bool :=
  match ms, counts with
  | (m, max) :: ms, c :: counts =>
      if contains m line then (S c :: counts, (max <? S c)%nat) else let '(counts, r) := note_line ms counts line in (c :: counts, r)
  | _, _ => (counts, false)
  end.
Definition no_counts : list nat := [0; 0; 0]%nat.

Inductive verr := EUtf8 | EInitOutput (l : str) | EMultiple | EStderr | EStatus (c : option Z) | ENoOutcome.
(** run.rs 749-768: how often the emulator is told to stop, and the outcome. *)
Fixpoint watch (counts : list nat) (outcome : option bool) (lines : list str) : nat * res verr (option bool) :=
  match lines with
  | [] => (0%nat, Ok outcome)
  | line :: lines =>
      if negb (utf8 line) then (0%nat, Err EUtf8)
      else
        let '(counts, stop) := note_line markers counts line in
        let '(n, r) :=
          match strip_prefix (txt "init: ") line with
          | None => watch counts outcome lines
          | Some l =>
              if str_eqb l (txt "success") then match outcome with Some _ => (0%nat, Err EMultiple) | None => watch counts (Some true) lines end
              else if str_eqb l (txt "failure") then match outcome with Some _ => (0%nat, Err EMultiple) | None => watch counts (Some false) lines end
              else (0%nat, Err (EInitOutput l))
          end in
        ((if stop then S n else n), r)
  end.
(** run.rs 733-746: counted apart. *)
Fixpoint watch_stderr (counts : list nat) (lines : list str) : nat * bool :=
  match lines with
  | [] => (0%nat, true)
  | line :: lines =>
      if negb (utf8 line) then (0%nat, false)
      else let '(counts, stop) := note_line markers counts line in let '(n, r) := watch_stderr counts lines in ((if stop then S n else n), r)
  end.
(** A machine as seen from outside. *)
Record vm := { v_stdout : str; v_stderr : str; v_status : option Z }.
Definition code_ok (c : option Z) : bool := match c with Some c => c =? 0 | None => false end.
(** run.rs 748-788. *)
Definition run_vm (v : vm) : res verr bool :=
  bind (snd (watch no_counts None (buf_lines [] (v_stdout v)))) (fun outcome =>
    if negb (snd (watch_stderr no_counts (buf_lines [] (v_stderr v)))) then Err EStderr
    else if negb (code_ok (v_status v)) then Err (EStatus (v_status v))
    else match outcome with None => Err ENoOutcome | Some b => Ok b end).
(** run.rs 437-795: the machines that failed, by their position; an error ends
    everything. *)
Inductive result := Done | Failed (l : list nat) | Stopped (k : nat) (e : verr).
Fixpoint run_vms (k : nat) (errors : list nat) (l : list vm) : result :=
  match l with
  | [] => match errors with [] => Done | _ => Failed errors end
  | v :: l => match run_vm v with Err e => Stopped k e | Ok true => run_vms (S k) errors l | Ok false => run_vms (S k) (errors ++ [k]) l end
  end.

(** * Without a machine *)

(** run.rs 376-410; [exec]: the exit code if the command can be run. *)
Inductive lresult := LDone | LFailed (l : list (str * str)) | LNoRunner | LNotRun (cmd : list str).
Fixpoint run_binaries (exec : list str -> option (option Z)) (cmd args : list str) (l : list (str * (str * str))) (failed : list (str * str)) : list (list str) * lresult :=
  match l with
  | [] => ([], match failed with [] => LDone | _ => LFailed failed end)
  | (profile, (name, binary)) :: l =>
      let c := cmd ++ [binary] ++ args in
      match exec c with
      | None => ([], LNotRun c)
      | Some code => let '(t, r) := run_binaries exec cmd args l (if code_ok code then failed else failed ++ [(profile, name)]) in (c :: t, r)
      end
  end.
Definition run_local (exec : list str -> option (option Z)) (runner : str) (run_args : list str) (binaries : list (str * list (str * str))) : list (list str) * lresult :=
  match split_term (Z.eqb 32) (trim runner) with
  | [] => ([], LNoRunner)
  | r :: args => run_binaries exec (r :: args) (all_args run_args) (flat_map (fun '(p, l) => map (fun x => (p, x)) l) binaries) []
  end.
