(** What running the tests should do. *)
From Coq Require Import String.
From Verif Require Import Base Text TextParse LogModel TextSplit KmodModel VmModel.
Local Open Scope Z_scope.

(** * Text *)

Definition verdict_line (l : str) : Prop := exists r, l = txt "init: " ++ r.
(** Whole lines of text none of which looks like a verdict. *)
Definition plain_line (l : str) : Prop := ~ In 10 l /\ utf8 l = true /\ ~ verdict_line l.
Definition lines_text (ls : list str) : str := flat_map (fun l => l ++ [10]) ls.
Definition quiet (s : str) : Prop := exists ls, s = lines_text ls /\ Forall plain_line ls.
(** The terminal writes a carriage return before each line feed. *)
Definition onlcr (s : str) : str := flat_map (fun c => if c =? 10 then [13; 10] else [c]) s.
Definition no_blank (a : str) : Prop := Forall (fun c => ~ (9 <= c <= 13) /\ c <> 32) a.

(** * init *)

(** The file systems tests need. *)
Definition needed : list (str * str) :=
  [(txt "/proc", txt "proc"); (txt "/dev", txt "devtmpfs"); (txt "/tmp", txt "tmpfs"); (txt "/sys", txt "sysfs"); (txt "/sys/kernel/debug", txt "debugfs");
   (txt "/sys/fs/bpf", txt "bpf"); (txt "/sys/fs/cgroup", txt "cgroup2"); (txt "/sys/kernel/security", txt "securityfs")].
Definition mounted (l : list action) : list (str * str) := flat_map (fun a => match a with AMount _ t f => [(t, f)] | _ => [] end) l.
Definition programs_run (l : list action) : list (str * list str) := flat_map (fun a => match a with ARun p args => [(p, args)] | _ => [] end) l.
(** A machine that lets everything be mounted. *)
Definition mountable (M : machine) : Prop :=
  (forall l t, exists r, k_stat M l t = Some (16384 + r) /\ 0 <= r < 4096) /\ (forall l t m, k_mkdir M l t m = true) /\ (forall l m, k_mount M l m = true).
Definition passes (M : machine) (args : list str) (n : str) : Prop := exists out, k_exec M (txt "/bin/" ++ n) args = Some (Some 0, out).
(** What programs and commands print consists of whole plain lines. *)
Definition well_behaved (M : machine) : Prop :=
  (forall p a c out, k_exec M p a = Some (c, out) -> quiet out) /\ (forall p a, plain_line (txt "running " ++ k_show M p a)) /\ (forall l, quiet (k_errors M l ++ [10])).

(** * Outside *)

Definition verdicts (ls : list str) : list str := filter (fun l => starts_with (txt "init: ") l) ls.
Definition fine_vm (v : vm) : Prop :=
  Forall (fun l => utf8 l = true) (buf_lines [] (v_stdout v)) /\ Forall (fun l => utf8 l = true) (buf_lines [] (v_stderr v)) /\ v_status v = Some 0.
Definition vm_verdict (v : vm) (l : list str) : Prop := fine_vm v /\ verdicts (buf_lines [] (v_stdout v)) = l.

(** The machine seen from outside: what the kernel printed, then what init did, all
    through a serial line. *)
Definition seen_from_outside (kernel : str) (M : machine) (v : vm) : Prop :=
  v_stdout v = onlcr (kernel ++ init_console M) /\ quiet (v_stderr v) /\ quiet kernel /\ v_status v = Some 0.

(** Lines that show that the kernel hangs. *)
Definition within (p s : str) : Prop := exists a b, s = a ++ p ++ b.
Definition panic (l : str) : Prop := within (txt "end Kernel panic") l \/ within (txt "rcu: RCU grace-period kthread stack dump:") l.
Definition lockup (l : str) : Prop := within (txt "watchdog: BUG: soft lockup") l /\ ~ panic l.

(** A command line of words with one blank between them. *)
Definition word (w : str) : Prop := w <> [] /\ no_blank w.
