(** What is expected of builds. *)
From Coq Require Import String.
From Verif Require Import Base Text TextSplit LogModel BuildModel.
Local Open Scope Z_scope.

(** * Cargo, as documented (an assumption) *)

(** What [cargo build] is asked for. *)
Record request := {
  q_package : option (list Z); q_bins : bool; q_json : bool; q_release : bool; q_target : option (list Z); q_unstable : list (list Z);
  q_default : bool; q_features : list (list Z); q_dir : option (list Z)
}.
Definition no_request : request :=
  {| q_package := None; q_bins := false; q_json := false; q_release := false; q_target := None; q_unstable := []; q_default := true; q_features := []; q_dir := None |}.

(** Features are separated by commas and blanks. *)
Definition features (s : list Z) : list (list Z) :=
  filter (fun f => match f with [] => false | _ => true end) (split_by (fun c => (c =? 44) || (c =? 32)) s).

(** Options are given once, in any order; a value is the next argument. *)
Fixpoint read_args (l : list (list Z)) (q : request) : option request :=
  match l with
  | [] => Some q
  | o :: l =>
      if str_eqb o (txt "--bins") then
        read_args l {| q_package := q_package q; q_bins := true; q_json := q_json q; q_release := q_release q; q_target := q_target q; q_unstable := q_unstable q; q_default := q_default q; q_features := q_features q; q_dir := q_dir q |}
      else if str_eqb o (txt "--message-format=json") then
        read_args l {| q_package := q_package q; q_bins := q_bins q; q_json := true; q_release := q_release q; q_target := q_target q; q_unstable := q_unstable q; q_default := q_default q; q_features := q_features q; q_dir := q_dir q |}
      else if str_eqb o (txt "--release") then
        read_args l {| q_package := q_package q; q_bins := q_bins q; q_json := q_json q; q_release := true; q_target := q_target q; q_unstable := q_unstable q; q_default := q_default q; q_features := q_features q; q_dir := q_dir q |}
      else if str_eqb o (txt "--no-default-features") then
        read_args l {| q_package := q_package q; q_bins := q_bins q; q_json := q_json q; q_release := q_release q; q_target := q_target q; q_unstable := q_unstable q; q_default := false; q_features := q_features q; q_dir := q_dir q |}
      else match l with
      | [] => None
      | v :: l =>
          if str_eqb o (txt "--package") then
            read_args l {| q_package := Some v; q_bins := q_bins q; q_json := q_json q; q_release := q_release q; q_target := q_target q; q_unstable := q_unstable q; q_default := q_default q; q_features := q_features q; q_dir := q_dir q |}
          else if str_eqb o (txt "--target") then
            read_args l {| q_package := q_package q; q_bins := q_bins q; q_json := q_json q; q_release := q_release q; q_target := Some v; q_unstable := q_unstable q; q_default := q_default q; q_features := q_features q; q_dir := q_dir q |}
          else if str_eqb o (txt "-Z") then
            read_args l {| q_package := q_package q; q_bins := q_bins q; q_json := q_json q; q_release := q_release q; q_target := q_target q; q_unstable := q_unstable q ++ [v]; q_default := q_default q; q_features := q_features q; q_dir := q_dir q |}
          else if str_eqb o (txt "--features") then
            read_args l {| q_package := q_package q; q_bins := q_bins q; q_json := q_json q; q_release := q_release q; q_target := q_target q; q_unstable := q_unstable q; q_default := q_default q; q_features := q_features q ++ features v; q_dir := q_dir q |}
          else if str_eqb o (txt "--target-dir") then
            read_args l {| q_package := q_package q; q_bins := q_bins q; q_json := q_json q; q_release := q_release q; q_target := q_target q; q_unstable := q_unstable q; q_default := q_default q; q_features := q_features q; q_dir := Some v |}
          else None
      end
  end.
Definition read_command (l : list (list Z)) : option request :=
  match l with sub :: l => if str_eqb sub (txt "build") then read_args l no_request else None | [] => None end.

(** What a command is, with or without rustup, which takes the toolchain and the
    program after "run". *)
Definition asks (M : machine) (t : toolchain) (c : command) (q : request) : Prop :=
  match m_rustup M with
  | Some r => c_program c = r /\ exists rest, c_args c = [txt "run"; (match t with Nightly => txt "nightly" | Custom n => n end); txt "cargo"] ++ rest /\ read_command rest = Some q
  | None => c_program c = txt "cargo" /\ read_command (c_args c) = Some q
  end.

(** * What is asked for *)

(** When unstable options are available, as the comment in the code lists it. *)
Definition unstable (bootstrap : option (list Z)) (name : list Z) (nightly : bool) : Prop :=
  bootstrap = Some (txt "1") \/ bootstrap = Some name \/ (nightly = true /\ bootstrap <> Some (txt "-1")).

Definition same_arch (rust bpf : list Z) : Prop :=
  ((exists r, rust = txt "riscv64" ++ r) /\ bpf = txt "riscv64") \/ ((forall r, rust <> txt "riscv64" ++ r) /\ bpf = rust).

Definition plain_feature (f : list Z) : Prop := f <> [] /\ Forall (fun c => c <> 44 /\ c <> 32) f.

(** The command for a package. *)
Definition right_command (M : machine) (t : toolchain) (nightly : bool) (out endian arch : list Z) (p : package) (c : command) : Prop :=
  (exists q, asks M t c q /\ q_package q = Some (p_name p) /\ q_bins q = true /\ q_json q = true /\ q_release q = true /\
    q_target q = Some (if str_eqb endian (txt "big") then txt "bpfeb-unknown-none" else txt "bpfel-unknown-none") /\
    (unstable (m_env M (txt "RUSTC_BOOTSTRAP")) (p_name p) nightly /\ q_unstable q = [txt "build-std=core"] \/
     ~ unstable (m_env M (txt "RUSTC_BOOTSTRAP")) (p_name p) nightly /\ q_unstable q = []) /\
    q_default q = negb (p_no_default p) /\ (Forall plain_feature (p_features p) -> q_features q = p_features p) /\
    q_dir q = Some (out ++ txt "/aya-build/target/" ++ p_name p)) /\
  (exists flags, c_set c = [(txt "CARGO_ENCODED_RUSTFLAGS", flags)] /\
    forall a, same_arch arch a -> ~ In 31 a -> split_at 31 flags = [txt "--cfg=bpf_target_arch=""" ++ a ++ txt """"; txt "-Cdebuginfo=2"; txt "-Clink-arg=--btf"]) /\
  c_unset c = [txt "RUSTC"; txt "RUSTC_WORKSPACE_WRAPPER"].

(** * Files *)

(** The executables cargo reported. *)
Definition reported (r : ran) : list (list Z * list Z) :=
  flat_map (fun m => match m with MArtifact t (Some e) => [(t, e)] | _ => [] end) (r_messages r).
Definition all_reported (l : list (command * ran * files)) : list (list Z * list Z) := flat_map (fun x => reported (snd (fst x))) l.
(** Below a directory. *)
Definition below (dir p : list Z) : Prop := exists r, p = dir ++ 47 :: r.
(** Cargo leaves everything alone that is not below its target directory, the
    directories above it excepted, which it makes; executables it reports lie
    there. *)
Definition tidy (M : machine) (out : list Z) : Prop := forall c q dir f,
  (exists t, asks M t c q) -> q_dir q = Some dir -> below (out ++ txt "/aya-build/target") dir ->
  (forall p, snd (m_cargo M c f) p <> f p -> below dir p \/ p = dir \/ p = out ++ txt "/aya-build/target" \/ p = out ++ txt "/aya-build") /\
  (forall t e, In (t, e) (reported (fst (m_cargo M c f))) -> below dir e /\ exists x, snd (m_cargo M c f) e = Some (NFile x)) /\
  (r_spawned (fst (m_cargo M c f)) = true -> snd (m_cargo M c f) (out ++ txt "/aya-build") = Some NDir).
(** Names of targets. *)
Definition name_ok (n : list Z) : Prop := ~ In 47 n.

Definition nothing : state := {| s_lines := []; s_runs := []; s_files := fun _ => None |}.

(** * Lines for cargo *)

(** What cargo does with a line. *)
Inductive directive := DWarning (text : list Z) | DChanged (path : list Z) | DEnv (name : list Z) | DCfg (text : list Z) | DCheck (text : list Z) | DOther.
Definition strip (p s : list Z) : option (list Z) := if starts_with p s then Some (skipn (length p) s) else None.
Definition directive_of (l : list Z) : directive :=
  match strip (txt "cargo:warning=") l with Some t => DWarning t | None =>
  match strip (txt "cargo:rerun-if-changed=") l with Some t => DChanged t | None =>
  match strip (txt "cargo:rerun-if-env-changed=") l with Some t => DEnv t | None =>
  match strip (txt "cargo:rustc-cfg=") l with Some t => DCfg t | None =>
  match strip (txt "cargo::rustc-check-cfg=") l with Some t => DCheck t | None => DOther end end end end end.

(** * Architectures *)

(** First part of the triples of hosts, and the architecture rustc calls it. *)
Definition rust_arch : list (list Z * list Z) :=
  [(txt "x86_64", txt "x86_64"); (txt "aarch64", txt "aarch64"); (txt "aarch64_be", txt "aarch64");
   (txt "arm", txt "arm"); (txt "armv5te", txt "arm"); (txt "armv7", txt "arm"); (txt "thumbv7neon", txt "arm");
   (txt "loongarch64", txt "loongarch64"); (txt "mips", txt "mips"); (txt "mipsel", txt "mips"); (txt "mips64", txt "mips64"); (txt "mips64el", txt "mips64");
   (txt "powerpc64", txt "powerpc64"); (txt "powerpc64le", txt "powerpc64");
   (txt "riscv64gc", txt "riscv64"); (txt "riscv64a23", txt "riscv64"); (txt "s390x", txt "s390x")].
(** Those with the same name in both. *)
Definition named_alike : list (list Z) :=
  [txt "x86_64"; txt "aarch64"; txt "arm"; txt "loongarch64"; txt "mips"; txt "mips64"; txt "powerpc64"; txt "riscv64gc"; txt "riscv64a23"; txt "s390x"].

(** The psABIs: whether plain char is signed (core::ffi::c_char agrees). *)
Definition abi_char_signed : list (list Z * bool) :=
  [(txt "aarch64", false); (txt "arm", false); (txt "loongarch64", true); (txt "mips", true); (txt "mips64", true); (txt "powerpc64", false);
   (txt "riscv64", false); (txt "s390x", false); (txt "x86_64", true)].
(** The registers a program can read: tools/lib/bpf/bpf_tracing.h of the kernel. *)
Definition kernel_regs : list (list Z * list Z) :=
  [(txt "aarch64", txt "user_pt_regs"); (txt "arm", txt "pt_regs"); (txt "loongarch64", txt "user_pt_regs"); (txt "mips", txt "pt_regs"); (txt "mips64", txt "pt_regs");
   (txt "powerpc64", txt "pt_regs"); (txt "riscv64", txt "user_regs_struct"); (txt "s390x", txt "user_pt_regs"); (txt "x86_64", txt "pt_regs")].

(** * Runs *)

(** Values of AYA_BUILD_SKIP that say so: "1" and "true" in any case. *)
Definition skips (v : list Z) : Prop := v = txt "1" \/ Forall2 (fun c d => c = d \/ c + 32 = d) v (txt "true").
Definition not_skipped (M : machine) : Prop := forall v, m_env M (txt "AYA_BUILD_SKIP") = Some v -> ~ skips v.

(** The environment is as cargo makes it, and rustc runs. *)
Record set_up (M : machine) (t : toolchain) (nightly : bool) (out endian arch : list Z) : Prop := {
  su_out : m_env M (txt "OUT_DIR") = Some out;
  su_endian : m_env M (txt "CARGO_CFG_TARGET_ENDIAN") = Some endian;
  su_endian_ok : endian = txt "big" \/ endian = txt "little";
  su_arch : m_env M (txt "CARGO_CFG_TARGET_ARCH") = Some arch;
  su_text : utf8 arch = true;
  su_rustc : m_nightly M (match m_rustup M with Some r => [r; txt "run"; (match t with Nightly => txt "nightly" | Custom n => n end)] | None => [] end) = Some nightly
}.

(** The runs are what the commands do, one after the other. *)
Definition really_run (M : machine) (x : command * ran * files) : Prop := exists f, m_cargo M (fst (fst x)) f = (snd (fst x), snd x) /\ r_spawned (snd (fst x)) = true.

(** What cargo and the compiler say, line by line. *)
Definition told (r : ran) : list (list Z) :=
  flat_map (fun m => match m with MCompiler (Some t) => split_at 10 t | MCompiler None => [[]] | MText l => [l] | _ => [] end) (r_messages r) ++ r_stderr r.
Definition warnings (l : list (list Z)) : list (list Z) := flat_map (fun x => match directive_of x with DWarning t => [t] | _ => [] end) l.
Definition changed (l : list (list Z)) : list (list Z) := flat_map (fun x => match directive_of x with DChanged t => [t] | _ => [] end) l.
Definition one_line (l : list Z) : Prop := ~ In 10 l.
(** Lines are lines: what is read line by line has no line ends, nor has the
    environment. *)
Definition lines_of_cargo (M : machine) : Prop :=
  (forall c f m, In m (r_messages (fst (m_cargo M c f))) -> forall l, m = MText l -> one_line l) /\
  (forall c f l, In l (r_stderr (fst (m_cargo M c f))) -> one_line l).

(** Every run succeeded but, with an error, perhaps the last, nothing of which
    is copied unless it did. *)
Definition good_run (x : command * ran * files) : Prop := r_success (snd (fst x)) = true /\ ~ In MInvalid (r_messages (snd (fst x))).
Definition failed_as (e : berr) (r : ran) : Prop := match e with EJson => In MInvalid (r_messages r) | ECargo => r_success r = false | _ => False end.
(** How the result goes with the runs and the files afterwards. *)
Definition outcome (out : list Z) (x : res berr unit) (new : list (command * ran * files)) (after : files) : Prop :=
  match x with
  | Ok _ => Forall good_run new
  | Err ((EJson | ECargo) as e) => exists before y, new = before ++ [y] /\ Forall good_run before /\ failed_as e (snd (fst y)) /\ after = snd y
  | Err ESpawn => Forall good_run new
  | Err (ECopy src dst) => Forall good_run new /\ exists n, dst = out ++ 47 :: n /\ In (n, src) (all_reported new)
  | Err _ => False
  end.

(** Every build works, and no binary is called like the directory of the
    builds. *)
Definition works (M : machine) : Prop := forall c f,
  r_spawned (fst (m_cargo M c f)) = true /\ r_success (fst (m_cargo M c f)) = true /\ ~ In MInvalid (r_messages (fst (m_cargo M c f))) /\
  forall n e, In (n, e) (reported (fst (m_cargo M c f))) -> name_ok n /\ n <> txt "aya-build".
(** No directory but that is in the output directory. *)
Definition no_dirs (out : list Z) (f : files) : Prop := forall n, name_ok n -> n <> txt "aya-build" -> f (out ++ 47 :: n) <> Some NDir.

(** * The architecture, without a build *)

Definition cfgs (l : list (list Z)) : list (list Z) := flat_map (fun x => match directive_of x with DCfg t => [t] | _ => [] end) l.
Definition checks (l : list (list Z)) : list (list Z) := flat_map (fun x => match directive_of x with DCheck t => [t] | _ => [] end) l.
Definition envs (l : list (list Z)) : list (list Z) := flat_map (fun x => match directive_of x with DEnv t => [t] | _ => [] end) l.
(** Texts in quotes. *)
Fixpoint odd_items {A} (l : list A) : list A := match l with _ :: x :: r => x :: odd_items r | _ => [] end.
Definition quoted (s : list Z) : list (list Z) := odd_items (split_at 34 s).
(** The architectures with kernels that aya-ebpf is for (its README and CI). *)
Definition bpf_archs : list (list Z) := map fst abi_char_signed.
Definition the_cfg (a : list Z) : list Z := txt "bpf_target_arch=""" ++ a ++ txt """".
Definition other_hosts : list (list Z * list Z) := filter (fun x => negb (existsb (str_eqb (fst x)) named_alike)) rust_arch.
(** The directories /repo/ebpf/aya-ebpf-bindings/src has, and the architecture
    each was generated for (/repo/xtask/src/codegen/mod.rs). *)
Definition arch_dirs : list (list Z * list Z) :=
  [(txt "aarch64", txt "aarch64"); (txt "arm", txt "armv7"); (txt "loongarch64", txt "loongarch64"); (txt "mips", txt "mips"); (txt "mips64", txt "mips64");
   (txt "powerpc64", txt "powerpc64"); (txt "riscv64", txt "riscv64"); (txt "s390x", txt "s390x"); (txt "x86_64", txt "x86_64")].
