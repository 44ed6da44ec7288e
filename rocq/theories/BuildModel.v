(** Building eBPF programs from build scripts: /repo/aya-build/src/lib.rs, and
    the uses of the architecture it passes on, /repo/ebpf/aya-ebpf-cty,
    aya-ebpf-bindings and aya-ebpf.

    Simplifications: a path is its bytes, joined with a slash (names are
    relative); lines cargo writes to its standard error, which another thread
    passes on meanwhile, come after those of its standard output; what a command
    is told to do with its output is left out, as are the texts of errors and
    warnings about rustup. *)
From Coq Require Import String.
From Verif Require Import Base Text TextSplit LogModel.
Local Open Scope Z_scope.

(** The environment of the build script. *)
Definition env := list Z -> option (list Z).

(** Commands: program, arguments, variables set and removed. *)
Record command := { c_program : list Z; c_args : list (list Z); c_set : list (list Z * list Z); c_unset : list (list Z) }.

(** Messages of cargo (cargo_metadata::Message): an artifact of a target, with
    its executable if it is one; a message of the compiler with its text; a line
    that is no JSON object; others; a line that cannot be read. *)
Inductive message := MArtifact (target : list Z) (exe : option (list Z)) | MCompiler (rendered : option (list Z)) | MText (line : list Z) | MOther | MInvalid.
Record ran := { r_spawned : bool; r_messages : list message; r_stderr : list (list Z); r_success : bool }.

(** Files and directories by path. *)
Inductive node := NFile (content : list Z) | NDir.
Definition files := list Z -> option node.
Definition put (p : list Z) (x : node) (f : files) : files := fun q => if str_eqb q p then Some x else f q.
Definition slash (a b : list Z) : list Z := a ++ 47 :: b.

(** [m_rustup]: where rustup is; [m_nightly]: whether the rustc run with the
    prefix is a nightly, if it runs; [m_cargo]: what running a command does. *)
Record machine := {
  m_env : env; m_rustup : option (list Z); m_nightly : list (list Z) -> option bool; m_cargo : command -> files -> ran * files
}.

(** What happened: lines printed, commands run with their results and the files
    afterwards, the files now. *)
Record state := { s_lines : list (list Z); s_runs : list (command * ran * files); s_files : files }.
Definition say (l : list (list Z)) (s : state) : state := {| s_lines := s_lines s ++ l; s_runs := s_runs s; s_files := s_files s |}.

Inductive berr := ENoOutDir | ENoEndian | EEndian (v : list Z) | ENoArch | EArchText | ENoVersion | ESpawn | EJson | ECargo | ECopy (src dst : list Z) | ENoHost | EHostText.

(** lib.rs 17-23 and 272-291. *)
Record package := { p_name : list Z; p_root : list Z; p_no_default : bool; p_features : list (list Z) }.
Inductive toolchain := Nightly | Custom (name : list Z).
Definition toolchain_str (t : toolchain) : list Z := match t with Nightly => txt "nightly" | Custom n => n end.

(** lib.rs 25-31. *)
Definition target_arch_fixup (a : list Z) : list Z := if starts_with (txt "riscv64") a then txt "riscv64" else a.

Definition lower (c : Z) : Z := if (65 <=? c) && (c <=? 90) then c + 32 else c.

(** lib.rs 107-114: commands through rustup, or as they are. *)
Definition cmd (prefix : list (list Z)) (program : list Z) : list Z * list (list Z) :=
  match prefix with [] => (program, []) | w :: args => (w, args ++ [program]) end.

(** lib.rs 162-173. *)
Definition use_build_std (bootstrap : option (list Z)) (name : list Z) (nightly : bool) : bool :=
  match bootstrap with
  | Some b => if str_eqb b (txt "1") || str_eqb b name then true else if str_eqb b (txt "-1") then false else nightly
  | None => nightly
  end.

(** [T::join] with a comma. *)
Fixpoint commas (l : list (list Z)) : list Z := match l with [] => [] | [x] => x | x :: r => x ++ 44 :: commas r end.

(** lib.rs 142-221: the command for a package. *)
Definition cargo (M : machine) (prefix : list (list Z)) (nightly : bool) (target arch out : list Z) (p : package) : command :=
  let (program, args) := cmd prefix (txt "cargo") in
  {| c_program := program;
     c_args := args ++ [txt "build"; txt "--package"; p_name p; txt "--bins"; txt "--message-format=json"; txt "--release"; txt "--target"; target] ++
       (if use_build_std (m_env M (txt "RUSTC_BOOTSTRAP")) (p_name p) nightly then [txt "-Z"; txt "build-std=core"] else []) ++
       (if p_no_default p then [txt "--no-default-features"] else []) ++
       [txt "--features"; commas (p_features p)] ++
       [txt "--target-dir"; slash (slash (slash out (txt "aya-build")) (txt "target")) (p_name p)];
     c_set := [(txt "CARGO_ENCODED_RUSTFLAGS",
                txt "--cfg=bpf_target_arch=""" ++ arch ++ txt """" ++ [31] ++ txt "-Cdebuginfo=2" ++ [31] ++ txt "-Clink-arg=--btf")];
     c_unset := [txt "RUSTC"; txt "RUSTC_WORKSPACE_WRAPPER"] |}.

(** lib.rs 230-265: what is passed on, and the executables found. *)
Definition warning (l : list Z) : list Z := txt "cargo:warning=" ++ l.
Fixpoint relay (l : list message) : list (list Z) * res berr (list (list Z * list Z)) :=
  match l with
  | [] => ([], Ok [])
  | m :: r =>
      let next (said : list (list Z)) (found : list (list Z * list Z)) :=
        let '(ls, x) := relay r in (said ++ ls, match x with Ok es => Ok (found ++ es) | Err e => Err e end) in
      match m with
      | MArtifact t (Some exe) => next [] [(t, exe)]
      | MCompiler t => next (map warning (split_at 10 (match t with Some t => t | None => [] end))) []
      | MText l => next [warning l] []
      | MArtifact _ None | MOther => next [] []
      | MInvalid => ([], Err EJson)
      end
  end.

(** fs::copy. *)
Definition copy (src dst : list Z) (f : files) : option files :=
  match f src, f dst with
  | Some (NFile c), (None | Some (NFile _)) => Some (put dst (NFile c) f)
  | _, _ => None
  end.
(** lib.rs 281-286. *)
Fixpoint copy_all (out : list Z) (l : list (list Z * list Z)) (f : files) : res berr unit * files :=
  match l with
  | [] => (Ok tt, f)
  | (name, exe) :: r =>
      match copy exe (slash out name) f with
      | None => (Err (ECopy exe (slash out name)), f)
      | Some f => copy_all out r f
      end
  end.

(** lib.rs 130-287, one turn of the loop. *)
Definition build_one (M : machine) (prefix : list (list Z)) (nightly : bool) (target arch out : list Z) (p : package) (s : state) : res berr unit * state :=
  let s := say [txt "cargo:rerun-if-changed=" ++ p_root p] s in
  let c := cargo M prefix nightly target arch out p in
  let '(r, f) := m_cargo M c (s_files s) in
  if negb (r_spawned r) then (Err ESpawn, s)
  else
    let s := {| s_lines := s_lines s; s_runs := s_runs s ++ [(c, r, f)]; s_files := f |} in
    let '(ls, x) := relay (r_messages r) in
    let s := say ls s in
    match x with
    | Err e => (Err e, s)
    | Ok exes =>
        let s := say (map warning (r_stderr r)) s in
        if negb (r_success r) then (Err ECargo, s)
        else let '(y, f) := copy_all out exes (s_files s) in (y, {| s_lines := s_lines s; s_runs := s_runs s; s_files := f |})
    end.
Fixpoint build_all (M : machine) (prefix : list (list Z)) (nightly : bool) (target arch out : list Z) (l : list package) (s : state) : res berr unit * state :=
  match l with
  | [] => (Ok tt, s)
  | p :: l =>
      match build_one M prefix nightly target arch out p s with
      | (Ok _, s) => build_all M prefix nightly target arch out l s
      | (Err e, s) => (Err e, s)
      end
  end.

(** lib.rs 46-290. *)
Definition build_ebpf (M : machine) (packages : list package) (t : toolchain) (s : state) : res berr unit * state :=
  let s := say [txt "cargo:rerun-if-env-changed=AYA_BUILD_SKIP"] s in
  let skip := match m_env M (txt "AYA_BUILD_SKIP") with Some v => str_eqb v (txt "1") || str_eqb (map lower v) (txt "true") | None => false end in
  if skip then (Ok tt, say [warning (txt "AYA_BUILD_SKIP=" ++ match m_env M (txt "AYA_BUILD_SKIP") with Some v => v | None => [] end ++ txt "; skipping eBPF build")] s)
  else
    match m_env M (txt "OUT_DIR"), m_env M (txt "CARGO_CFG_TARGET_ENDIAN"), m_env M (txt "CARGO_CFG_TARGET_ARCH") with
    | None, _, _ => (Err ENoOutDir, s)
    | Some _, None, _ => (Err ENoEndian, s)
    | Some out, Some endian, arch =>
        match (if str_eqb endian (txt "big") then Some (txt "bpfeb") else if str_eqb endian (txt "little") then Some (txt "bpfel") else None), arch with
        | None, _ => (Err (EEndian endian), s)
        | Some _, None => (Err ENoArch, s)
        | Some target, Some arch =>
            if negb (utf8 arch) then (Err EArchText, s)
            else
              let arch := target_arch_fixup arch in
              let target := target ++ txt "-unknown-none" in
              let prefix := match m_rustup M with Some r => [r; txt "run"; toolchain_str t] | None => [] end in
              let s := match m_rustup M with Some _ => s | None => say [warning (txt "rustup not found")] s end in
              match m_nightly M prefix with
              | None => (Err ENoVersion, s)
              | Some nightly => build_all M prefix nightly target arch out packages s
              end
        end
    end.

(** lib.rs 294-364: the lines printed, and the result. *)
Definition known_archs : list (list Z) :=
  [txt "aarch64"; txt "arm"; txt "loongarch64"; txt "mips"; txt "mips64"; txt "powerpc64"; txt "riscv64"; txt "s390x"; txt "x86_64"].
Definition check_cfg : list Z :=
  txt "cargo::rustc-check-cfg=cfg(bpf_target_arch, values(" ++ flat_map (fun a => txt """" ++ a ++ txt """,") known_archs ++ txt "))".
Definition cfg_line (arch : list Z) : list Z := txt "cargo:rustc-cfg=bpf_target_arch=""" ++ arch ++ txt """".
Definition host_arch (host : list Z) : list Z := match split_at 45 host with a :: _ => a | [] => [] end.
Definition emit_cfg (E : env) : list (list Z) * res berr unit :=
  let head := [txt "cargo:rerun-if-env-changed=CARGO_CFG_BPF_TARGET_ARCH"; txt "cargo:rerun-if-env-changed=AYA_BPF_TARGET_ARCH";
               txt "cargo:rerun-if-env-changed=HOST"] in
  match E (txt "CARGO_CFG_BPF_TARGET_ARCH") with
  | Some _ => (head ++ [check_cfg], Ok tt)
  | None =>
      match E (txt "HOST") with
      | None => (head, Err ENoHost)
      | Some host =>
          if negb (utf8 host) then (head, Err EHostText)
          else
            match E (txt "AYA_BPF_TARGET_ARCH") with
            | Some a => if utf8 a then (head ++ [cfg_line a; check_cfg], Ok tt) else (head, Err EArchText)
            | None => (head ++ [cfg_line (target_arch_fixup (host_arch host)); check_cfg], Ok tt)
            end
      end
  end.

(** * Uses of the architecture *)

(** aya-ebpf-cty/src/lib.rs 20-35: whether [c_char] is signed, in the BPF
    program, for the architecture; none: no [c_char], the crate does not
    compile. *)
Definition c_char_signed (arch : list Z) : option bool :=
  if existsb (str_eqb arch) [txt "aarch64"; txt "arm"; txt "powerpc64"; txt "riscv64"; txt "s390x"; txt "mips"] then Some false
  else if existsb (str_eqb arch) [txt "loongarch64"; txt "mips64"; txt "x86_64"] then Some true
  else None.
(** aya-ebpf-bindings/src/lib.rs 30-95: the directory of the bindings. *)
Definition bindings_dir (arch : list Z) : option (list Z) :=
  if str_eqb arch (txt "arm") then Some (txt "armv7")
  else if existsb (str_eqb arch) [txt "aarch64"; txt "loongarch64"; txt "mips"; txt "mips64"; txt "powerpc64"; txt "riscv64"; txt "s390x"; txt "x86_64"]
  then Some arch else None.
(** aya-ebpf/src/bindings.rs 1-16: the struct taken for the registers. *)
Definition regs_struct (arch : list Z) : option (list Z) :=
  if existsb (str_eqb arch) [txt "arm"; txt "mips"; txt "mips64"; txt "powerpc64"; txt "x86_64"] then Some (txt "pt_regs")
  else if existsb (str_eqb arch) [txt "aarch64"; txt "loongarch64"; txt "s390x"] then Some (txt "user_pt_regs")
  else if str_eqb arch (txt "riscv64") then Some (txt "user_regs_struct") else None.
