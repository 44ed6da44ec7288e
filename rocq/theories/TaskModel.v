(** The other commands of xtask: generating bindings, /repo/xtask/src/codegen/mod.rs,
    aya.rs and aya_ebpf_bindings.rs; linting, /repo/xtask/src/clippy.rs;
    documenting, /repo/xtask/src/docs.rs; the start, /repo/xtask/src/main.rs.

    Simplifications: bindgen gives a text for a set of headers, a target and the
    directory of its headers; which types it is asked for is not modelled (the
    defaults are in ToolModel.v).  Splitting a text into bindings and helpers is
    WrapModel.v and a parameter here; texts bindgen makes are parsed.  Commands
    are their arguments and variables, without the variables of [libbpf_sys_env],
    which every lint command gets.  Paths are relative to the workspace; they are
    UTF-8, so the [unwrap]s of [to_str] do not panic. *)
From Coq Require Import String.
From Verif Require Import Base Text.
Local Open Scope Z_scope.

Notation str := (list Z).
Definition str_dec : forall a b : str, {a = b} + {a <> b} := list_eq_dec Z.eq_dec.

(** * Architectures *)

(** codegen/mod.rs 23-33. *)
Inductive arch := X86_64 | ARMv7 | AArch64 | RISCV64 | PowerPC64 | S390X | Mips | Mips64 | LoongArch64.
(** mod.rs 10-20. *)
Definition supported : list arch := [Mips; Mips64; X86_64; ARMv7; AArch64; RISCV64; PowerPC64; S390X; LoongArch64].
(** mod.rs 40-52. *)
Definition target (a : arch) : str :=
  match a with
  | AArch64 => txt "aarch64-unknown-linux-gnu"
  | ARMv7 => txt "armv7-unknown-linux-gnu"
  | LoongArch64 => txt "loongarch64-unknown-linux-gnu"
  | Mips => txt "mips-unknown-linux-gnu"
  | Mips64 => txt "mips64-unknown-linux-gnuabi64"
  | PowerPC64 => txt "powerpc64le-unknown-linux-gnu"
  | RISCV64 => txt "riscv64-unknown-linux-gnu"
  | S390X => txt "s390x-unknown-linux-gnu"
  | X86_64 => txt "x86_64-unknown-linux-gnu"
  end.
(** mod.rs 115-149 and the defaults of the options. *)
Record roots := { aarch64_sysroot : str; armv7_sysroot : str; loongarch64_sysroot : str; mips_sysroot : str;
  mips64_sysroot : str; powerpc64_sysroot : str; riscv64_sysroot : str; s390x_sysroot : str; x86_64_sysroot : str }.
Definition default_roots : roots :=
  {| aarch64_sysroot := txt "/usr/aarch64-linux-gnu/include"; armv7_sysroot := txt "/usr/arm-linux-gnueabi/include";
     loongarch64_sysroot := txt "/usr/loongarch64-linux-gnu/include"; mips_sysroot := txt "/usr/mips-linux-gnu/include";
     mips64_sysroot := txt "/usr/mips64-linux-gnuabi64/include"; powerpc64_sysroot := txt "/usr/powerpc64le-linux-gnu/include";
     riscv64_sysroot := txt "/usr/riscv64-linux-gnu/include"; s390x_sysroot := txt "/usr/s390x-linux-gnu/include";
     x86_64_sysroot := txt "/usr/include/x86_64-linux-gnu" |}.
(** mod.rs 54-77. *)
Definition sysroot (a : arch) (o : roots) : str :=
  match a with
  | AArch64 => aarch64_sysroot o | ARMv7 => armv7_sysroot o | LoongArch64 => loongarch64_sysroot o
  | Mips => mips_sysroot o | Mips64 => mips64_sysroot o | PowerPC64 => powerpc64_sysroot o
  | RISCV64 => riscv64_sysroot o | S390X => s390x_sysroot o | X86_64 => x86_64_sysroot o
  end.
(** mod.rs 83-96. *)
Definition parse_table : list (str * arch) :=
  [(txt "aarch64", AArch64); (txt "armv7", ARMv7); (txt "loongarch64", LoongArch64); (txt "mips", Mips);
   (txt "mips64", Mips64); (txt "powerpc64", PowerPC64); (txt "riscv64", RISCV64); (txt "s390x", S390X);
   (txt "x86_64", X86_64)].
Definition parse_arch (s : str) : option arch :=
  match find (fun p => if str_dec s (fst p) then true else false) parse_table with
  | Some (_, a) => Some a
  | None => None
  end.
(** mod.rs 99-113. *)
Definition show_arch (a : arch) : str :=
  match a with
  | AArch64 => txt "aarch64" | ARMv7 => txt "armv7" | LoongArch64 => txt "loongarch64" | Mips => txt "mips"
  | Mips64 => txt "mips64" | PowerPC64 => txt "powerpc64" | RISCV64 => txt "riscv64" | S390X => txt "s390x"
  | X86_64 => txt "x86_64"
  end.

(** * Generating bindings *)

(** The headers bindgen reads. *)
Inductive job := Internal | User (target root : str) | Bpf (target root : str).
(** What of its text goes to a file. *)
Inductive part := Whole | Rest | Helpers.
Record world := {
  w_make : bool;
  w_bindgen : job -> option str;
  w_split : str -> str * str;
  w_dir : str -> bool;
  w_write : str -> bool
}.
Inductive op := Make | Dir (p : str) | Gen (j : job) (dir : option str) (outs : list (str * part)).

(** aya.rs 13-35. *)
Definition generated : str := txt "aya-obj/src/generated".
Definition internal_ops : list op := [Gen Internal None [(generated ++ txt "/btf_internal_bindings.rs", Whole)]].
(** aya.rs 37-175. *)
Definition user_ops (o : roots) : list op :=
  Dir generated ::
  map (fun a => Gen (User (target a) (sysroot a o)) None
                  [(generated ++ txt "/linux_bindings_" ++ show_arch a ++ txt ".rs", Whole)]) supported.
Definition aya_ops (o : roots) : list op := internal_ops ++ user_ops o.
(** aya_ebpf_bindings.rs 18-133. *)
Definition bpf_dir (a : arch) : str := txt "ebpf/aya-ebpf-bindings/src/" ++ show_arch a.
Definition bpf_ops (o : roots) : list op :=
  Make ::
  map (fun a => Gen (Bpf (target a) (sysroot a o)) (Some (bpf_dir a))
                  [(bpf_dir a ++ txt "/bindings.rs", Rest); (bpf_dir a ++ txt "/helpers.rs", Helpers)]) supported.

(** aya_ebpf_bindings.rs 108-121; aya.rs writes the whole text. *)
Definition content (W : world) (t : str) (p : part) : str :=
  match p with
  | Whole => t
  | Rest => fst (w_split W t)
  | Helpers => txt "use super::bindings::*; " ++ snd (w_split W t)
  end.
(** The files written, in order, and whether all went well.  A file that cannot
    be created is not written; what a failed write leaves is not modelled. *)
Fixpoint write_outs (W : world) (t : str) (outs : list (str * part)) : list (str * str) * bool :=
  match outs with
  | [] => ([], true)
  | (f, p) :: outs =>
      if w_write W f then
        let '(ws, ok) := write_outs W t outs in ((f, content W t p) :: ws, ok)
      else ([], false)
  end.
Definition run_op (W : world) (x : op) : list (str * str) * bool :=
  match x with
  | Make => ([], w_make W)
  | Dir p => ([], w_dir W p)
  | Gen j dir outs =>
      match w_bindgen W j with
      | None => ([], false)
      | Some t =>
          if match dir with Some p => w_dir W p | None => true end then write_outs W t outs else ([], false)
      end
  end.
Fixpoint run_ops (W : world) (xs : list op) : list (str * str) * bool :=
  match xs with
  | [] => ([], true)
  | x :: xs =>
      let '(ws, ok) := run_op W x in
      if ok then let '(ws', ok) := run_ops W xs in (ws ++ ws', ok) else (ws, false)
  end.
(** mod.rs 160-186. *)
Inductive which := Aya | AyaEbpfBindings.
Definition codegen (W : world) (o : roots) (c : option which) : list (str * str) * bool :=
  match c with
  | Some Aya => run_ops W (aya_ops o)
  | Some AyaEbpfBindings => run_ops W (bpf_ops o)
  | None =>
      let '(ws, ok) := run_ops W (aya_ops o) in
      if ok then let '(ws', ok) := run_ops W (bpf_ops o) in (ws ++ ws', ok) else (ws, false)
  end.

(** aya-obj/src/generated/mod.rs 9-46: the file for the architecture aya is
    built for. *)
Definition user_module (rust_arch : str) : option str :=
  if str_dec rust_arch (txt "arm") then Some (txt "linux_bindings_armv7")
  else if existsb (fun a => if str_dec rust_arch a then true else false)
            [txt "aarch64"; txt "loongarch64"; txt "mips"; txt "mips64"; txt "powerpc64"; txt "riscv64"; txt "s390x"; txt "x86_64"]
  then Some (txt "linux_bindings_" ++ rust_arch) else None.

(** * Commands *)

Record cmd := { c_args : list str; c_env : list (str * str) }.
(** lib.rs 9-18: a command works if it exits with zero; none: it does not start or
    is killed.  [exec_all] gives the commands started and whether all worked. *)
Definition exec (run : cmd -> option Z) (c : cmd) : bool :=
  match run c with Some z => z =? 0 | None => false end.
Fixpoint exec_all (run : cmd -> option Z) (cs : list cmd) : list cmd * bool :=
  match cs with
  | [] => ([], true)
  | c :: cs => if exec run c then let '(ds, ok) := exec_all run cs in (c :: ds, ok) else ([c], false)
  end.

(** clippy.rs 43-58. *)
Definition base_rustdocflags : str := txt "--no-run -Z unstable-options --test-builder clippy-driver".
Definition ebpf_packages : list str := [txt "aya-ebpf"; txt "aya-ebpf-bindings"; txt "aya-log-ebpf"; txt "integration-ebpf"].
Definition package_args : list str := flat_map (fun p => [txt "--package"; p]) ebpf_packages.
(** clippy.rs 60-73. *)
Definition lint_archs : list str :=
  [txt "aarch64"; txt "arm"; txt "loongarch64"; txt "mips"; txt "mips64"; txt "powerpc64"; txt "riscv64"; txt "s390x"; txt "x86_64"].
Definition lint_targets : list str := [txt "bpfeb-unknown-none"; txt "bpfel-unknown-none"].
Definition rustflags (a : str) : str := txt "--cfg bpf_target_arch=" ++ [34] ++ a ++ [34].
(** clippy.rs 27-51. *)
Definition host_lint (args : list str) : cmd :=
  {| c_args := [txt "+nightly"; txt "hack"; txt "clippy"] ++ args ++
       [txt "--all-targets"; txt "--feature-powerset"; txt "--"; txt "--deny"; txt "warnings"; txt "-C"; txt "panic=abort"; txt "-Zpanic_abort_tests"];
     c_env := [] |}.
Definition host_doc (args : list str) : cmd :=
  {| c_args := [txt "+nightly"; txt "hack"; txt "test"; txt "--doc"] ++ args ++ [txt "--feature-powerset"];
     c_env := [(txt "CLIPPY_ARGS", txt "--deny=warnings"); (txt "RUSTDOCFLAGS", base_rustdocflags)] |}.
(** clippy.rs 74-91. *)
Definition bpf_lint (a t : str) : cmd :=
  {| c_args := [txt "+nightly"; txt "hack"; txt "clippy"; txt "--target"; t; txt "-Zbuild-std=core"; txt "--feature-powerset"] ++
       package_args ++ [txt "--"; txt "--deny"; txt "warnings"];
     c_env := [(txt "CLIPPY_ARGS", txt "--deny=warnings"); (txt "RUSTFLAGS", rustflags a)] |}.
(** clippy.rs 94-104. *)
Definition bpf_doc (args : list str) (a : str) : cmd :=
  {| c_args := [txt "+nightly"; txt "hack"; txt "test"; txt "--doc"; txt "--feature-powerset"] ++ args ++ package_args;
     c_env := [(txt "CLIPPY_ARGS", txt "--deny=warnings"); (txt "RUSTFLAGS", rustflags a);
               (txt "RUSTDOCFLAGS", base_rustdocflags ++ txt " " ++ rustflags a)] |}.
Definition lint_plan (args : list str) : list cmd :=
  host_lint args :: host_doc args ::
  flat_map (fun a => map (bpf_lint a) lint_targets ++ [bpf_doc args a]) lint_archs.
Definition lint (run : cmd -> option Z) (args : list str) : list cmd * bool := exec_all run (lint_plan args).

(** docs.rs 9-20, 47-52 and 91-97: the packages documented, and the link to each. *)
Definition doc_packages : list (str * str) :=
  [(txt "aya", txt "User-space BPF program loading and manipulation");
   (txt "aya-ebpf", txt "Kernel-space BPF program implementation toolkit");
   (txt "aya-log-ebpf", txt "Kernel-space logging from BPF programs");
   (txt "aya-log", txt "User-space consumption of logs from BPF programs")].
Definition doc_args : list str :=
  [txt "+nightly"; txt "doc"; txt "--no-deps"; txt "--all-features"] ++
  flat_map (fun p => [txt "--package"; fst p]) doc_packages.
Definition replace_dash (s : str) : str := map (fun c => if c =? 45 then 95 else c) s.
Definition doc_link (p : str * str) : str :=
  txt "<li><a href=" ++ [34] ++ replace_dash (fst p) ++ txt "/index.html" ++ [34] ++ txt ">Aya " ++ snd p ++ txt "</a></li>" ++ [10].
Definition doc_links : list str := map doc_link doc_packages.

(** main.rs 40-66: what [git submodule status] prints with its exit code, and the
    exit code of the update; whether the update runs and whether the command is
    reached. *)
Definition prepare (status : option (Z * str)) (update : option Z) : bool * bool :=
  match status with
  | Some (code, out) =>
      if code =? 0 then
        match out with
        | c :: _ => if c =? 32 then (false, true) else (true, match update with Some z => z =? 0 | None => false end)
        | [] => (true, match update with Some z => z =? 0 | None => false end)
        end
      else (false, false)
  | None => (false, false)
  end.
