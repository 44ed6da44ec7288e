(** What the other commands of xtask should do, C117. *)
From Coq Require Import String.
From Verif Require Import Base Text TaskModel.
Local Open Scope Z_scope.

(** Name, name for Rust ([target_arch]), and triple of clang, with its
    architecture, of every architecture. *)
Definition table : list (arch * (str * str * str)) :=
  [(X86_64, (txt "x86_64", txt "x86_64", txt "x86_64-unknown-linux-gnu"));
   (ARMv7, (txt "armv7", txt "arm", txt "armv7-unknown-linux-gnu"));
   (AArch64, (txt "aarch64", txt "aarch64", txt "aarch64-unknown-linux-gnu"));
   (RISCV64, (txt "riscv64", txt "riscv64", txt "riscv64-unknown-linux-gnu"));
   (PowerPC64, (txt "powerpc64", txt "powerpc64", txt "powerpc64le-unknown-linux-gnu"));
   (S390X, (txt "s390x", txt "s390x", txt "s390x-unknown-linux-gnu"));
   (Mips, (txt "mips", txt "mips", txt "mips-unknown-linux-gnu"));
   (Mips64, (txt "mips64", txt "mips64", txt "mips64-unknown-linux-gnuabi64"));
   (LoongArch64, (txt "loongarch64", txt "loongarch64", txt "loongarch64-unknown-linux-gnu"))].
Definition called (a : arch) (name rust triple : str) : Prop := In (a, (name, rust, triple)) table.

(** The headers given for an architecture by the option of its name. *)
Definition root_of (name : str) (o : roots) (r : str) : Prop :=
  In (name, r) [(txt "aarch64", aarch64_sysroot o); (txt "armv7", armv7_sysroot o); (txt "loongarch64", loongarch64_sysroot o);
    (txt "mips", mips_sysroot o); (txt "mips64", mips64_sysroot o); (txt "powerpc64", powerpc64_sysroot o);
    (txt "riscv64", riscv64_sysroot o); (txt "s390x", s390x_sysroot o); (txt "x86_64", x86_64_sysroot o)].

(** The files for aya-obj and for aya-ebpf-bindings. *)
Definition user_file (name : str) : str := txt "aya-obj/src/generated/linux_bindings_" ++ name ++ txt ".rs".
Definition bpf_file (name f : str) : str := txt "ebpf/aya-ebpf-bindings/src/" ++ name ++ txt "/" ++ f.
(** [f] holds [t] after generating. *)
Inductive aya_made (W : world) (o : roots) : str -> str -> Prop :=
| made_internal : forall t, w_bindgen W Internal = Some t ->
    aya_made W o (txt "aya-obj/src/generated/btf_internal_bindings.rs") t
| made_user : forall a n r c s t, called a n r c -> root_of n o s -> w_bindgen W (User c s) = Some t ->
    aya_made W o (user_file n) t.
Inductive bpf_made (W : world) (o : roots) : str -> str -> Prop :=
| made_bindings : forall a n r c s t, called a n r c -> root_of n o s -> w_bindgen W (Bpf c s) = Some t ->
    bpf_made W o (bpf_file n (txt "bindings.rs")) (fst (w_split W t))
| made_helpers : forall a n r c s t, called a n r c -> root_of n o s -> w_bindgen W (Bpf c s) = Some t ->
    bpf_made W o (bpf_file n (txt "helpers.rs")) (txt "use super::bindings::*; " ++ snd (w_split W t)).
Definition made (W : world) (o : roots) (c : option which) (f t : str) : Prop :=
  (c <> Some AyaEbpfBindings /\ aya_made W o f t) \/ (c <> Some Aya /\ bpf_made W o f t).

(** Nothing goes wrong. *)
Definition aya_works (W : world) (o : roots) : Prop :=
  w_dir W (txt "aya-obj/src/generated") = true /\ w_bindgen W Internal <> None /\
  w_write W (txt "aya-obj/src/generated/btf_internal_bindings.rs") = true /\
  forall a n r c s, called a n r c -> root_of n o s -> w_bindgen W (User c s) <> None /\ w_write W (user_file n) = true.
Definition bpf_works (W : world) (o : roots) : Prop :=
  w_make W = true /\
  forall a n r c s, called a n r c -> root_of n o s ->
    w_bindgen W (Bpf c s) <> None /\ w_dir W (txt "ebpf/aya-ebpf-bindings/src/" ++ n) = true /\
    w_write W (bpf_file n (txt "bindings.rs")) = true /\ w_write W (bpf_file n (txt "helpers.rs")) = true.
Definition works (W : world) (o : roots) (c : option which) : Prop :=
  (c <> Some AyaEbpfBindings -> aya_works W o) /\ (c <> Some Aya -> bpf_works W o).

(** The generated files of the repository: names of architectures as committed. *)
Definition committed_names : list str :=
  map bytes_of_string ["aarch64"; "armv7"; "loongarch64"; "mips"; "mips64"; "powerpc64"; "riscv64"; "s390x"; "x86_64"]%string.

(** A lint of the packages for BPF on [t] with the architecture [a]. *)
Definition has_sub (l m : list str) : Prop := exists x y, m = x ++ l ++ y.
Definition lints (c : cmd) (p a t : str) : Prop :=
  has_sub [txt "clippy"] (c_args c) /\ has_sub [txt "--target"; t] (c_args c) /\
  (exists x y z, c_args c = x ++ [txt "--package"; p] ++ y ++ [txt "--"] ++ z /\ has_sub [txt "--deny"; txt "warnings"] z /\ ~ In (txt "--") x /\ ~ In (txt "--") y) /\
  In (txt "RUSTFLAGS", txt "--cfg bpf_target_arch=" ++ [34] ++ a ++ [34]) (c_env c).
Definition doc_tests (c : cmd) (p a : str) : Prop :=
  has_sub [txt "test"; txt "--doc"] (c_args c) /\ has_sub [txt "--package"; p] (c_args c) /\
  In (txt "RUSTFLAGS", txt "--cfg bpf_target_arch=" ++ [34] ++ a ++ [34]) (c_env c).
(** The members of the workspace for BPF, /repo/Cargo.toml 21-25. *)
Definition bpf_members : list str :=
  map bytes_of_string ["aya-ebpf"; "aya-ebpf-bindings"; "aya-ebpf-cty"; "aya-log-ebpf"; "integration-ebpf"]%string.

(** A command works if it exits with zero. *)
Definition succeeds (run : cmd -> option Z) (c : cmd) : Prop := run c = Some 0.
(** The submodule is checked out at the recorded commit if git prints a blank. *)
Definition current (out : str) : Prop := exists r, out = 32 :: r.
(** rustdoc's directory: the name of the crate, with underscores. *)
Inductive crate_name : str -> str -> Prop :=
| cn_nil : crate_name [] []
| cn_dash : forall s t, crate_name s t -> crate_name (45 :: s) (95 :: t)
| cn_other : forall c s t, c <> 45 -> crate_name s t -> crate_name (c :: s) (c :: t).
(** The packages the site documents. *)
Definition site_packages : list str := map bytes_of_string ["aya"; "aya-ebpf"; "aya-log-ebpf"; "aya-log"]%string.
(** A lint on the host with the arguments given, for all targets and sets of
    features, and a test of the documentation there by the linter. *)
Definition lints_host (args : list str) (c : cmd) : Prop :=
  exists x y z, c_args c = x ++ [txt "clippy"] ++ args ++ y ++ [txt "--"] ++ z /\
    In (txt "--all-targets") y /\ In (txt "--feature-powerset") y /\ has_sub [txt "--deny"; txt "warnings"] z.
Definition tests_host (args : list str) (c : cmd) : Prop :=
  has_sub ([txt "test"; txt "--doc"] ++ args ++ [txt "--feature-powerset"]) (c_args c) /\
  In (txt "CLIPPY_ARGS", txt "--deny=warnings") (c_env c) /\
  In (txt "RUSTDOCFLAGS", txt "--no-run -Z unstable-options --test-builder clippy-driver") (c_env c).
