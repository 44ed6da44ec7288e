(** The types of C on the targets of Linux, from the psABIs and the C standard,
    which are not part of /repo. *)
From Coq Require Import String.
From Verif Require Import Base CtyModel.
Import ListNotations.
Local Open Scope string_scope.
Local Open Scope list_scope.

(** Architecture as Rust calls it, width of pointers, sign of plain char. *)
Definition linux_archs : list (string * nat * bool) :=
  [("aarch64", 64, false); ("arm", 32, false); ("loongarch64", 64, true); ("mips", 32, true); ("mips64", 64, true); ("powerpc", 32, false);
   ("powerpc64", 64, false); ("riscv32", 32, false); ("riscv64", 64, false); ("s390x", 64, false); ("sparc64", 64, true); ("x86", 32, true);
   ("x86_64", 64, true); ("x86_64", 32, true)]%nat.
Definition on_linux (arch : string) (width : nat) : target := {| t_arch := arch; t_bpf_arch := None; t_os := "linux"; t_width := width |}.
(** The architectures of kernels, for which programs are compiled to BPF. *)
Definition kernels : list string := ["aarch64"; "arm"; "loongarch64"; "mips"; "mips64"; "powerpc64"; "riscv64"; "s390x"; "x86_64"].
Definition in_kernel (arch : string) : target := {| t_arch := "bpf"; t_bpf_arch := Some arch; t_os := "none"; t_width := 64 |}.

(** Integers of C: their widths, where [long] and pointers have the same, and
    signs. *)
Definition c_integers (width : nat) : list (string * bool * nat) :=
  [("c_schar", true, 8); ("c_uchar", false, 8); ("c_short", true, 16); ("c_ushort", false, 16); ("c_int", true, 32); ("c_uint", false, 32);
   ("c_long", true, width); ("c_ulong", false, width); ("c_longlong", true, 64); ("c_ulonglong", false, 64);
   ("int8_t", true, 8); ("uint8_t", false, 8); ("int16_t", true, 16); ("uint16_t", false, 16); ("int32_t", true, 32); ("uint32_t", false, 32);
   ("int64_t", true, 64); ("uint64_t", false, 64); ("intmax_t", true, 64); ("uintmax_t", false, 64); ("size_t", false, width); ("ssize_t", true, width);
   ("ptrdiff_t", true, width); ("intptr_t", true, width); ("uintptr_t", false, width)]%nat.
Definition right_integers (width : nat) (l : list alias) : Prop :=
  forall n s b, In (n, s, b) (c_integers width) -> forall c, In (n, c) l <-> c = CInt s b.
(** No name stands for two types. *)
Definition unambiguous (l : list alias) : Prop := forall n c c', In (n, c) l -> In (n, c') l -> c = c'.
(** Types that differ by sign. *)
Definition pairs : list (string * string) :=
  [("c_schar", "c_uchar"); ("c_short", "c_ushort"); ("c_int", "c_uint"); ("c_long", "c_ulong"); ("c_longlong", "c_ulonglong")].
