(** Where the kernel puts the registers of the traced code, and which of them
    carry arguments.

    The frames are the kernel's [struct pt_regs]: arch/*/include/asm/ptrace.h
    of Linux (on arm64, loongarch, riscv and s390 the structure that user space
    knows is a prefix of it).  The argument registers are those of the C
    calling conventions: the System V ABI for x86-64, AAPCS and AAPCS64, the
    LoongArch, MIPS O32 and N64, PowerPC ELF, RISC-V and s390 ELF ABIs. *)
From Coq Require Import String.
From Verif Require Import Base ArgModel.
Import ListNotations.
Local Open Scope Z_scope.

Definition reg : Type := string * nat.
Definition numbered (s : string) (from n : nat) : list reg := map (fun i => (s, i)) (seq from n).
Definition named (l : list string) : list reg := map (fun s => (s, O)) l.

(** Bytes before the first register, bytes of a register, the registers. *)
Record frame := { f_pad : nat; f_width : nat; f_regs : list reg }.
Definition kernel_frame (a : arch) : frame :=
  match a with
  | X86_64 => {| f_pad := 0; f_width := 8; f_regs :=
      numbered "r" 15 1 ++ numbered "r" 14 1 ++ numbered "r" 13 1 ++ numbered "r" 12 1 ++ named ["bp"; "bx"]%string ++
      numbered "r" 11 1 ++ numbered "r" 10 1 ++ numbered "r" 9 1 ++ numbered "r" 8 1 ++
      named ["ax"; "cx"; "dx"; "si"; "di"; "orig_ax"; "ip"; "cs"; "flags"; "sp"; "ss"]%string |}
  | Aarch64 => {| f_pad := 0; f_width := 8; f_regs := numbered "x" 0 31 ++ named ["sp"; "pc"; "pstate"]%string |}
  | Arm => {| f_pad := 0; f_width := 4; f_regs := numbered "r" 0 16 ++ named ["cpsr"; "orig_r0"]%string |}
  | Loongarch64 => {| f_pad := 0; f_width := 8; f_regs := numbered "r" 0 32 |}
  | Mips => {| f_pad := 32; f_width := 4; f_regs := numbered "$" 0 32 |}
  | Mips64 => {| f_pad := 0; f_width := 8; f_regs := numbered "$" 0 32 |}
  | Powerpc64 => {| f_pad := 0; f_width := 8; f_regs := numbered "r" 0 32 |}
  | Riscv64 => {| f_pad := 0; f_width := 8; f_regs := named ["pc"]%string ++ numbered "x" 1 31 |}
  | S390x => {| f_pad := 24; f_width := 8; f_regs := numbered "r" 0 16 |}
  end.

Definition abi_args (a : arch) : list reg :=
  match a with
  | X86_64 => named ["di"; "si"; "dx"; "cx"]%string ++ numbered "r" 8 2
  | Aarch64 => numbered "x" 0 8
  | Arm => numbered "r" 0 4
  | Loongarch64 => numbered "r" 4 8
  | Mips => numbered "$" 4 4
  | Mips64 => numbered "$" 4 8
  | Powerpc64 => numbered "r" 3 8
  | Riscv64 => numbered "x" 10 8
  | S390x => numbered "r" 2 5
  end.
Definition abi_ret (a : arch) : reg :=
  match a with
  | X86_64 => ("ax"%string, O)
  | Aarch64 => ("x"%string, 0%nat)
  | Arm => ("r"%string, 0%nat)
  | Loongarch64 => ("r"%string, 4%nat)
  | Mips | Mips64 => ("$"%string, 2%nat)
  | Powerpc64 => ("r"%string, 3%nat)
  | Riscv64 => ("x"%string, 10%nat)
  | S390x => ("r"%string, 2%nat)
  end.

Definition word (big : bool) (width : nat) (v : Z) : list Z := if big then rev (le_enc width v) else le_enc width v.
Definition words_of (big : bool) (width : nat) (vs : list Z) : list Z := flat_map (word big width) vs.

(** The context of a probe on a machine whose registers are [rf]: the frame,
    then whatever follows. *)
Definition saved (a : arch) (big : bool) (rf : reg -> Z) (ctx : list Z) : Prop :=
  exists pad tail, length pad = f_pad (kernel_frame a) /\
    ctx = pad ++ words_of big (f_width (kernel_frame a)) (map rf (f_regs (kernel_frame a))) ++ tail.
Definition regs_ok (a : arch) (rf : reg -> Z) : Prop := forall r, 0 <= rf r < 256 ^ Z.of_nat (f_width (kernel_frame a)).

(** The integers a type has. *)
Definition in_type (t : aty) (v : Z) : Prop :=
  let 'AInt signed bits := t in if signed then - 2 ^ (bits - 1) <= v < 2 ^ (bits - 1) else 0 <= v < 2 ^ bits.
Definition fits_register (t : aty) : Prop := let 'AInt _ bits := t in 1 <= bits <= 64.
(** A register carries [v]: its low bits are those of [v].  The calling
    conventions do not agree on the others. *)
Definition carries (t : aty) (r v : Z) : Prop := let 'AInt _ bits := t in in_type t v /\ r mod 2 ^ bits = v mod 2 ^ bits.

(** Machines with 64 bit registers. *)
Definition wide (a : arch) : Prop := a <> Arm /\ a <> Mips.
