(** How eBPF programs get at the arguments and the return value of the
    function they trace.

    Sources: ebpf/aya-ebpf/src/args.rs, programs/probe.rs, retprobe.rs,
    fentry.rs, fexit.rs, lsm.rs, tp_btf.rs, raw_tracepoint.rs; the register
    structures in ebpf/aya-ebpf-bindings/src/*/bindings.rs and the choice among
    them in ebpf/aya-ebpf/src/bindings.rs 1-18.

    The context of a program is a list of bytes.  Programs are built for the
    64 bit BPF target in the byte order of the machine, so [c_long] and
    [c_ulong] have 64 bits on every architecture
    (ebpf/aya-ebpf-cty/src/lib.rs 90-94).  A read beyond the context, which the
    verifier rejects, is the error [Outside]. *)
From Coq Require Import String.
From Verif Require Import Base LayoutModel.
Import ListNotations.
Local Open Scope Z_scope.

Inductive arch := X86_64 | Aarch64 | Arm | Loongarch64 | Mips | Mips64 | Powerpc64 | Riscv64 | S390x.

Definition c_long : ty := Int 8.
Definition c_ulong : ty := Int 8.
Definition u64_t : ty := Int 8.
Definition names (t : ty) (l : list string) : list (string * ty) := map (fun n => (n, t)) l.

(** pt_regs as the program knows it: x86_64/bindings.rs 2875-2897,
    aarch64 2880-2885, armv7 2892-2894, loongarch64 2880-2886, mips 2893-2901,
    mips64 2876-2884, powerpc64 2875-2889, riscv64 2880-2913,
    s390x 2907-2911 with psw_t. *)
Definition pt_regs (a : arch) : ty :=
  match a with
  | X86_64 => Struct (names c_ulong
      ["r15"; "r14"; "r13"; "r12"; "rbp"; "rbx"; "r11"; "r10"; "r9"; "r8"; "rax"; "rcx"; "rdx"; "rsi"; "rdi";
       "orig_rax"; "rip"; "cs"; "eflags"; "rsp"; "ss"]%string)
  | Aarch64 => Struct [("regs"%string, Arr 31 u64_t); ("sp"%string, u64_t); ("pc"%string, u64_t); ("pstate"%string, u64_t)]
  | Arm => Struct [("uregs"%string, Arr 18 c_long)]
  | Loongarch64 => Struct [("regs"%string, Arr 32 c_ulong); ("orig_a0"%string, c_ulong); ("csr_era"%string, c_ulong);
                           ("csr_badv"%string, c_ulong); ("reserved"%string, Arr 10 c_ulong)]
  | Mips | Mips64 => Struct (("regs"%string, Arr 32 u64_t)
                      :: names u64_t ["lo"; "hi"; "cp0_epc"; "cp0_badvaddr"; "cp0_status"; "cp0_cause"]%string)
  | Powerpc64 => Struct (("gpr"%string, Arr 32 c_ulong)
                      :: names c_ulong ["nip"; "msr"; "orig_gpr3"; "ctr"; "link"; "xer"; "ccr"; "softe"; "trap"; "dar"; "dsisr"; "result"]%string)
  | Riscv64 => Struct (names c_ulong
      ["pc"; "ra"; "sp"; "gp"; "tp"; "t0"; "t1"; "t2"; "s0"; "s1"; "a0"; "a1"; "a2"; "a3"; "a4"; "a5"; "a6"; "a7";
       "s2"; "s3"; "s4"; "s5"; "s6"; "s7"; "s8"; "s9"; "s10"; "s11"; "t3"; "t4"; "t5"; "t6"]%string)
  | S390x => Struct [("args"%string, Arr 1 c_ulong);
                     ("psw"%string, Struct [("mask"%string, c_ulong); ("addr"%string, c_ulong)]);
                     ("gprs"%string, Arr 16 c_ulong)]
  end.

(** A place in the structure: a field and, for arrays, an index. *)
Record place := { p_field : string; p_index : nat }.
Definition at_ (f : string) (i : nat) : place := {| p_field := f; p_index := i |}.

(** PtRegsLayout::arg_reg (args.rs 55-240). *)
Definition arg_reg (a : arch) (index : nat) : option place :=
  match a with
  | Aarch64 => if (index <=? 7)%nat then Some (at_ "regs" index) else None
  | Arm => if (index <=? 6)%nat then Some (at_ "uregs" index) else None
  | Loongarch64 => if (index <=? 7)%nat then Some (at_ "regs" (4 + index)) else None
  | Mips | Mips64 => if (index <=? 7)%nat then Some (at_ "regs" (4 + index)) else None
  | Powerpc64 => if (index <=? 7)%nat then Some (at_ "gpr" (3 + index)) else None
  | Riscv64 =>
      match index with
      | 0 => Some (at_ "a0" 0) | 1 => Some (at_ "a1" 0) | 2 => Some (at_ "a2" 0) | 3 => Some (at_ "a3" 0)
      | 4 => Some (at_ "a4" 0) | 5 => Some (at_ "a5" 0) | 6 => Some (at_ "a6" 0) | 7 => Some (at_ "a7" 0)
      | _ => None
      end%nat
  | S390x => if (index <=? 4)%nat then Some (at_ "gprs" (2 + index)) else None
  | X86_64 =>
      match index with
      | 0 => Some (at_ "rdi" 0) | 1 => Some (at_ "rsi" 0) | 2 => Some (at_ "rdx" 0)
      | 3 => Some (at_ "rcx" 0) | 4 => Some (at_ "r8" 0) | 5 => Some (at_ "r9" 0)
      | _ => None
      end%nat
  end.
(** PtRegsLayout::rc_reg (args.rs 55-240). *)
Definition rc_reg (a : arch) : place :=
  match a with
  | Aarch64 => at_ "regs" 0
  | Arm => at_ "uregs" 0
  | Loongarch64 => at_ "regs" 4
  | Mips | Mips64 => at_ "regs" 2
  | Powerpc64 => at_ "gpr" 3
  | Riscv64 => at_ "a0" 0
  | S390x => at_ "gprs" 2
  | X86_64 => at_ "rax" 0
  end.

Inductive error := NoSuchArgument | Outside | Helper (e : Z).

(** A 64 bit load in the byte order of the machine. *)
Definition load64 (big : bool) (ctx : list Z) (off : Z) : res error Z :=
  if (0 <=? off) && (off + 8 <=? Z.of_nat (length ctx)) then
    let b := slice (Z.to_nat off) 8 ctx in Ok (le_dec (if big then rev b else b))
  else Err Outside.

(** Where a place is. *)
Definition offset (a : arch) (p : place) : option Z :=
  option_map (fun '(o, _) => o + 8 * Z.of_nat (p_index p)) (field [p_field p] (pt_regs a)).
Definition load_place (a : arch) (big : bool) (ctx : list Z) (p : place) : res error Z :=
  match offset a p with Some o => load64 big ctx o | None => Err Outside end.

(** The types an argument can be asked for as (args.rs 23-38); [usize],
    [isize] and pointers have 64 bits. *)
Inductive aty := AInt (signed : bool) (bits : Z).
Definition arg_types : list aty :=
  [AInt true 8; AInt false 8; AInt true 16; AInt false 16; AInt true 32; AInt false 32;
   AInt true 64; AInt false 64; AInt true 128; AInt false 128].
(** Argument::from_register (args.rs 15-17): [value as Self], [value] being a
    [u64]. *)
Definition from_register (t : aty) (value : Z) : Z :=
  let 'AInt signed bits := t in if signed then swrap bits value else wrap bits value.

(** arg and ret (args.rs 242-267); the [as u64] changes nothing in 64 bits. *)
Definition arg (a : arch) (big : bool) (ctx : list Z) (n : nat) (t : aty) : res error Z :=
  match arg_reg a n with
  | None => Err NoSuchArgument
  | Some p => bind (load_place a big ctx p) (fun r => Ok (from_register t (u64 r)))
  end.
Definition ret (a : arch) (big : bool) (ctx : list Z) (t : aty) : res error Z :=
  bind (load_place a big ctx (rc_reg a)) (fun r => Ok (from_register t (u64 r))).

(** btf_arg (args.rs 45-53) and raw_tracepoint_arg (args.rs 292-308): an
    array of 64 bit words at the start of the context. *)
Definition btf_arg (big : bool) (ctx : list Z) (n : nat) (t : aty) : res error Z :=
  bind (load64 big ctx (8 * Z.of_nat n)) (fun r => Ok (from_register t r)).
Definition raw_tracepoint_arg (big : bool) (ctx : list Z) (n : nat) (t : aty) : res error Z :=
  bind (load64 big ctx (8 * Z.of_nat n)) (fun r => Ok (from_register t r)).

(** FExitContext::ret (programs/fexit.rs 58-97): what bpf_get_func_ret
    returned and stored. *)
Definition fexit_ret (err stored : Z) (t : aty) : res error Z :=
  if err =? 0 then Ok (from_register t stored) else Err (Helper (i32 err)).
