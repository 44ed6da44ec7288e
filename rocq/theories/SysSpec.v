(** What C46 and C50 mean, for [SysModel]. *)
From Verif Require Import Base LogModel SysModel.
Local Open Scope Z_scope.

(** The buffer lengths of the first, second, ... call: nothing, then ten
    kibibytes, ten times more each time up to the most the kernel takes. *)
Definition log_sizes : list Z := [0; 10240; 102400; 1024000; 10240000].
Definition log_size (i : nat) : Z := nth i log_sizes 16777215.

(** A call does not change the length of its buffer. *)
Definition keeps {T} (f : nat -> list Z -> res Z T * list Z) : Prop := forall i b, length (snd (f i b)) = length b.

(** A call that puts a zero-terminated text at the start of its buffer. *)
Definition writes (text before after : list Z) : Prop :=
  Forall (fun c => c <> 0) text /\ exists rest, after = text ++ 0 :: rest /\ length after = length before.

(** The results a probe returned when run. *)
Definition ran (p : probe) (st : pstate) : list (res Z bool) := map snd (filter (fun r => probe_beq (fst r) p) (p_runs st)).

(** The question each feature stands for. *)
Definition question (f : feature) : probe :=
  match f with
  | BpfName => PBpfName | BpfProbeReadKernel => PHelperProbeReadKernel | BpfPerfLink => PPerfLink | BpfGlobalData => PGlobalData
  | BpfCookie => PHelperAttachCookie | CpuMapProgId => PCpuMapProg | DevMapProgId => PDevMapProg | Btf => PBtf
  | BtfFunc => PBtfFunc | BtfFuncGlobal => PBtfFuncGlobal | BtfDataSec => PBtfDataSec | BtfDataSecZero => PBtfDataSecZero
  | BtfFloat => PBtfFloat | BtfDeclTag => PBtfDeclTag | BtfTypeTag => PBtfTypeTag | BtfEnum64 => PBtfEnum64
  end.
