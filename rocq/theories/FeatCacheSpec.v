(** What the cached features should say. *)
From Verif Require Import Base BtfSanitize FeatModel FeatSpec FeatCacheModel.
From Verif Require SysModel.
Import SysModel.
Local Open Scope Z_scope.

Definition has (k : kern) (f : SysModel.feature) : bool :=
  match f with
  | BpfName => 64 <=? k_ends k 5
  | BpfProbeReadKernel => k_helper k 5 113
  | BpfPerfLink => k_perf_link k
  | BpfGlobalData => k_global k
  | BpfCookie => k_helper k 2 174
  | CpuMapProgId => k_prog_values k 16
  | DevMapProgId => k_prog_values k 14
  | Btf => negb (k_ends k 18 =? 0)
  | BtfFunc => k_btf k FFunc
  | BtfFuncGlobal => k_btf k FFuncGlobal
  | BtfDataSec => k_btf k FDataSec
  | BtfDataSecZero => k_btf k FDataSecZero
  | BtfFloat => k_btf k FFloat
  | BtfDeclTag => k_btf k FDeclTag
  | BtfTypeTag => k_btf k FTypeTag
  | BtfEnum64 => k_btf k FEnum64
  end.
(** The results kept are those of runs of the probes on the kernel, whatever
    happened before them. *)
Definition honest (E : env) (K : kernel) (st : pstate) : Prop :=
  forall p v, In (p, v) (p_runs st) -> exists h, v = kept (fst (run_probe E K p h)).
