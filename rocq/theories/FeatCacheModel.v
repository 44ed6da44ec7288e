(** Model of what the cached features run: aya/src/kernel_features.rs.  The
    caches themselves are in [SysModel]. *)
From Verif Require Import Base BtfSanitize FeatModel.
From Verif Require SysModel.
Import SysModel.
Local Open Scope Z_scope.

Section Run.
Variable E : env.
Variable K : kernel.

(** kernel_features.rs:93-106, 152-163 and 192-203; BPF_FUNC_probe_read_kernel
    and BPF_FUNC_get_attach_cookie of the bindings. *)
Definition run_probe (p : probe) : FeatModel.M (res perr bool) :=
  match p with
  | PBpfName => probe_bpf_name E K
  | PHelperProbeReadKernel => is_helper_supported E K PTracePoint 113
  | SysModel.PPerfLink => probe_perf_link E K
  | PGlobalData => probe_bpf_global_data E K
  | PHelperAttachCookie => is_helper_supported E K PKProbe 174
  | PCpuMapProg => is_cpumap_prog_id_supported E K
  | PDevMapProg => is_devmap_prog_id_supported E K
  | PBtf => probe_btf K
  | PBtfFunc => is_btf_feature_supported K FFunc
  | PBtfFuncGlobal => is_btf_feature_supported K FFuncGlobal
  | PBtfDataSec => is_btf_feature_supported K FDataSec
  | PBtfDataSecZero => is_btf_feature_supported K FDataSecZero
  | PBtfFloat => is_btf_feature_supported K FFloat
  | PBtfDeclTag => is_btf_feature_supported K FDeclTag
  | PBtfTypeTag => is_btf_feature_supported K FTypeTag
  | PBtfEnum64 => is_btf_feature_supported K FEnum64
  end.
(** What is kept in the cell: an [io::Error]; those of other kinds are
    wrapped. *)
Definition kept (r : res perr bool) : res Z bool :=
  match r with Ok b => Ok b | Err (POs e) | Err (PCall _ e) | Err (PMap e) => Err e | Err PType => Err (-1) end.
End Run.
