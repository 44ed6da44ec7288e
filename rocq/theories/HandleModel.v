(** Handles for programs, maps and links that are already in the kernel.

    Sources: aya/src/programs/mod.rs 586-629 ([from_bpf_prog_info],
    [from_pinned_path]), 1293-1330 ([from_pin]), 1332-1466
    ([from_program_info]), the constants [PROGRAM_TYPE] of the kinds,
    aya/src/programs/info.rs 215-239, aya/src/maps/mod.rs ([MapData::from_pin],
    [from_id], [from_fd_inner]), aya-obj/src/obj.rs 1372-1413
    ([parse_map_info]), aya/src/programs/links.rs 123-220 ([LinkInfo],
    [LinkType]), 354-367 ([PinnedLink::from_pin]), 594-610
    ([impl_try_from_fdlink]), uprobe.rs 730-742.  Simplification: the calls
    fail only for objects that are not there. *)
From Coq Require Import String.
From Verif Require Import Base Text ProgModel LayoutModel LayoutDecls InfoModel.
Import ListNotations.
Local Open Scope Z_scope.

(** * The kernel *)

(** An object is what [BPF_OBJ_GET_INFO_BY_FD] reports about it; the bytes
    are those of [bpf_prog_info], [bpf_map_info] or [bpf_link_info] of the
    running kernel. *)
Inductive object := Prog (info : list Z) | Map_ (info : list Z) | Link_ (info : list Z).
Definition bytes_of (o : object) : list Z := match o with Prog b | Map_ b | Link_ b => b end.
(** Pinned objects, programs and maps by number, BTF objects by number. *)
Record kernel := { k_pins : list (list Z * object); k_progs : Z -> option (list Z); k_maps : Z -> option (list Z); k_btfs : Z -> option Z }.
(** [BPF_OBJ_GET]: a descriptor for whatever is pinned there. *)
Definition get_object (path : list Z) (k : kernel) : option object :=
  option_map snd (find (fun x => str_eqb (fst x) path) (k_pins k)).
(** [BPF_OBJ_GET_INFO_BY_FD] asks the object the descriptor refers to and
    copies what fits; the caller's structure is zeroed. *)
Definition info_by_fd (t : ty) (o : object) : list Z := info_of t (bytes_of o).

(** * Programs *)

Inductive herr := ESyscall | EUnexpectedType | EInvalidLink | EUnknownLinkType (t : Z) | EInvalidPath.
Inductive out (A : Type) := Ret (a : A) | Fail (e : herr) | Panic.
Arguments Ret {A}. Arguments Fail {A}. Arguments Panic {A}.
Definition has_nul (l : list Z) : bool := existsb (Z.eqb 0) l.

(** The kind of the handle, what its descriptor refers to, and what else is
    kept. *)
Record phandle := { h_kind : kind; h_obj : object; h_name : option (list Z); h_btf : option Z; h_btf_id : option Z }.
Definition from_bpf_prog_info (p : kind) (name : option (list Z)) (o : object) (info : list Z) (k : kernel) : out phandle :=
  let btf_id := positive (get P "attach_btf_id" info) in
  let make btf := Ret {| h_kind := p; h_obj := o; h_name := name; h_btf := btf; h_btf_id := btf_id |} in
  if get P "attach_btf_obj_id" info =? 0 then make None
  else match k_btfs k (get P "attach_btf_obj_id" info) with Some fd => make (Some fd) | None => Fail ESyscall end.
(** [CString::new(path).unwrap()] panics. *)
Definition from_pin (named : bool) (p : kind) (path : list Z) (k : kernel) : out phandle :=
  if has_nul path then Panic
  else match get_object path k with
       | None => Fail ESyscall
       | Some o => let info := info_by_fd P o in from_bpf_prog_info p (prog_name_as_str named info) o info k
       end.

(** [PROGRAM_TYPE] of each structure.  [LsmCgroup] has none. *)
Definition PROGRAM_TYPE (p : kind) : option Z :=
  match p with
  | KKProbe _ | KUProbe _ _ => Some T_KPROBE
  | KTracePoint => Some T_TRACEPOINT
  | KSocketFilter => Some T_SOCKET_FILTER
  | KXdp _ => Some T_XDP
  | KSkMsg => Some T_SK_MSG
  | KSkSkb _ => Some T_SK_SKB
  | KSockOps => Some T_SOCK_OPS
  | KSchedClassifier => Some T_SCHED_CLS
  | KCgroupSkb _ => Some T_CGROUP_SKB
  | KCgroupSysctl => Some T_CGROUP_SYSCTL
  | KCgroupSockopt _ => Some T_CGROUP_SOCKOPT
  | KLircMode2 => Some T_LIRC_MODE2
  | KPerfEvent => Some T_PERF_EVENT
  | KRawTracePoint => Some T_RAW_TRACEPOINT
  | KLsm => Some T_LSM
  | KLsmCgroup => None
  | KBtfTracePoint | KFEntry | KFExit | KIter => Some T_TRACING
  | KFlowDissector => Some T_FLOW_DISSECTOR
  | KExtension => Some T_EXT
  | KCgroupSockAddr _ => Some T_CGROUP_SOCK_ADDR
  | KSkLookup => Some T_SK_LOOKUP
  | KSkReuseport _ => Some T_SK_REUSEPORT
  | KCgroupSock _ => Some T_CGROUP_SOCK
  | KCgroupDevice => Some T_CGROUP_DEVICE
  end.
(** The kinds that have [from_program_info], and those for which it is
    [unsafe]. *)
Definition has_from_info (p : kind) : bool :=
  match p with KLsmCgroup | KFlowDissector | KCgroupSockAddr _ | KCgroupSock _ => false | _ => true end.
Definition unsafe_from_info (p : kind) : bool :=
  match p with KKProbe _ | KUProbe _ _ | KBtfTracePoint | KFEntry | KFExit => true | _ => false end.
(** [info]: what was reported about the program when the [ProgramInfo] was
    made. *)
Definition from_program_info (p : kind) (info name : list Z) (k : kernel) : out phandle :=
  match PROGRAM_TYPE p with
  | None => Fail EUnexpectedType
  | Some t =>
      if negb (program_type info =? t) then Fail EUnexpectedType
      else match k_progs k (id info) with
           | None => Fail ESyscall
           | Some b => from_bpf_prog_info p (Some name) (Prog b) info k
           end
  end.

(** * Maps *)

Record mhandle := { m_obj : object; m_type : Z; m_key : Z; m_value : Z; m_entries : Z; m_flags : Z; m_extra : option (Z * Z * Z) }.
(** [parse_map_info]: maps with BTF keep [map_extra] and the types. *)
Definition from_fd_inner (o : object) : mhandle :=
  let i := info_by_fd M o in
  {| m_obj := o; m_type := get M "type_" i; m_key := get M "key_size" i; m_value := get M "value_size" i; m_entries := get M "max_entries" i; m_flags := get M "map_flags" i;
     m_extra := if get M "btf_value_type_id" i =? 0 then None else Some (get M "map_extra" i, get M "btf_key_type_id" i, get M "btf_value_type_id" i) |}.
Definition map_from_pin (path : list Z) (k : kernel) : out mhandle :=
  if has_nul path then Fail EInvalidPath
  else match get_object path k with None => Fail ESyscall | Some o => Ret (from_fd_inner o) end.
Definition map_from_id (n : Z) (k : kernel) : out mhandle :=
  match k_maps k n with None => Fail ESyscall | Some b => Ret (from_fd_inner (Map_ b)) end.

(** * Links *)

Definition L := d_bpf_link_info.
Definition link_from_pin (path : list Z) (k : kernel) : out object :=
  if has_nul path then Panic else match get_object path k with None => Fail ESyscall | Some o => Ret o end.
Definition LINK_ITER : Z := 4.
Definition LINK_XDP : Z := 6.
Definition LINK_PERF_EVENT : Z := 7.
Definition LINK_TCX : Z := 11.
Definition LINK_UPROBE_MULTI : Z := 12.
(** The structures an [FdLink] can be made into. *)
Inductive lkind := LXdp | LSched | LTracePoint | LKProbe | LUProbe | LPerfEvent | LIter.
Definition link_types (l : lkind) : list Z :=
  match l with
  | LXdp => [LINK_XDP]
  | LSched => [LINK_TCX]
  | LTracePoint | LKProbe | LPerfEvent => [LINK_PERF_EVENT]
  | LUProbe => [LINK_PERF_EVENT; LINK_UPROBE_MULTI]
  | LIter => [LINK_ITER]
  end.
Definition link_try_from (l : lkind) (o : object) : out object :=
  if existsb (Z.eqb (get L "type_" (info_by_fd L o))) (link_types l) then Ret o else Fail EInvalidLink.
(** [LinkInfo::link_type]: the bindings know 14. *)
Definition link_type (info : list Z) : out Z := let t := get L "type_" info in if t <? 14 then Ret t else Fail (EUnknownLinkType t).
Definition link_id (info : list Z) : Z := get L "id" info.
Definition link_program (info : list Z) : Z := get L "prog_id" info.
