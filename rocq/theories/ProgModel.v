(** Programs as they are handed to the kernel: which kind of program a section
    becomes, the [BPF_PROG_LOAD] request and the attach requests.

    Sources: aya/src/bpf.rs 690-880, aya/src/programs/mod.rs 549-800 and
    836-843, aya/src/programs/{every kind}.rs, aya/src/sys/bpf.rs 146-222,
    448-640 and 880-897, aya-obj/src/programs/*.rs, numbers from
    aya-obj/src/generated/linux_bindings_x86_64.rs.

    File descriptors, BTF ids and addresses are integers; strings are byte
    lists. *)
From Coq Require Import String.
From Verif Require Import Base Text ObjModel BtfExt SysModel.
Local Open Scope Z_scope.

(** [bpf_prog_type], the kinds this library loads. *)
Definition T_SOCKET_FILTER : Z := 1.
Definition T_KPROBE : Z := 2.
Definition T_SCHED_CLS : Z := 3.
Definition T_TRACEPOINT : Z := 5.
Definition T_XDP : Z := 6.
Definition T_PERF_EVENT : Z := 7.
Definition T_CGROUP_SKB : Z := 8.
Definition T_CGROUP_SOCK : Z := 9.
Definition T_SOCK_OPS : Z := 13.
Definition T_SK_SKB : Z := 14.
Definition T_CGROUP_DEVICE : Z := 15.
Definition T_SK_MSG : Z := 16.
Definition T_RAW_TRACEPOINT : Z := 17.
Definition T_CGROUP_SOCK_ADDR : Z := 18.
Definition T_LIRC_MODE2 : Z := 20.
Definition T_SK_REUSEPORT : Z := 21.
Definition T_FLOW_DISSECTOR : Z := 22.
Definition T_CGROUP_SYSCTL : Z := 23.
Definition T_CGROUP_SOCKOPT : Z := 25.
Definition T_TRACING : Z := 26.
Definition T_EXT : Z := 28.
Definition T_LSM : Z := 29.
Definition T_SK_LOOKUP : Z := 30.

(** [bpf_attach_type]. *)
Definition A_CGROUP_INET_INGRESS : Z := 0.
Definition A_CGROUP_INET_EGRESS : Z := 1.
Definition A_CGROUP_INET_SOCK_CREATE : Z := 2.
Definition A_CGROUP_SOCK_OPS : Z := 3.
Definition A_SK_SKB_STREAM_PARSER : Z := 4.
Definition A_SK_SKB_STREAM_VERDICT : Z := 5.
Definition A_CGROUP_DEVICE : Z := 6.
Definition A_SK_MSG_VERDICT : Z := 7.
Definition A_CGROUP_INET4_BIND : Z := 8.
Definition A_CGROUP_INET6_BIND : Z := 9.
Definition A_CGROUP_INET4_CONNECT : Z := 10.
Definition A_CGROUP_INET6_CONNECT : Z := 11.
Definition A_CGROUP_INET4_POST_BIND : Z := 12.
Definition A_CGROUP_INET6_POST_BIND : Z := 13.
Definition A_CGROUP_UDP4_SENDMSG : Z := 14.
Definition A_CGROUP_UDP6_SENDMSG : Z := 15.
Definition A_LIRC_MODE2 : Z := 16.
Definition A_FLOW_DISSECTOR : Z := 17.
Definition A_CGROUP_SYSCTL : Z := 18.
Definition A_CGROUP_UDP4_RECVMSG : Z := 19.
Definition A_CGROUP_UDP6_RECVMSG : Z := 20.
Definition A_CGROUP_GETSOCKOPT : Z := 21.
Definition A_CGROUP_SETSOCKOPT : Z := 22.
Definition A_TRACE_RAW_TP : Z := 23.
Definition A_TRACE_FENTRY : Z := 24.
Definition A_TRACE_FEXIT : Z := 25.
Definition A_LSM_MAC : Z := 27.
Definition A_TRACE_ITER : Z := 28.
Definition A_CGROUP_INET4_GETPEERNAME : Z := 29.
Definition A_CGROUP_INET6_GETPEERNAME : Z := 30.
Definition A_CGROUP_INET4_GETSOCKNAME : Z := 31.
Definition A_CGROUP_INET6_GETSOCKNAME : Z := 32.
Definition A_XDP_DEVMAP : Z := 33.
Definition A_CGROUP_INET_SOCK_RELEASE : Z := 34.
Definition A_XDP_CPUMAP : Z := 35.
Definition A_SK_LOOKUP : Z := 36.
Definition A_XDP : Z := 37.
Definition A_SK_REUSEPORT_SELECT : Z := 39.
Definition A_SK_REUSEPORT_SELECT_OR_MIGRATE : Z := 40.
Definition A_LSM_CGROUP : Z := 43.
Definition A_TRACE_UPROBE_MULTI : Z := 48.

Definition F_SLEEPABLE : Z := 16.
Definition F_XDP_HAS_FRAGS : Z := 32.

(** [Program], programs/mod.rs 298-360, each with what its structure holds
    beside the [ProgramData]. *)
Inductive kind :=
| KKProbe (ret : bool) | KUProbe (ret multi : bool) | KTracePoint | KSocketFilter | KXdp (at_ : Z) | KSkMsg | KSkSkb (at_ : Z)
| KSockOps | KSchedClassifier | KCgroupSkb (at_ : option Z) | KCgroupSysctl | KCgroupSockopt (at_ : Z) | KLircMode2 | KPerfEvent
| KRawTracePoint | KLsm | KLsmCgroup | KBtfTracePoint | KFEntry | KFExit | KFlowDissector | KExtension | KCgroupSockAddr (at_ : Z)
| KSkLookup | KSkReuseport (at_ : Z) | KCgroupSock (at_ : Z) | KCgroupDevice | KIter.

(** The attach types of the kinds that have several, in the numbering of
    [ObjModel.psec]: aya-obj/src/programs/xdp.rs 16-24, cgroup_sock.rs,
    cgroup_sock_addr.rs 34-51. *)
Definition xdp_at (n : Z) : Z := if n =? 0 then A_XDP else if n =? 1 then A_XDP_CPUMAP else A_XDP_DEVMAP.
Definition sock_at (n : Z) : Z :=
  nth (Z.to_nat n) [A_CGROUP_INET_SOCK_CREATE; A_CGROUP_INET4_POST_BIND; A_CGROUP_INET6_POST_BIND; A_CGROUP_INET_SOCK_RELEASE] 0.
Definition sock_addr_at (n : Z) : Z :=
  nth (Z.to_nat n)
    [A_CGROUP_INET4_BIND; A_CGROUP_INET6_BIND; A_CGROUP_INET4_CONNECT; A_CGROUP_INET6_CONNECT; A_CGROUP_INET4_GETPEERNAME;
     A_CGROUP_INET6_GETPEERNAME; A_CGROUP_INET4_GETSOCKNAME; A_CGROUP_INET6_GETSOCKNAME; A_CGROUP_UDP4_SENDMSG;
     A_CGROUP_UDP6_SENDMSG; A_CGROUP_UDP4_RECVMSG; A_CGROUP_UDP6_RECVMSG] 0.
Definition sleep (b : bool) : Z := if b then F_SLEEPABLE else 0.

(** bpf.rs 702-868: the kind of program and the [flags] of its
    [ProgramData].  [ext]: the caller listed the program in
    [EbpfLoader::extension]. *)
Definition of_section (ext : bool) (s : psec) : kind * Z :=
  if ext then (KExtension, 0) else
  match s with
  | PKProbe => (KKProbe false, 0)
  | PKRetProbe => (KKProbe true, 0)
  | PUProbe s m => (KUProbe false m, sleep s)
  | PURetProbe s m => (KUProbe true m, sleep s)
  | PTracePoint => (KTracePoint, 0)
  | PSocket => (KSocketFilter, 0)
  | PXdp f n => (KXdp (xdp_at n), if f then F_XDP_HAS_FRAGS else 0)
  | PSkMsg => (KSkMsg, 0)
  | PCgroupSysctl => (KCgroupSysctl, 0)
  | PCgroupSockopt set => (KCgroupSockopt (if set then A_CGROUP_SETSOCKOPT else A_CGROUP_GETSOCKOPT), 0)
  | PSkSkb verdict => (KSkSkb (if verdict then A_SK_SKB_STREAM_VERDICT else A_SK_SKB_STREAM_PARSER), 0)
  | PSockOps => (KSockOps, 0)
  | PClassifier => (KSchedClassifier, 0)
  | PCgroupSkb at_ => (KCgroupSkb (option_map (fun e : bool => if e then A_CGROUP_INET_EGRESS else A_CGROUP_INET_INGRESS) at_), 0)
  | PCgroupSockAddr n => (KCgroupSockAddr (sock_addr_at n), 0)
  | PLirc => (KLircMode2, 0)
  | PPerfEvent => (KPerfEvent, 0)
  | PRawTp => (KRawTracePoint, 0)
  | PLsm s => (KLsm, sleep s)
  | PLsmCgroup => (KLsmCgroup, 0)
  | PTpBtf => (KBtfTracePoint, 0)
  | PFEntry s => (KFEntry, sleep s)
  | PFExit s => (KFExit, sleep s)
  | PFlowDissector => (KFlowDissector, 0)
  | PExtension => (KExtension, 0)
  | PSkLookup => (KSkLookup, 0)
  | PSkReuseport m => (KSkReuseport (if m then A_SK_REUSEPORT_SELECT_OR_MIGRATE else A_SK_REUSEPORT_SELECT), 0)
  | PCgroupSock n => (KCgroupSock (sock_at n), 0)
  | PCgroupDevice => (KCgroupDevice, 0)
  | PIter s => (KIter, sleep s)
  end.

(** * Loading *)

(** [(aya_obj::Program, aya_obj::Function)], the parts [load_program] reads.
    Each instruction is one integer. *)
Record object := {
  ob_license : list Z; ob_version : option Z; ob_insns : list Z;
  ob_func : list finfo; ob_func_rec : Z; ob_line : list linfo; ob_line_rec : Z }.
(** [func_info_bytes] and [line_info_bytes], aya-obj/src/btf/info.rs 68-77 and
    166-175: the records as the structures are in memory. *)
Definition finfo_bytes (f : finfo) : list Z := le_enc 4 (fi_insn f) ++ le_enc 4 (fi_type f).
Definition linfo_bytes (l : linfo) : list Z := le_enc 4 (li_insn l) ++ le_enc 4 (li_file l) ++ le_enc 4 (li_line l) ++ le_enc 4 (li_col l).

(** [ProgramData], programs/mod.rs 549-562, without the links and the pin
    path, which [AttachModel] and [PinModel] have. *)
Record data := {
  d_name : option (list Z); d_obj : option object; d_fd : option Z;
  d_btf_obj_fd : option Z; d_btf_id : option Z; d_prog_fd : option Z; d_btf_fd : option Z;
  d_level : Z; d_flags : Z }.
(** [ProgramData::new] 565-585 and the assignment of [flags] in bpf.rs. *)
Definition data_new (name : option (list Z)) (o : object) (btf_fd : option Z) (level flags : Z) : data :=
  {| d_name := name; d_obj := Some o; d_fd := None; d_btf_obj_fd := None; d_btf_id := None; d_prog_fd := None; d_btf_fd := btf_fd;
     d_level := level; d_flags := flags |}.
Definition with_fd (fd : option Z) (d : data) : data :=
  {| d_name := d_name d; d_obj := d_obj d; d_fd := fd; d_btf_obj_fd := d_btf_obj_fd d; d_btf_id := d_btf_id d; d_prog_fd := d_prog_fd d;
     d_btf_fd := d_btf_fd d; d_level := d_level d; d_flags := d_flags d |}.
Definition with_target (btf_obj_fd btf_id prog_fd : option Z) (d : data) : data :=
  {| d_name := d_name d; d_obj := d_obj d; d_fd := d_fd d; d_btf_obj_fd := btf_obj_fd; d_btf_id := btf_id; d_prog_fd := prog_fd;
     d_btf_fd := d_btf_fd d; d_level := d_level d; d_flags := d_flags d |}.

(** A pointer and the bytes or words behind it; [None]: null. *)
Definition ptr := option (list Z).

(** The part of [bpf_attr] that [BPF_PROG_LOAD] reads.  [q_target] is the
    union of [attach_prog_fd] and [attach_btf_obj_fd].  A pointer field holds
    the memory it points to. *)
Record req := {
  q_name : list Z; q_flags : Z; q_type : Z; q_attach : Z; q_insns : ptr; q_insn_cnt : Z; q_license : ptr; q_version : Z;
  q_btf_fd : Z; q_func : ptr; q_func_cnt : Z; q_func_rec : Z; q_line : ptr; q_line_cnt : Z; q_line_rec : Z;
  q_level : Z; q_log : ptr; q_log_size : Z; q_target : Z; q_btf_id : Z }.

(** sys/bpf.rs 171-176: [prog_name] has 16 bytes, the last stays zero. *)
Definition name_field (name : option (list Z)) : list Z :=
  let n := match name with Some n => firstn 15 n | None => [] end in
  n ++ repeat 0 (16 - length n).
Definition or0 (o : option Z) : Z := match o with Some v => v | None => 0 end.

(** [bpf_load_program], sys/bpf.rs 163-222, up to the system call; [log] is
    the buffer for the verifier's log. *)
Definition load_req (ty : Z) (eat : option Z) (version : Z) (name : option (list Z)) (d : data) (o : object) (log : list Z) : req :=
  let btf := match d_btf_fd d with Some _ => true | None => false end in
  let fi := btf && (0 <? ob_func_rec o) in
  let li := btf && (0 <? ob_line_rec o) in
  let lg := negb (match log with [] => true | _ => false end) in
  {| q_name := name_field name; q_flags := d_flags d; q_type := ty; q_attach := or0 eat;
     q_insns := Some (ob_insns o); q_insn_cnt := u32 (Z.of_nat (length (ob_insns o)));
     q_license := Some (ob_license o); q_version := version;
     q_btf_fd := or0 (d_btf_fd d);
     q_func := if fi then Some (concat (map finfo_bytes (ob_func o))) else None;
     q_func_cnt := if fi then u32 (Z.of_nat (length (ob_func o))) else 0;
     q_func_rec := if fi then u32 (ob_func_rec o) else 0;
     q_line := if li then Some (concat (map linfo_bytes (ob_line o))) else None;
     q_line_cnt := if li then u32 (Z.of_nat (length (ob_line o))) else 0;
     q_line_rec := if li then u32 (ob_line_rec o) else 0;
     q_level := if lg then d_level d else 0;
     q_log := if lg then Some log else None;
     q_log_size := if lg then u32 (Z.of_nat (length log)) else 0;
     q_target := match d_prog_fd d with Some v => v | None => or0 (d_btf_obj_fd d) end;
     q_btf_id := or0 (d_btf_id d) |}.

(** The kernel: the outcome of the [i]th load and the log buffer after it. *)
Definition loader := nat -> req -> res Z Z * list Z.
Inductive perr := PAlreadyLoaded | PNotLoaded | PInvalidName | PBtf | PLoad (errno : Z) (log : list Z) | PSyscall (errno : Z) | PLogPanic | PNoBtf.

Definition has_zero (l : list Z) : bool := existsb (Z.eqb 0) l.

(** [load_program], programs/mod.rs 705-799.  [running] is
    [KernelVersion::current().map_or(0, code)].  The requests made are
    returned as well. *)
Definition load_program (k : loader) (running : Z) (ty : Z) (eat : option Z) (d : data) : res perr unit * data * list req :=
  match d_fd d, d_obj d with
  | Some _, _ => (Err PAlreadyLoaded, d, [])
  | None, None => (Err PAlreadyLoaded, d, [])
  | None, Some o =>
      if match d_name d with Some n => has_zero n | None => false end then (Err PInvalidName, d, [])
      else
        let version := match ob_version o with Some v => v | None => running end in
        let q := load_req ty eat version (d_name d) d o in
        let (r, bufs) := retry_with_verifier_logs 10 (fun i buf => k i (q buf)) in
        match r with
        | None => (Err PLogPanic, d, map q bufs)
        | Some (Ok fd, _) => (Ok tt, with_fd (Some fd) d, map q bufs)
        | Some (Err e, log) => (Err (PLoad e log), d, map q bufs)
        end
  end.

(** [BtfKind]: what a name is looked up as. *)
Definition BTF_FUNC : Z := 12.
Definition BTF_TYPEDEF : Z := 8.

(** The arguments of [load]: the kernel's BTF as a function from name and
    kind to an id, and the name given; for an extension the target program's
    descriptor, the descriptor of its BTF ([None]: it has none) and that
    BTF. *)
Inductive target :=
| TNone
| THook (name : list Z) (btf : list Z -> Z -> option Z)
| TProgram (fd : Z) (name : list Z) (btf : option (Z * (list Z -> Z -> option Z))).

(** The type and attach type each kind's [load] asks for. *)
Definition kind_type (k : kind) : Z * option Z :=
  match k with
  | KKProbe _ => (T_KPROBE, None)                                     (* kprobe.rs *)
  | KUProbe _ multi => (T_KPROBE, if multi then Some A_TRACE_UPROBE_MULTI else None)  (* uprobe.rs [load] *)
  | KTracePoint => (T_TRACEPOINT, None)
  | KSocketFilter => (T_SOCKET_FILTER, None)
  | KXdp at_ => (T_XDP, Some at_)
  | KSkMsg => (T_SK_MSG, Some A_SK_MSG_VERDICT)
  | KSkSkb _ => (T_SK_SKB, None)
  | KSockOps => (T_SOCK_OPS, Some A_CGROUP_SOCK_OPS)
  | KSchedClassifier => (T_SCHED_CLS, None)
  | KCgroupSkb at_ => (T_CGROUP_SKB, at_)
  | KCgroupSysctl => (T_CGROUP_SYSCTL, Some A_CGROUP_SYSCTL)
  | KCgroupSockopt at_ => (T_CGROUP_SOCKOPT, Some at_)
  | KLircMode2 => (T_LIRC_MODE2, Some A_LIRC_MODE2)
  | KPerfEvent => (T_PERF_EVENT, None)
  | KRawTracePoint => (T_RAW_TRACEPOINT, None)
  | KLsm => (T_LSM, Some A_LSM_MAC)
  | KLsmCgroup => (T_LSM, Some A_LSM_CGROUP)
  | KBtfTracePoint => (T_TRACING, Some A_TRACE_RAW_TP)
  | KFEntry => (T_TRACING, Some A_TRACE_FENTRY)
  | KFExit => (T_TRACING, Some A_TRACE_FEXIT)
  | KFlowDissector => (T_FLOW_DISSECTOR, Some A_FLOW_DISSECTOR)
  | KExtension => (T_EXT, None)
  | KCgroupSockAddr at_ => (T_CGROUP_SOCK_ADDR, Some at_)
  | KSkLookup => (T_SK_LOOKUP, Some A_SK_LOOKUP)
  | KSkReuseport at_ => (T_SK_REUSEPORT, Some at_)
  | KCgroupSock at_ => (T_CGROUP_SOCK, Some at_)
  | KCgroupDevice => (T_CGROUP_DEVICE, Some A_CGROUP_DEVICE)
  | KIter => (T_TRACING, Some A_TRACE_ITER)
  end.
(** The name looked up in the kernel's BTF: prefix and kind. *)
Definition hook_name (k : kind) : option (list Z * Z) :=
  match k with
  | KLsm | KLsmCgroup => Some (txt "bpf_lsm_", BTF_FUNC)              (* lsm.rs, lsm_cgroup.rs *)
  | KBtfTracePoint => Some (txt "btf_trace_", BTF_TYPEDEF)            (* tp_btf.rs *)
  | KFEntry | KFExit => Some ([], BTF_FUNC)
  | KIter => Some (txt "bpf_iter_", BTF_FUNC)                         (* iter.rs *)
  | _ => None
  end.

(** Each kind's [load].  The target is recorded before [load_program] looks
    at the state (extension.rs 63-68, fentry.rs, lsm.rs and so on). *)
Definition load (k : loader) (running : Z) (p : kind) (t : target) (d : data) : res perr unit * data * list req :=
  let '(ty, eat) := kind_type p in
  match p, hook_name p, t with
  | KExtension, _, TProgram fd name btf =>
      match btf with
      | None => (Err PNoBtf, d, [])
      | Some (btf_fd, lookup) =>
          match lookup name BTF_FUNC with
          | None => (Err PBtf, d, [])
          | Some id => load_program k running ty eat (with_target (Some btf_fd) (Some id) (Some fd) d)
          end
      end
  | _, Some (prefix, bk), THook name lookup =>
      match lookup (prefix ++ name) bk with
      | None => (Err PBtf, d, [])
      | Some id => load_program k running ty eat (with_target (d_btf_obj_fd d) (Some id) (d_prog_fd d) d)
      end
  | _, _, _ => load_program k running ty eat d
  end.

(** [unload_program], programs/mod.rs 659-665, when the links detach. *)
Definition unload (d : data) : res perr unit * data :=
  match d_fd d with Some _ => (Ok tt, with_fd None d) | None => (Err PNotLoaded, d) end.

(** * Attaching *)

(** [CgroupAttachMode], links.rs 44-67. *)
Inductive cmode := CSingle | CAllowOverride | CAllowMultiple.
Definition cmode_flags (m : cmode) : Z := match m with CSingle => 0 | CAllowOverride => 1 | CAllowMultiple => 2 end.

(** The system calls that attach: [bpf_link_create] (sys/bpf.rs 448-521),
    [bpf_prog_attach] (587-610) and [bpf_raw_tracepoint_open] (880-897). *)
Inductive where_ := WFd (fd : Z) | WIfIndex (i : Z) | WNone.
Inductive areq :=
| ALinkCreate (prog : Z) (w : where_) (at_ flags : Z) (btf_id : option Z)
| AProgAttach (prog fd at_ flags : Z)
| ARawTp (prog : Z) (name : option (list Z))
| ASetSockOpt (sock opt value : Z).

(** [SO_ATTACH_BPF], [SO_ATTACH_REUSEPORT_EBPF] of libc. *)
Definition SO_ATTACH_BPF : Z := 50.
Definition SO_ATTACH_REUSEPORT_EBPF : Z := 52.

(** What the caller of [attach] names: a descriptor of a cgroup, map, network
    namespace, device or socket with the mode; an interface; a tracepoint; or
    nothing. *)
Inductive site := SFd (fd : Z) (m : cmode) | SSkb (fd : Z) (at_ : Z) (m : cmode) | SIf (i flags : Z) | STp (name : list Z) | SNone.

(** Each kind's [attach].  [link57]: the kernel is at least 5.7.  Kinds that
    go through perf events, netlink or TCX are modelled elsewhere
    ([ProbeModel], [UProbeModel], [NetlinkModel]); XDP's first attempt, the
    link, is here.  The cgroup kinds and the flow dissector share their code
    up to the attach type. *)
Definition by_cgroup (link57 : bool) (prog fd at_ : Z) (m : cmode) : areq :=
  if link57 then ALinkCreate prog (WFd fd) at_ (cmode_flags m) None else AProgAttach prog fd at_ (cmode_flags m).
Definition attach_req (link57 : bool) (p : kind) (s : site) (d : data) : res perr areq :=
  match d_fd d with
  | None => Err PNotLoaded
  | Some g =>
      match p, s with
      | KSockOps, SFd fd m => Ok (by_cgroup link57 g fd A_CGROUP_SOCK_OPS m)
      | KCgroupSysctl, SFd fd m => Ok (by_cgroup link57 g fd A_CGROUP_SYSCTL m)
      | KCgroupSockopt at_, SFd fd m => Ok (by_cgroup link57 g fd at_ m)
      | KCgroupSock at_, SFd fd m => Ok (by_cgroup link57 g fd at_ m)
      | KCgroupSockAddr at_, SFd fd m => Ok (by_cgroup link57 g fd at_ m)
      | KCgroupDevice, SFd fd m => Ok (by_cgroup link57 g fd A_CGROUP_DEVICE m)
      | KCgroupSkb _, SSkb fd at_ m => Ok (by_cgroup link57 g fd at_ m)
      | KFlowDissector, SFd fd _ => Ok (by_cgroup link57 g fd A_FLOW_DISSECTOR CSingle)
      | KSkLookup, SFd fd _ => Ok (ALinkCreate g (WFd fd) A_SK_LOOKUP 0 None)
      | KLsmCgroup, SFd fd _ => Ok (ALinkCreate g (WFd fd) A_LSM_CGROUP 0 None)
      | KIter, SNone => Ok (ALinkCreate g WNone A_TRACE_ITER 0 None)
      | KSkMsg, SFd fd _ => Ok (AProgAttach g fd A_SK_MSG_VERDICT 0)
      | KSkSkb at_, SFd fd _ => Ok (AProgAttach g fd at_ 0)
      | KLircMode2, SFd fd _ => Ok (AProgAttach g fd A_LIRC_MODE2 0)
      | KSocketFilter, SFd fd _ => Ok (ASetSockOpt fd SO_ATTACH_BPF g)
      | KSkReuseport _, SFd fd _ => Ok (ASetSockOpt fd SO_ATTACH_REUSEPORT_EBPF g)
      | KXdp at_, SIf i flags => Ok (ALinkCreate g (WIfIndex i) at_ flags None)
      | KRawTracePoint, STp name => Ok (ARawTp g (Some name))
      | (KLsm | KBtfTracePoint | KFEntry | KFExit), SNone => Ok (ARawTp g None)
      | KExtension, SNone =>
          match d_prog_fd d, d_btf_id d with
          | Some t, Some id => Ok (ALinkCreate g (WFd t) A_CGROUP_INET_INGRESS 0 (Some id))
          | _, _ => Err PNotLoaded
          end
      | _, _ => Err PNotLoaded
      end
  end.

(** The [BPF_PROG_DETACH] request of the link made by [AProgAttach]:
    [ProgAttachLink::detach] links.rs and [LircLink::detach]; program,
    target, attach type. *)
Definition detach_req (a : areq) : option (Z * Z * Z) :=
  match a with AProgAttach g fd at_ _ => Some (g, fd, at_) | _ => None end.

(** * The kernel's side of cgroup attachment *)

(** How the kernel keeps an attachment to a cgroup (kernel/bpf/cgroup.c).
    [BPF_PROG_ATTACH]: the flags choose.  [BPF_LINK_CREATE]:
    [cgroup_bpf_link_attach] refuses any of the two flags with [EINVAL] and
    attaches as if [BPF_F_ALLOW_MULTI] had been given. *)
Definition EINVAL : Z := 22.
Definition kernel_cgroup (a : areq) : res Z cmode :=
  match a with
  | AProgAttach _ _ _ f => if f =? 0 then Ok CSingle else if f =? 1 then Ok CAllowOverride else if f =? 2 then Ok CAllowMultiple else Err EINVAL
  | ALinkCreate _ _ _ f _ => if Z.land f 3 =? 0 then Ok CAllowMultiple else Err EINVAL
  | _ => Err EINVAL
  end.
