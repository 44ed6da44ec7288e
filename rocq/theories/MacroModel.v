(** Model of the section names the program attribute macros emit:
    /repo/aya-ebpf-macros/src.  Argument parsing is not modelled: a macro is
    given by the arguments it accepted. *)
From Coq Require Import String.
From Verif Require Import Base Text ObjModel.
Local Open Scope Z_scope.

(** The macros and their arguments: kprobe.rs:32-58, uprobe.rs:35-64,
    tracepoint.rs:15-37, btf_tracepoint.rs:15-24, raw_tracepoint.rs:15-24,
    fentry.rs, fexit.rs and lsm.rs:16-27, lsm_cgroup.rs:15-24, xdp.rs:20-42,
    cgroup_skb.rs:13-25, cgroup_sock.rs:13-27, cgroup_sock_addr.rs:13-35,
    cgroup_sockopt.rs:13-23, sk_skb.rs:28-38, sk_reuseport.rs:26-39, and those
    without arguments.  Attach types count in the order of the checks. *)
Inductive macro :=
| MKProbe (ret : bool) (function : option (list Z)) (offset : option Z)
| MUProbe (ret multi sleepable : bool) (target : option (list Z * list Z)) (offset : option Z)
| MTracePoint (name_category : option (list Z * list Z))
| MBtfTracePoint (function : option (list Z))
| MRawTracePoint (tracepoint : option (list Z))
| MFEntry (sleepable : bool) (function : option (list Z))
| MFExit (sleepable : bool) (function : option (list Z))
| MLsm (sleepable : bool) (hook : option (list Z))
| MLsmCgroup (hook : option (list Z))
| MXdp (frags : bool) (map : option bool)
| MCgroupSkb (egress : option bool)
| MCgroupSock (at_ : Z)
| MCgroupSockAddr (at_ : Z)
| MCgroupSockopt (set : bool)
| MCgroupSysctl | MCgroupDevice | MFlowDissector | MPerfEvent | MSkLookup | MSkMsg
| MSkReuseport (migrate : bool)
| MSkSkb (verdict : bool)
| MSockOps | MSocketFilter | MClassifier.

Definition slash (s : list Z) : list Z := 47 :: s.
Definition tail_of (o : option (list Z)) : list Z := match o with Some s => slash s | None => [] end.
Definition plus_offset (o : option Z) : list Z := match o with Some n => 43 :: dec n | None => [] end.
(** [strip_prefix("/").unwrap_or(path)]. *)
Definition strip_slash (s : list Z) : list Z := match s with 47 :: r => r | _ => s end.
Definition sock_names : list (list Z) := [txt "post_bind4"; txt "post_bind6"; txt "sock_create"; txt "sock_release"].
Definition sock_addr_names : list (list Z) :=
  [txt "connect4"; txt "connect6"; txt "bind4"; txt "bind6"; txt "getpeername4"; txt "getpeername6"; txt "getsockname4";
   txt "getsockname6"; txt "sendmsg4"; txt "sendmsg6"; txt "recvmsg4"; txt "recvmsg6"].

(** The emitted [link_section]: kprobe.rs:73-79, uprobe.rs:84-107,
    tracepoint.rs:43-46, btf_tracepoint.rs:33-37, raw_tracepoint.rs:32-36,
    fentry.rs:42-47, fexit.rs:42-47, lsm.rs:42-47, lsm_cgroup.rs:33-38,
    xdp.rs:51-57, cgroup_skb.rs:36-39, cgroup_sock.rs:38, cgroup_sock_addr.rs:46,
    cgroup_sockopt.rs:34, sk_skb.rs:49, sk_reuseport.rs:12-17, the others
    line 30 of their file. *)
Definition macro_section (m : macro) : list Z :=
  match m with
  | MKProbe ret f o =>
      (if ret then txt "kretprobe" else txt "kprobe") ++
      match f with None => [] | Some f => slash f ++ plus_offset o end
  | MUProbe ret multi s t o =>
      (if ret then txt "uretprobe" else txt "uprobe") ++ (if multi then txt ".multi" else []) ++ (if s then txt ".s" else []) ++
      match t with None => [] | Some (path, f) => slash (strip_slash path) ++ [58] ++ f ++ plus_offset o end
  | MTracePoint None => txt "tracepoint"
  | MTracePoint (Some (n, c)) => txt "tracepoint" ++ slash c ++ slash n
  | MBtfTracePoint f => txt "tp_btf" ++ tail_of f
  | MRawTracePoint f => txt "raw_tp" ++ tail_of f
  | MFEntry s f => (if s then txt "fentry.s" else txt "fentry") ++ tail_of f
  | MFExit s f => (if s then txt "fexit.s" else txt "fexit") ++ tail_of f
  | MLsm s f => (if s then txt "lsm.s" else txt "lsm") ++ tail_of f
  | MLsmCgroup f => txt "lsm_cgroup" ++ tail_of f
  | MXdp f mp => (if f then txt "xdp.frags" else txt "xdp") ++
      match mp with None => [] | Some false => slash (txt "cpumap") | Some true => slash (txt "devmap") end
  | MCgroupSkb None => txt "cgroup/skb"
  | MCgroupSkb (Some e) => txt "cgroup_skb" ++ slash (if e then txt "egress" else txt "ingress")
  | MCgroupSock a => txt "cgroup" ++ slash (nth (Z.to_nat a) sock_names [])
  | MCgroupSockAddr a => txt "cgroup" ++ slash (nth (Z.to_nat a) sock_addr_names [])
  | MCgroupSockopt s => txt "cgroup" ++ slash (if s then txt "setsockopt" else txt "getsockopt")
  | MCgroupSysctl => txt "cgroup/sysctl" | MCgroupDevice => txt "cgroup/dev" | MFlowDissector => txt "flow_dissector"
  | MPerfEvent => txt "perf_event" | MSkLookup => txt "sk_lookup" | MSkMsg => txt "sk_msg"
  | MSkReuseport mg => if mg then txt "sk_reuseport/migrate" else txt "sk_reuseport"
  | MSkSkb v => txt "sk_skb" ++ slash (if v then txt "stream_verdict" else txt "stream_parser")
  | MSockOps => txt "sockops" | MSocketFilter => txt "socket" | MClassifier => txt "classifier"
  end.
(** Whether a probe macro takes [ProbeContext] rather than [RetProbeContext],
    kprobe.rs:80-84 and uprobe.rs:109-113: read off the section name. *)
Definition entry_context (m : macro) : bool :=
  match m with
  | MKProbe _ _ _ => starts (txt "kprobe") (macro_section m)
  | MUProbe _ _ _ _ _ => starts (txt "uprobe") (macro_section m)
  | _ => false
  end.
