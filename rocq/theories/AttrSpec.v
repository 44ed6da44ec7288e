(** What is claimed about the attribute macros. *)
From Coq Require Import String.
From Verif Require Import Base Text ObjModel AttrModel.
Local Open Scope Z_scope.

(** Tokens that spell a list of arguments: separated by commas, one more may
    follow the last. *)
Definition spell (x : arg) : list token := match x with AString n v => [TIdent n; TEq; TStr v] | ABool n => [TIdent n] end.
Inductive reads : list token -> list arg -> Prop :=
| r_none : reads [] []
| r_last x : reads (spell x) [x]
| r_more x t l : reads t l -> reads (spell x ++ TComma :: t) (x :: l).

(** The arguments are among those named, none given twice. *)
Definition key (x : arg) : bool * list Z := match x with AString n _ => (true, n) | ABool n => (false, n) end.
Definition only (ss bs : list (list Z)) (l : list arg) : Prop :=
  NoDup (map key l) /\ (forall n v, In (AString n v) l -> In n ss) /\ (forall n, In (ABool n) l -> In n bs).

(** What is given for a name. *)
Definition gives (l : list arg) (n : list Z) (o : option (list Z)) : Prop :=
  match o with Some v => In (AString n v) l | None => forall v, ~ In (AString n v) l end.
Definition flag (l : list arg) (n : list Z) (b : bool) : Prop := if b then In (ABool n) l else ~ In (ABool n) l.

(** A number in decimal below 2^64, perhaps with a plus. *)
Definition number (s : list Z) (n : Z) : Prop :=
  exists ds, (s = ds \/ s = 43 :: ds) /\ ds <> [] /\ Forall (fun c => 48 <= c <= 57) ds /\ dec_val ds = n /\ n < 2 ^ 64.
Definition number_given (s : option (list Z)) (n : option Z) : Prop :=
  match s, n with None, None => True | Some s, Some n => number s n | _, _ => False end.

Definition after (sep : list Z) (o : option (list Z)) : list Z := match o with Some s => sep ++ s | None => [] end.
Definition when (b : bool) (s : list Z) : list Z := if b then s else [].

(** Attributes without arguments: the section and what the loader is to take
    it for. *)
Definition plain_attrs : list (attr * list Z * psec) :=
  [(AtCgroupSkb, txt "cgroup/skb", PCgroupSkb None); (AtCgroupSysctl, txt "cgroup/sysctl", PCgroupSysctl);
   (AtCgroupDevice, txt "cgroup/dev", PCgroupDevice); (AtFlowDissector, txt "flow_dissector", PFlowDissector);
   (AtPerfEvent, txt "perf_event", PPerfEvent); (AtSkLookup, txt "sk_lookup", PSkLookup); (AtSkMsg, txt "sk_msg", PSkMsg);
   (AtSkReuseport, txt "sk_reuseport", PSkReuseport false); (AtStream false, txt "sk_skb/stream_parser", PSkSkb false);
   (AtStream true, txt "sk_skb/stream_verdict", PSkSkb true); (AtSockOps, txt "sockops", PSockOps);
   (AtSocketFilter, txt "socket", PSocket); (AtClassifier, txt "classifier", PClassifier)].

(** Attributes with one word: attach types are numbered as in ObjModel.v. *)
Definition word_attrs : list (attr * list Z * list Z * psec) :=
  [(AtCgroupSkb, txt "ingress", txt "cgroup_skb/ingress", PCgroupSkb (Some false));
   (AtCgroupSkb, txt "egress", txt "cgroup_skb/egress", PCgroupSkb (Some true));
   (AtCgroupSock, txt "sock_create", txt "cgroup/sock_create", PCgroupSock 0);
   (AtCgroupSock, txt "post_bind4", txt "cgroup/post_bind4", PCgroupSock 1);
   (AtCgroupSock, txt "post_bind6", txt "cgroup/post_bind6", PCgroupSock 2);
   (AtCgroupSock, txt "sock_release", txt "cgroup/sock_release", PCgroupSock 3);
   (AtCgroupSockAddr, txt "bind4", txt "cgroup/bind4", PCgroupSockAddr 0);
   (AtCgroupSockAddr, txt "bind6", txt "cgroup/bind6", PCgroupSockAddr 1);
   (AtCgroupSockAddr, txt "connect4", txt "cgroup/connect4", PCgroupSockAddr 2);
   (AtCgroupSockAddr, txt "connect6", txt "cgroup/connect6", PCgroupSockAddr 3);
   (AtCgroupSockAddr, txt "getpeername4", txt "cgroup/getpeername4", PCgroupSockAddr 4);
   (AtCgroupSockAddr, txt "getpeername6", txt "cgroup/getpeername6", PCgroupSockAddr 5);
   (AtCgroupSockAddr, txt "getsockname4", txt "cgroup/getsockname4", PCgroupSockAddr 6);
   (AtCgroupSockAddr, txt "getsockname6", txt "cgroup/getsockname6", PCgroupSockAddr 7);
   (AtCgroupSockAddr, txt "sendmsg4", txt "cgroup/sendmsg4", PCgroupSockAddr 8);
   (AtCgroupSockAddr, txt "sendmsg6", txt "cgroup/sendmsg6", PCgroupSockAddr 9);
   (AtCgroupSockAddr, txt "recvmsg4", txt "cgroup/recvmsg4", PCgroupSockAddr 10);
   (AtCgroupSockAddr, txt "recvmsg6", txt "cgroup/recvmsg6", PCgroupSockAddr 11);
   (AtCgroupSockopt, txt "getsockopt", txt "cgroup/getsockopt", PCgroupSockopt false);
   (AtCgroupSockopt, txt "setsockopt", txt "cgroup/setsockopt", PCgroupSockopt true);
   (AtSkReuseport, txt "migrate", txt "sk_reuseport/migrate", PSkReuseport true)].

(** Attributes with one optional string: its name, the section before the
    slash and the kind; the second list also takes "sleepable". *)
Definition string_attrs : list (attr * list Z * list Z * psec) :=
  [(AtBtfTracePoint, txt "function", txt "tp_btf", PTpBtf); (AtRawTracePoint, txt "tracepoint", txt "raw_tp", PRawTp);
   (AtLsmCgroup, txt "hook", txt "lsm_cgroup", PLsmCgroup)].
Definition sleepable_attrs : list (attr * list Z * list Z * (bool -> psec)) :=
  [(AtFEntry, txt "function", txt "fentry", PFEntry); (AtFExit, txt "function", txt "fexit", PFExit); (AtLsm, txt "hook", txt "lsm", PLsm)].

(** What an attribute with these tokens asks for: section and kind. *)
Inductive means : attr -> list token -> list Z -> psec -> Prop :=
| m_plain a s k : In (a, s, k) plain_attrs -> means a [] s k
| m_word a w s k : In (a, w, s, k) word_attrs -> means a [TIdent w] s k
| m_string a t l n s k v : In (a, n, s, k) string_attrs -> reads t l -> only [n] [] l -> gives l n v -> means a t (s ++ after (txt "/") v) k
| m_sleepable a t l n s k v b : In (a, n, s, k) sleepable_attrs -> reads t l -> only [n] [txt "sleepable"] l -> gives l n v -> flag l (txt "sleepable") b ->
    means a t (s ++ when b (txt ".s") ++ after (txt "/") v) (k b)
| m_tracepoint t l : reads t l -> l = [] -> means AtTracePoint t (txt "tracepoint") PTracePoint
| m_tracepoint_name t l n c : reads t l -> only [txt "name"; txt "category"] [] l -> gives l (txt "name") (Some n) -> gives l (txt "category") (Some c) ->
    means AtTracePoint t (txt "tracepoint/" ++ c ++ txt "/" ++ n) PTracePoint
| m_xdp t l b : reads t l -> only [] [txt "frags"] l -> flag l (txt "frags") b -> means AtXdp t (txt "xdp" ++ when b (txt ".frags")) (PXdp b 0)
| m_xdp_map t l b v i : reads t l -> only [txt "map"] [txt "frags"] l -> flag l (txt "frags") b -> gives l (txt "map") (Some v) ->
    In (v, i) [(txt "cpumap", 1); (txt "devmap", 2)] -> means AtXdp t (txt "xdp" ++ when b (txt ".frags") ++ txt "/" ++ v) (PXdp b i)
| m_kprobe (ret : bool) t l o n : reads t l -> only [txt "offset"] [] l -> gives l (txt "offset") o -> number_given o n ->
    means (AtKProbe ret) t (if ret then txt "kretprobe" else txt "kprobe") (if ret then PKRetProbe else PKProbe)
| m_kprobe_at (ret : bool) t l f o n : reads t l -> only [txt "function"; txt "offset"] [] l -> gives l (txt "function") (Some f) ->
    gives l (txt "offset") o -> number_given o n ->
    means (AtKProbe ret) t ((if ret then txt "kretprobe/" else txt "kprobe/") ++ f ++ after (txt "+") (option_map dec n)) (if ret then PKRetProbe else PKProbe)
| m_uprobe (ret : bool) t l o n s m : reads t l -> only [txt "function"; txt "offset"] [txt "sleepable"; txt "multi"] l ->
    gives l (txt "offset") o -> number_given o n -> flag l (txt "sleepable") s -> flag l (txt "multi") m ->
    means (AtUProbe ret) t ((if ret then txt "uretprobe" else txt "uprobe") ++ when m (txt ".multi") ++ when s (txt ".s"))
      (if ret then PURetProbe s m else PUProbe s m)
| m_uprobe_at (ret : bool) t l p p' f o n s m : reads t l -> only [txt "path"; txt "function"; txt "offset"] [txt "sleepable"; txt "multi"] l ->
    gives l (txt "path") (Some p) -> (p = 47 :: p' \/ (p = p' /\ forall q, p <> 47 :: q)) -> gives l (txt "function") (Some f) ->
    gives l (txt "offset") o -> number_given o n -> flag l (txt "sleepable") s -> flag l (txt "multi") m ->
    means (AtUProbe ret) t ((if ret then txt "uretprobe" else txt "uprobe") ++ when m (txt ".multi") ++ when s (txt ".s") ++
                            txt "/" ++ p' ++ txt ":" ++ f ++ after (txt "+") (option_map dec n))
      (if ret then PURetProbe s m else PUProbe s m).

(** What the kernel passes to programs of a kind, where it is a struct of its
    interface ([c_void] is what the macros use for anything else), the context
    that wraps it, and whether the kernel acts on what the program returns. *)
Definition kernel_side (k : psec) : list Z * list Z * bool :=
  match k with
  | PKProbe | PUProbe _ _ => (txt "c_void", txt "ProbeContext", false)
  | PKRetProbe | PURetProbe _ _ => (txt "c_void", txt "RetProbeContext", false)
  | PTracePoint => (txt "c_void", txt "TracePointContext", false)
  | PTpBtf => (txt "c_void", txt "BtfTracePointContext", false)
  | PRawTp => (txt "c_void", txt "RawTracePointContext", false)
  | PFEntry _ => (txt "c_void", txt "FEntryContext", false)
  | PFExit _ => (txt "c_void", txt "FExitContext", false)
  | PPerfEvent => (txt "c_void", txt "PerfEventContext", false)
  | PLsm _ | PLsmCgroup => (txt "c_void", txt "LsmContext", true)
  | PXdp _ _ => (txt "xdp_md", txt "XdpContext", true)
  | PClassifier => (txt "__sk_buff", txt "TcContext", true)
  | PSocket | PCgroupSkb _ | PSkSkb _ => (txt "__sk_buff", txt "SkBuffContext", true)
  | PFlowDissector => (txt "__sk_buff", txt "FlowDissectorContext", true)
  | PCgroupSock _ => (txt "bpf_sock", txt "SockContext", true)
  | PCgroupSockAddr _ => (txt "bpf_sock_addr", txt "SockAddrContext", true)
  | PCgroupSockopt _ => (txt "bpf_sockopt", txt "SockoptContext", true)
  | PCgroupSysctl => (txt "bpf_sysctl", txt "SysctlContext", true)
  | PCgroupDevice => (txt "bpf_cgroup_dev_ctx", txt "DeviceContext", true)
  | PSkMsg => (txt "sk_msg_md", txt "SkMsgContext", true)
  | PSockOps => (txt "bpf_sock_ops", txt "SockOpsContext", true)
  | PSkLookup => (txt "bpf_sk_lookup", txt "SkLookupContext", true)
  | PSkReuseport _ => (txt "sk_reuseport_md", txt "SkReuseportContext", true)
  | PLirc | PExtension | PIter _ => ([], [], false)
  end.

(** The type a function under an attribute returns, of at least the 32 bits
    the kernel reads. *)
Definition result_type (a : attr) : list Z :=
  match a with
  | AtKProbe _ | AtUProbe _ | AtTracePoint | AtRawTracePoint | AtPerfEvent | AtXdp | AtFlowDissector | AtSkLookup | AtSkMsg | AtSkReuseport
  | AtStream _ | AtSockOps => txt "u32"
  | AtSocketFilter => txt "i64"
  | _ => txt "i32"
  end.

(** A program that is what attribute [a] asks for on a function [name]: under
    its name, in the section, taking what the kernel passes, and for every
    function of the user returning its result if the kernel acts on it and 0
    otherwise. *)
Definition suits (a : attr) (name s : list Z) (k : psec) (o : emitted) : Prop :=
  o_name o = name /\ o_section o = s /\ o_pointer o = fst (fst (kernel_side k)) /\ o_context o = snd (fst (kernel_side k)) /\
  o_type o = result_type a /\
  forall (f : list Z -> Z -> Z) ctx, program o f ctx = if snd (kernel_side k) then f (snd (fst (kernel_side k))) ctx else 0.

(** Attributes that take a list of arguments. *)
Definition takes_arguments (a : attr) : bool :=
  match a with
  | AtMap | AtBtfMap | AtKProbe _ | AtUProbe _ | AtTracePoint | AtBtfTracePoint | AtRawTracePoint | AtFEntry | AtFExit | AtLsm | AtLsmCgroup | AtXdp => true
  | _ => false
  end.
