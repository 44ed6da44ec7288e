(** The attribute macros for programs and maps, from the tokens between their
    parentheses to the item they expand to: /repo/aya-ebpf-macros/src, all
    files. Section names are [macro_section] of MacroModel.v, the only part
    covered there. *)
From Coq Require Import String.
From Verif Require Import Base Text TextParse ObjModel MacroModel.
Local Open Scope Z_scope.

(** Tokens: identifiers, which exclude keywords as syn's do, the two
    separators, string literals by their value, and everything else. *)
Inductive token := TIdent (s : list Z) | TComma | TEq | TStr (v : list Z) | TOther.

(** What the attribute is on, as far as it matters: a function or a static,
    with its name, or something syn parses as neither. *)
Inductive item := ItFn (name : list Z) | ItStatic (name : list Z) | ItOther.

(** The compile errors: of syn, with the names left over (args.rs 77-96), and
    those of the macros. *)
Inductive aerr :=
| ESyntax | EItem | EInvalid (names : list (list Z)) | EOffset | EXdpMap (value : list Z) | ETracePoint | EFunction
| EMissing | EAttachType | EUnexpected.

(** Args::parse (args.rs 18-56): idents and name = "value", separated by
    commas, one may follow the last. *)
Inductive arg := AString (name value : list Z) | ABool (name : list Z).
Fixpoint parse_list (t : list token) : option (list arg) :=
  match t with
  | [] => Some []
  | TIdent n :: r =>
      match r with
      | [] => Some [ABool n]
      | TComma :: r => option_map (cons (ABool n)) (parse_list r)
      | TEq :: TStr v :: r =>
          match r with
          | [] => Some [AString n v]
          | TComma :: r => option_map (cons (AString n v)) (parse_list r)
          | _ => None
          end
      | _ => None
      end
  | _ => None
  end.
Record args := { strings : list (list Z * list Z); bools : list (list Z) }.
Definition sort (l : list arg) : args :=
  {| strings := flat_map (fun x => match x with AString n v => [(n, v)] | ABool _ => [] end) l;
     bools := flat_map (fun x => match x with AString _ _ => [] | ABool n => [n] end) l |}.
Definition parse_args (t : list token) : res aerr args := match parse_list t with Some l => Ok (sort l) | None => Err ESyntax end.

(** Vec::swap_remove: the last element takes the place of the removed one. *)
Definition swap_remove {A} (i : nat) (l : list A) : list A :=
  match rev l with
  | [] => []
  | x :: r => if (i =? length r)%nat then rev r else upd i x (rev r)
  end.
Fixpoint position {A} (f : A -> bool) (l : list A) : option nat :=
  match l with [] => None | x :: r => if f x then Some 0%nat else option_map S (position f r) end.

(** pop_string and pop_bool (args.rs 59-75). *)
Definition pop_string (n : list Z) (a : args) : option (list Z) * args :=
  match position (fun p => str_eqb (fst p) n) (strings a) with
  | Some i => (option_map snd (nth_error (strings a) i), {| strings := swap_remove i (strings a); bools := bools a |})
  | None => (None, a)
  end.
Definition pop_bool (n : list Z) (a : args) : bool * args :=
  match position (fun x => str_eqb x n) (bools a) with
  | Some i => (true, {| strings := strings a; bools := swap_remove i (bools a) |})
  | None => (false, a)
  end.
(** into_error (args.rs 77-96). *)
Definition into_error (a : args) : res aerr unit :=
  match map fst (strings a) ++ bools a with [] => Ok tt | l => Err (EInvalid l) end.

(** The attributes (lib.rs). *)
Inductive attr :=
| AtMap | AtBtfMap | AtKProbe (ret : bool) | AtUProbe (ret : bool) | AtTracePoint | AtBtfTracePoint | AtRawTracePoint | AtFEntry | AtFExit | AtLsm
| AtLsmCgroup | AtXdp | AtCgroupSkb | AtCgroupSock | AtCgroupSockAddr | AtCgroupSockopt | AtCgroupSysctl | AtCgroupDevice
| AtFlowDissector | AtPerfEvent | AtSkLookup | AtSkMsg | AtSkReuseport | AtStream (verdict : bool) | AtSockOps | AtSocketFilter | AtClassifier.

Definition item_fn (it : item) : res aerr (list Z) := match it with ItFn n => Ok n | _ => Err EItem end.
Definition item_static (it : item) : res aerr (list Z) := match it with ItStatic n => Ok n | _ => Err EItem end.

(** The offset of probes: kprobe.rs 40-48, uprobe.rs 45-53; str::parse for
    u64. *)
Definition offset (o : option (list Z)) : res aerr (option Z) :=
  match o with None => Ok None | Some s => match dec_u64 s with Some n => Ok (Some n) | None => Err EOffset end end.

(** syn::parse2::<Ident>. *)
Definition one_ident (t : list token) : res aerr (list Z) := match t with [TIdent n] => Ok n | _ => Err ESyntax end.
Fixpoint index (n : list Z) (l : list (list Z)) : option nat :=
  match l with [] => None | x :: r => if str_eqb n x then Some 0%nat else option_map S (index n r) end.

(** The parse functions: kprobe.rs 32-58, uprobe.rs 35-64, tracepoint.rs
    15-37, btf_tracepoint.rs 15-24, raw_tracepoint.rs 15-24, fentry.rs,
    fexit.rs and lsm.rs 16-27, lsm_cgroup.rs 15-24, xdp.rs 20-42,
    cgroup_skb.rs 13-25, cgroup_sock.rs 13-27, cgroup_sock_addr.rs 13-35,
    cgroup_sockopt.rs 13-23, sk_skb.rs 28-38, sk_reuseport.rs 26-39, and
    those without arguments. The check for the function of a uprobe is in
    expand (uprobe.rs 98-101), which follows at once. The name of the function
    comes along. *)
Definition one_string (n : list Z) (mk : option (list Z) -> macro) (t : list token) (it : item) : res aerr (list Z * macro) :=
  bind (item_fn it) (fun name => bind (parse_args t) (fun a =>
  let '(s, a) := pop_string n a in
  bind (into_error a) (fun _ => Ok (name, mk s)))).
Definition string_sleepable (n : list Z) (mk : bool -> option (list Z) -> macro) (t : list token) (it : item) : res aerr (list Z * macro) :=
  bind (item_fn it) (fun name => bind (parse_args t) (fun a =>
  let '(s, a) := pop_string n a in
  let '(b, a) := pop_bool (txt "sleepable") a in
  bind (into_error a) (fun _ => Ok (name, mk b s)))).
Definition no_argument (m : macro) (t : list token) (it : item) : res aerr (list Z * macro) :=
  match t with [] => bind (item_fn it) (fun name => Ok (name, m)) | _ => Err EUnexpected end.
Definition attach_type (names : list (list Z)) (mk : Z -> macro) (t : list token) (it : item) : res aerr (list Z * macro) :=
  match t with
  | [] => Err EMissing
  | _ => bind (item_fn it) (fun name => bind (one_ident t) (fun w =>
         match index w names with Some i => Ok (name, mk (Z.of_nat i)) | None => Err EAttachType end))
  end.

Definition parse_program (a : attr) (t : list token) (it : item) : res aerr (list Z * macro) :=
  match a with
  | AtMap | AtBtfMap => Err EItem
  | AtKProbe ret =>
      bind (item_fn it) (fun name => bind (parse_args t) (fun a =>
      let '(f, a) := pop_string (txt "function") a in
      let '(o, a) := pop_string (txt "offset") a in
      bind (offset o) (fun o => bind (into_error a) (fun _ => Ok (name, MKProbe ret f o)))))
  | AtUProbe ret =>
      bind (item_fn it) (fun name => bind (parse_args t) (fun a =>
      let '(p, a) := pop_string (txt "path") a in
      let '(f, a) := pop_string (txt "function") a in
      let '(o, a) := pop_string (txt "offset") a in
      bind (offset o) (fun o =>
      let '(s, a) := pop_bool (txt "sleepable") a in
      let '(m, a) := pop_bool (txt "multi") a in
      bind (into_error a) (fun _ =>
      match p with
      | None => Ok (name, MUProbe ret m s None o)
      | Some p => match f with Some f => Ok (name, MUProbe ret m s (Some (p, f)) o) | None => Err EFunction end
      end))))
  | AtTracePoint =>
      bind (item_fn it) (fun name => bind (parse_args t) (fun a =>
      let '(n, a) := pop_string (txt "name") a in
      let '(c, a) := pop_string (txt "category") a in
      bind (into_error a) (fun _ =>
      match n, c with
      | None, None => Ok (name, MTracePoint None)
      | Some n, Some c => Ok (name, MTracePoint (Some (n, c)))
      | _, _ => Err ETracePoint
      end)))
  | AtBtfTracePoint => one_string (txt "function") MBtfTracePoint t it
  | AtRawTracePoint => one_string (txt "tracepoint") MRawTracePoint t it
  | AtFEntry => string_sleepable (txt "function") MFEntry t it
  | AtFExit => string_sleepable (txt "function") MFExit t it
  | AtLsm => string_sleepable (txt "hook") MLsm t it
  | AtLsmCgroup => one_string (txt "hook") MLsmCgroup t it
  | AtXdp =>
      bind (item_fn it) (fun name => bind (parse_args t) (fun a =>
      let '(fr, a) := pop_bool (txt "frags") a in
      let '(m, a) := pop_string (txt "map") a in
      bind (match m with
            | None => Ok None
            | Some v => if str_eqb v (txt "cpumap") then Ok (Some false) else if str_eqb v (txt "devmap") then Ok (Some true) else Err (EXdpMap v)
            end) (fun m =>
      bind (into_error a) (fun _ => Ok (name, MXdp fr m)))))
  | AtCgroupSkb =>
      bind (item_fn it) (fun name =>
      match t with
      | [] => Ok (name, MCgroupSkb None)
      | _ => bind (one_ident t) (fun w =>
             if str_eqb w (txt "ingress") then Ok (name, MCgroupSkb (Some false))
             else if str_eqb w (txt "egress") then Ok (name, MCgroupSkb (Some true)) else Err EAttachType)
      end)
  | AtCgroupSock => attach_type sock_names MCgroupSock t it
  | AtCgroupSockAddr => attach_type sock_addr_names MCgroupSockAddr t it
  | AtCgroupSockopt => attach_type [txt "getsockopt"; txt "setsockopt"] (fun i => MCgroupSockopt (i =? 1)) t it
  | AtCgroupSysctl => no_argument MCgroupSysctl t it
  | AtCgroupDevice => no_argument MCgroupDevice t it
  | AtFlowDissector => no_argument MFlowDissector t it
  | AtPerfEvent => no_argument MPerfEvent t it
  | AtSkLookup => no_argument MSkLookup t it
  | AtSkMsg => no_argument MSkMsg t it
  | AtSkReuseport =>
      bind (match t with
            | [] => Ok false
            | _ => bind (one_ident t) (fun w => if str_eqb w (txt "migrate") then Ok true else Err EUnexpected)
            end) (fun mg => bind (item_fn it) (fun name => Ok (name, MSkReuseport mg)))
  | AtStream v => no_argument (MSkSkb v) t it
  | AtSockOps => no_argument MSockOps t it
  | AtSocketFilter => no_argument MSocketFilter t it
  | AtClassifier => no_argument MClassifier t it
  end.

(** Map::parse and BtfMap::parse (map.rs, btf_map.rs 15-23): the name given or
    that of the static. *)
Definition parse_map (t : list token) (it : item) : res aerr (list Z) :=
  bind (item_static it) (fun ident => bind (parse_args t) (fun a =>
  let '(n, a) := pop_string (txt "name") a in
  let name := match n with Some n => n | None => ident end in
  bind (into_error a) (fun _ => Ok name))).

(** What is emitted. A program: the function's name, its section, the struct
    its parameter points to, the context made of that, the type it returns,
    and whether it returns what the user's function does, or 0. A map: section
    and symbol. *)
Record emitted := { o_name : list Z; o_section : list Z; o_pointer : list Z; o_context : list Z; o_type : list Z; o_returns : bool }.
Inductive output := OProgram (o : emitted) | OMap (section symbol : list Z).

(** The expand functions: the quoted text at the end of each file. *)
Definition shape (m : macro) : list Z * list Z * list Z * bool :=
  match m with
  | MKProbe _ _ _ | MUProbe _ _ _ _ _ => (txt "c_void", if entry_context m then txt "ProbeContext" else txt "RetProbeContext", txt "u32", false)
  | MTracePoint _ => (txt "c_void", txt "TracePointContext", txt "u32", false)
  | MBtfTracePoint _ => (txt "c_void", txt "BtfTracePointContext", txt "i32", false)
  | MRawTracePoint _ => (txt "c_void", txt "RawTracePointContext", txt "u32", false)
  | MFEntry _ _ => (txt "c_void", txt "FEntryContext", txt "i32", false)
  | MFExit _ _ => (txt "c_void", txt "FExitContext", txt "i32", false)
  | MLsm _ _ | MLsmCgroup _ => (txt "c_void", txt "LsmContext", txt "i32", true)
  | MXdp _ _ => (txt "xdp_md", txt "XdpContext", txt "u32", true)
  | MCgroupSkb _ => (txt "__sk_buff", txt "SkBuffContext", txt "i32", true)
  | MCgroupSock _ => (txt "bpf_sock", txt "SockContext", txt "i32", true)
  | MCgroupSockAddr _ => (txt "bpf_sock_addr", txt "SockAddrContext", txt "i32", true)
  | MCgroupSockopt _ => (txt "bpf_sockopt", txt "SockoptContext", txt "i32", true)
  | MCgroupSysctl => (txt "bpf_sysctl", txt "SysctlContext", txt "i32", true)
  | MCgroupDevice => (txt "bpf_cgroup_dev_ctx", txt "DeviceContext", txt "i32", true)
  | MFlowDissector => (txt "__sk_buff", txt "FlowDissectorContext", txt "u32", true)
  | MPerfEvent => (txt "c_void", txt "PerfEventContext", txt "u32", false)
  | MSkLookup => (txt "bpf_sk_lookup", txt "SkLookupContext", txt "u32", true)
  | MSkMsg => (txt "sk_msg_md", txt "SkMsgContext", txt "u32", true)
  | MSkReuseport _ => (txt "sk_reuseport_md", txt "SkReuseportContext", txt "u32", true)
  | MSkSkb _ => (txt "__sk_buff", txt "SkBuffContext", txt "u32", true)
  | MSockOps => (txt "bpf_sock_ops", txt "SockOpsContext", txt "u32", true)
  | MSocketFilter => (txt "__sk_buff", txt "SkBuffContext", txt "i64", true)
  | MClassifier => (txt "__sk_buff", txt "TcContext", txt "i32", true)
  end.
Definition expand_program (name : list Z) (m : macro) : emitted :=
  let '(p, c, t, r) := shape m in
  {| o_name := name; o_section := macro_section m; o_pointer := p; o_context := c; o_type := t; o_returns := r |}.

Definition expand (a : attr) (t : list token) (it : item) : res aerr output :=
  match a with
  | AtMap => bind (parse_map t it) (fun n => Ok (OMap (txt "maps") n))
  | AtBtfMap => bind (parse_map t it) (fun n => Ok (OMap (txt ".maps") n))
  | _ => bind (parse_program a t it) (fun x => Ok (OProgram (expand_program (fst x) (snd x))))
  end.

(** Running a program: the user's function is called on the context made of
    the kernel's pointer. *)
Definition program (o : emitted) (f : list Z -> Z -> Z) (ctx : Z) : Z :=
  let r := f (o_context o) ctx in if o_returns o then r else 0.
