(** What loading and attaching programs should do. *)
From Coq Require Import String.
From Verif Require Import Base Text ObjModel ProgModel.
Local Open Scope Z_scope.

(** * Section names *)

(** The kernel's meaning of the section names, after libbpf's table
    (Documentation/bpf/libbpf/program_types.rst) where it has the name.
    [r_more]: a name may follow.  [r_hook]: what the program hooks is named by
    a BTF type of this kind (12: function, 8: typedef) and name prefix. *)
Record row := { r_name : list Z; r_more : bool; r_type : Z; r_attach : option Z; r_flags : Z; r_hook : option (list Z * Z) }.
Definition named (n : string) ty a fl : row := {| r_name := txt n; r_more := true; r_type := ty; r_attach := a; r_flags := fl; r_hook := None |}.
Definition bare (n : string) ty a fl : row := {| r_name := txt n; r_more := false; r_type := ty; r_attach := a; r_flags := fl; r_hook := None |}.
Definition hook (n : string) ty a fl (prefix : string) bk : row :=
  {| r_name := txt n; r_more := true; r_type := ty; r_attach := Some a; r_flags := fl; r_hook := Some (txt prefix, bk) |}.
Definition table : list row := [
  named "kprobe" 2 None 0; named "kretprobe" 2 None 0;
  named "uprobe" 2 None 0; named "uprobe.s" 2 None 16; named "uprobe.multi" 2 (Some 48) 0; named "uprobe.multi.s" 2 (Some 48) 16;
  named "uretprobe" 2 None 0; named "uretprobe.s" 2 None 16; named "uretprobe.multi" 2 (Some 48) 0; named "uretprobe.multi.s" 2 (Some 48) 16;
  bare "xdp" 6 (Some 37) 0; named "xdp/cpumap" 6 (Some 35) 0; named "xdp/devmap" 6 (Some 33) 0;
  bare "xdp.frags" 6 (Some 37) 32; named "xdp.frags/cpumap" 6 (Some 35) 32; named "xdp.frags/devmap" 6 (Some 33) 32;
  named "tracepoint" 5 None 0; named "tp" 5 None 0; named "raw_tracepoint" 17 None 0; named "raw_tp" 17 None 0;
  named "socket" 1 None 0; named "sk_msg" 16 (Some 7) 0; named "sk_skb/stream_parser" 14 None 0; named "sk_skb/stream_verdict" 14 None 0;
  named "sockops" 13 (Some 3) 0; named "classifier" 3 None 0;
  named "cgroup/skb" 8 None 0; named "cgroup_skb/ingress" 8 (Some 0) 0; named "cgroup_skb/egress" 8 (Some 1) 0;
  named "cgroup/sysctl" 23 (Some 18) 0; named "cgroup/dev" 15 (Some 6) 0;
  named "cgroup/getsockopt" 25 (Some 21) 0; named "cgroup/setsockopt" 25 (Some 22) 0;
  named "cgroup/sock_create" 9 (Some 2) 0; named "cgroup/sock" 9 (Some 2) 0; named "cgroup/sock_release" 9 (Some 34) 0;
  named "cgroup/post_bind4" 9 (Some 12) 0; named "cgroup/post_bind6" 9 (Some 13) 0;
  named "cgroup/bind4" 18 (Some 8) 0; named "cgroup/bind6" 18 (Some 9) 0; named "cgroup/connect4" 18 (Some 10) 0; named "cgroup/connect6" 18 (Some 11) 0;
  named "cgroup/getpeername4" 18 (Some 29) 0; named "cgroup/getpeername6" 18 (Some 30) 0;
  named "cgroup/getsockname4" 18 (Some 31) 0; named "cgroup/getsockname6" 18 (Some 32) 0;
  named "cgroup/sendmsg4" 18 (Some 14) 0; named "cgroup/sendmsg6" 18 (Some 15) 0; named "cgroup/recvmsg4" 18 (Some 19) 0; named "cgroup/recvmsg6" 18 (Some 20) 0;
  named "lirc_mode2" 20 (Some 16) 0; named "perf_event" 7 None 0; named "flow_dissector" 22 (Some 17) 0; named "freplace" 28 None 0;
  named "sk_lookup" 30 (Some 36) 0; bare "sk_reuseport" 21 (Some 39) 0; named "sk_reuseport/migrate" 21 (Some 40) 0;
  hook "lsm" 29 27 0 "bpf_lsm_" 12; hook "lsm.s" 29 27 16 "bpf_lsm_" 12; hook "lsm_cgroup" 29 43 0 "bpf_lsm_" 12;
  hook "tp_btf" 26 23 0 "btf_trace_" 8;
  hook "fentry" 26 24 0 "" 12; hook "fentry.s" 26 24 16 "" 12; hook "fexit" 26 25 0 "" 12; hook "fexit.s" 26 25 16 "" 12;
  hook "iter" 26 28 0 "bpf_iter_" 12; hook "iter.s" 26 28 16 "bpf_iter_" 12 ].
Definition matches (r : row) (s : list Z) : Prop := s = r_name r \/ r_more r = true /\ exists t, s = r_name r ++ 47 :: t.

(** The requests that a fresh program of section kind [ps] makes when it is
    loaded with target [t]. *)
Definition requests (k : loader) (running : Z) (ext : bool) (ps : psec) (t : target) (name : option (list Z)) (o : object) (btf : option Z) (level : Z)
  : list req :=
  let (p, fl) := of_section ext ps in snd (load k running p t (data_new name o btf level fl)).

(** The request a row stands for. *)
Definition asked (r : row) (t : target) (q : req) : Prop :=
  q_type q = r_type r /\ q_attach q = match r_attach r with Some a => a | None => 0 end /\ q_flags q = r_flags r /\
  match r_hook r, t with
  | Some (prefix, bk), THook n lookup => lookup (prefix ++ n) bk = Some (q_btf_id q) /\ q_target q = 0
  | _, _ => True
  end.
(** * Requests *)

(** The kernel writes the log only where it is told to. *)
Definition honest (k : loader) : Prop :=
  forall i q, length (snd (k i q)) = match q_log q with Some b => length b | None => 0%nat end.

(** The name is cut to fifteen bytes and ends with a zero byte. *)
Definition name_ok (name : option (list Z)) (f : list Z) : Prop :=
  length f = 16%nat /\ forall i, nth i f 0 = if (i <? 15)%nat then match name with Some n => nth i n 0 | None => 0 end else 0.
(** What a request for the program [d] with code [o] says apart from type,
    target and log. *)
Definition own (running : Z) (d : data) (o : object) (q : req) : Prop :=
  name_ok (d_name d) (q_name q) /\ q_flags q = d_flags d /\
  q_insns q = Some (ob_insns o) /\ (Z.of_nat (length (ob_insns o)) < 2 ^ 32 -> q_insn_cnt q = Z.of_nat (length (ob_insns o))) /\
  q_license q = Some (ob_license o) /\
  (match ob_version o with Some v => q_version q = v | None => q_version q = running end) /\
  match d_btf_fd d with
  | Some b => q_btf_fd q = b
  | None => q_btf_fd q = 0 /\ q_func q = None /\ q_line q = None /\ q_func_cnt q = 0 /\ q_line_cnt q = 0
  end /\
  match q_log q with
  | None => q_log_size q = 0 /\ q_level q = 0
  | Some b => q_level q = d_level d /\ (Z.of_nat (length b) < 2 ^ 32 -> q_log_size q = Z.of_nat (length b))
  end.
(** Two requests are the same but for the log. *)
Definition same_but_log (q q' : req) : Prop :=
  exists lv lg ls, q' = {| q_name := q_name q; q_flags := q_flags q; q_type := q_type q; q_attach := q_attach q; q_insns := q_insns q;
    q_insn_cnt := q_insn_cnt q; q_license := q_license q; q_version := q_version q; q_btf_fd := q_btf_fd q; q_func := q_func q;
    q_func_cnt := q_func_cnt q; q_func_rec := q_func_rec q; q_line := q_line q; q_line_cnt := q_line_cnt q; q_line_rec := q_line_rec q;
    q_level := lv; q_log := lg; q_log_size := ls; q_target := q_target q; q_btf_id := q_btf_id q |}.

(** The kernel reads [cnt] records of [rec] bytes: all of them lie in the
    memory the pointer is to. *)
Definition region (p : ptr) (cnt rec : Z) : Prop :=
  match p with None => cnt = 0 | Some m => cnt * rec <= Z.of_nat (length m) end.
Definition infos_ok (q : req) : Prop := region (q_func q) (q_func_cnt q) (q_func_rec q) /\ region (q_line q) (q_line_cnt q) (q_line_rec q).

(** The target given to [load] is of the right sort and exists. *)
Definition found (p : kind) (t : target) : Prop :=
  match t with
  | TNone => hook_name p = None /\ p <> KExtension
  | THook n lookup => exists prefix bk id, hook_name p = Some (prefix, bk) /\ lookup (prefix ++ n) bk = Some id
  | TProgram fd n btf => p = KExtension /\ exists bfd lookup id, btf = Some (bfd, lookup) /\ lookup n 12 = Some id
  end.

(** * Attaching *)

Definition areq_prog (a : areq) : Z :=
  match a with ALinkCreate g _ _ _ _ => g | AProgAttach g _ _ _ => g | ARawTp g _ => g | ASetSockOpt _ _ g => g end.
Definition areq_type (a : areq) : option Z :=
  match a with ALinkCreate _ _ t _ _ => Some t | AProgAttach _ _ t _ => Some t | _ => None end.
Definition areq_fd (a : areq) : option Z :=
  match a with ALinkCreate _ (WFd f) _ _ _ => Some f | AProgAttach _ f _ _ => Some f | ASetSockOpt f _ _ => Some f | _ => None end.
Definition site_fd (s : site) : option Z := match s with SFd f _ => Some f | SSkb f _ _ => Some f | _ => None end.

(** The kinds that attach to a cgroup in a mode the caller chooses. *)
Definition cgroup_kind (p : kind) : bool :=
  match p with
  | KSockOps | KCgroupSysctl | KCgroupSockopt _ | KCgroupSock _ | KCgroupSockAddr _ | KCgroupDevice | KCgroupSkb _ => true
  | _ => false
  end.
Definition site_mode (s : site) : option cmode := match s with SFd _ m => Some m | SSkb _ _ m => Some m | _ => None end.

(** The attach type of the rows that are loaded without one.  An extension
    takes the place of a function, which has none: zero. *)
Definition late : list (list Z * Z) := [(txt "sk_skb/stream_parser", 4); (txt "sk_skb/stream_verdict", 5); (txt "freplace", 0)].
(** The attach type a program of the row is attached with: the one it was
    loaded with; [cgroup_skb] programs leave it to the caller. *)
Definition attach_type_ok (r : row) (s : site) (t : Z) : Prop :=
  match s with
  | SSkb _ at_ _ => t = at_ /\ r_type r = 8
  | _ => r_attach r = Some t \/ r_attach r = None /\ In (r_name r, t) late
  end.

(** What the attach points that are not descriptors, and the two socket
    options, ask for: [SO_ATTACH_BPF] is 50, [SO_ATTACH_REUSEPORT_EBPF] 52. *)
Definition call_ok (ty : Z) (s : site) (a : areq) : Prop :=
  match s with
  | SIf i flags => exists g t, a = ALinkCreate g (WIfIndex i) t flags None
  | STp name => exists g, a = ARawTp g (Some name)
  | SFd f _ => (ty = 1 -> exists g, a = ASetSockOpt f 50 g) /\ (ty = 21 -> exists g, a = ASetSockOpt f 52 g) /\ (ty <> 1 -> ty <> 21 -> areq_type a <> None)
  | SSkb _ _ _ => areq_type a <> None
  | SNone => ty <> 28 -> exists g, a = ARawTp g None \/ a = ALinkCreate g WNone 28 0 None
  end.
