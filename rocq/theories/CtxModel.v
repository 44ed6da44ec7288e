(** The fields of program contexts that aya_ebpf gives access to.

    Sources: ebpf/aya-ebpf/src/programs/sk_buff.rs (also behind TcContext,
    SkBuffContext and FlowDissectorContext), xdp.rs, sk_msg.rs, sock_ops.rs,
    sk_reuseport.rs; the structures in
    ebpf/aya-ebpf-bindings/src/x86_64/bindings.rs (the same text for every
    architecture).  Pointers have 64 bits.  A context is a list of bytes. *)
From Coq Require Import String.
From Verif Require Import Base LayoutModel.
Import ListNotations.
Local Open Scope string_scope.
Local Open Scope Z_scope.

Definition u32_t : ty := Int 4.
Definition u64_t : ty := Int 8.
Definition ptr_t : ty := Int 8.
Definition words (l : list string) : list (string * ty) := map (fun n => (n, u32_t)) l.
(** A pointer in a union with padding to 64 bits. *)
Definition aligned_ptr (n : string) : ty := Union [(n, ptr_t); ("_bitfield_1", Arr 8 (Int 1))].

(** bindings.rs 1613-1671. *)
Definition sk_buff : ty := Struct (
  words ["len"; "pkt_type"; "mark"; "queue_mapping"; "protocol"; "vlan_present"; "vlan_tci"; "vlan_proto"; "priority";
         "ingress_ifindex"; "ifindex"; "tc_index"] ++ [("cb", Arr 5 u32_t)] ++
  words ["hash"; "tc_classid"; "data"; "data_end"; "napi_id"; "family"; "remote_ip4"; "local_ip4"] ++
  [("remote_ip6", Arr 4 u32_t); ("local_ip6", Arr 4 u32_t)] ++
  words ["remote_port"; "local_port"; "data_meta"] ++ [("__bindgen_anon_1", aligned_ptr "flow_keys"); ("tstamp", u64_t)] ++
  words ["wire_len"; "gso_segs"] ++ [("__bindgen_anon_2", aligned_ptr "sk"); ("gso_size", u32_t); ("tstamp_type", Int 1);
  ("_bitfield_1", Arr 3 (Int 1)); ("hwtstamp", u64_t)])%list.
(** bindings.rs 1844-1851. *)
Definition xdp_md : ty := Struct (words ["data"; "data_end"; "data_meta"; "ingress_ifindex"; "rx_queue_index"; "egress_ifindex"]).
(** bindings.rs 1883-1930. *)
Definition sk_msg_md : ty := Struct (
  [("__bindgen_anon_1", aligned_ptr "data"); ("__bindgen_anon_2", aligned_ptr "data_end")] ++ words ["family"; "remote_ip4"; "local_ip4"] ++
  [("remote_ip6", Arr 4 u32_t); ("local_ip6", Arr 4 u32_t)] ++ words ["remote_port"; "local_port"; "size"] ++
  [("__bindgen_anon_3", aligned_ptr "sk")])%list.
(** bindings.rs 2364-2448. *)
Definition bpf_sock_ops : ty := Struct (
  [("op", u32_t); ("__bindgen_anon_1", Union [("args", Arr 4 u32_t); ("reply", u32_t); ("replylong", Arr 4 u32_t)])] ++
  words ["family"; "remote_ip4"; "local_ip4"] ++ [("remote_ip6", Arr 4 u32_t); ("local_ip6", Arr 4 u32_t)] ++
  words ["remote_port"; "local_port"; "is_fullsock"; "snd_cwnd"; "srtt_us"; "bpf_sock_ops_cb_flags"; "state"; "rtt_min"; "snd_ssthresh";
         "rcv_nxt"; "snd_nxt"; "snd_una"; "mss_cache"; "ecn_flags"; "rate_delivered"; "rate_interval_us"; "packets_out"; "retrans_out";
         "total_retrans"; "segs_in"; "data_segs_in"; "segs_out"; "data_segs_out"; "lost_out"; "sacked_out"; "sk_txhash"] ++
  [("bytes_received", u64_t); ("bytes_acked", u64_t); ("__bindgen_anon_2", aligned_ptr "sk"); ("__bindgen_anon_3", aligned_ptr "skb_data");
   ("__bindgen_anon_4", aligned_ptr "skb_data_end"); ("skb_len", u32_t); ("skb_tcp_flags", u32_t); ("skb_hwtstamp", u64_t)])%list.
(** bindings.rs 1940-1999. *)
Definition sk_reuseport_md : ty := Struct (
  [("__bindgen_anon_1", aligned_ptr "data"); ("__bindgen_anon_2", aligned_ptr "data_end")] ++
  words ["len"; "eth_protocol"; "ip_protocol"; "bind_inany"; "hash"] ++
  [("__bindgen_anon_3", aligned_ptr "sk"); ("__bindgen_anon_4", aligned_ptr "migrating_sk")])%list.

Inductive context := SkBuff | Xdp | SkMsg | SockOps | SkReuseport.
Definition structure (c : context) : ty :=
  match c with SkBuff => sk_buff | Xdp => xdp_md | SkMsg => sk_msg_md | SockOps => bpf_sock_ops | SkReuseport => sk_reuseport_md end.

(** The methods and the field each of them reads: sk_buff.rs 32-60 and
    194-231, flow_dissector.rs 33-36, xdp.rs 15-47, sk_msg.rs 18-28,
    sock_ops.rs 16-59, sk_reuseport.rs 20-105. *)
Definition accessors (c : context) : list (string * string) :=
  match c with
  | SkBuff => [("len", "len"); ("data", "data"); ("data_end", "data_end"); ("cb", "cb"); ("cb_mut", "cb"); ("protocol", "protocol");
      ("family", "family"); ("local_ipv4", "local_ip4"); ("local_ipv6", "local_ip6"); ("remote_ipv4", "remote_ip4");
      ("remote_ipv6", "remote_ip6"); ("local_port", "local_port"); ("remote_port", "remote_port"); ("set_mark", "mark"); ("flow_keys", "flow_keys")]
  | Xdp => [("data", "data"); ("data_end", "data_end"); ("metadata", "data_meta"); ("metadata_end", "data");
      ("ingress_ifindex", "ingress_ifindex"); ("rx_queue_index", "rx_queue_index")]
  | SkMsg => [("size", "size"); ("data", "data"); ("data_end", "data_end")]
  | SockOps => [("op", "op"); ("family", "family"); ("cb_flags", "bpf_sock_ops_cb_flags"); ("remote_ip4", "remote_ip4"); ("local_ip4", "local_ip4");
      ("remote_ip6", "remote_ip6"); ("local_ip6", "local_ip6"); ("local_port", "local_port"); ("remote_port", "remote_port"); ("arg", "args"); ("set_reply", "reply")]
  | SkReuseport => [("data", "data"); ("data_end", "data_end"); ("len", "len"); ("eth_protocol", "eth_protocol"); ("ip_protocol", "ip_protocol");
      ("bind_inany", "bind_inany"); ("hash", "hash"); ("sk", "sk"); ("migrating_sk", "migrating_sk")]
  end.
Definition place (c : context) (method : string) : option (Z * Z) :=
  match find (fun '(m, _) => String.eqb m method) (accessors c) with
  | Some (_, f) => field [f] (structure c)
  | None => None
  end.

Inductive error := NoMethod | Outside | IndexPanic.
(** The bytes an accessor reads. *)
Definition get (c : context) (method : string) (ctx : list Z) : res error (list Z) :=
  match place c method with
  | None => Err NoMethod
  | Some (o, s) => match get_slice (Z.to_nat o) (Z.to_nat s) ctx with Some b => Ok b | None => Err Outside end
  end.
(** set_mark (sk_buff.rs 47-49) and set_reply (sock_ops.rs 61-63). *)
Definition set (c : context) (method : string) (v : Z) (ctx : list Z) : res error (list Z) :=
  match place c method with
  | None => Err NoMethod
  | Some (o, s) => if o + s <=? Z.of_nat (length ctx) then Ok (splice (Z.to_nat o) (le_enc (Z.to_nat s) v) ctx) else Err Outside
  end.
(** SockOpsContext::arg (sock_ops.rs 57-59): an index beyond the array
    panics. *)
Definition sock_ops_arg (ctx : list Z) (n : nat) : res error Z :=
  bind (get SockOps "arg" ctx) (fun b => if (n <? 4)%nat then Ok (le_dec (slice (4 * n) 4 b)) else Err IndexPanic).
(** SkReuseportContext::migrating_sk (sk_reuseport.rs 98-105). *)
Definition migrating_sk (ctx : list Z) : res error (option Z) :=
  bind (get SkReuseport "migrating_sk" ctx) (fun b => Ok (if le_dec b =? 0 then None else Some (le_dec b))).
