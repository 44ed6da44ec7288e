(** Where the kernel has what each accessor is named after: include/uapi/linux/
    bpf.h (struct __sk_buff, xdp_md, sk_msg_md, bpf_sock_ops,
    sk_reuseport_md), offsets and sizes counted by hand. *)
From Coq Require Import String.
From Verif Require Import Base CtxModel.
Import ListNotations.
Local Open Scope string_scope.
Local Open Scope Z_scope.

Definition kernel_place (c : context) : list (string * (Z * Z)) :=
  match c with
  | SkBuff => [("len", (0, 4)); ("set_mark", (8, 4)); ("protocol", (16, 4)); ("cb", (48, 20)); ("cb_mut", (48, 20)); ("data", (76, 4)); ("data_end", (80, 4));
      ("family", (88, 4)); ("remote_ipv4", (92, 4)); ("local_ipv4", (96, 4)); ("remote_ipv6", (100, 16)); ("local_ipv6", (116, 16));
      ("remote_port", (132, 4)); ("local_port", (136, 4)); ("flow_keys", (144, 8))]
  | Xdp => [("data", (0, 4)); ("data_end", (4, 4)); ("metadata", (8, 4)); ("metadata_end", (0, 4)); ("ingress_ifindex", (12, 4)); ("rx_queue_index", (16, 4))]
  | SkMsg => [("data", (0, 8)); ("data_end", (8, 8)); ("size", (68, 4))]
  | SockOps => [("op", (0, 4)); ("arg", (4, 16)); ("set_reply", (4, 4)); ("family", (20, 4)); ("remote_ip4", (24, 4)); ("local_ip4", (28, 4));
      ("remote_ip6", (32, 16)); ("local_ip6", (48, 16)); ("remote_port", (64, 4)); ("local_port", (68, 4)); ("cb_flags", (84, 4))]
  | SkReuseport => [("data", (0, 8)); ("data_end", (8, 8)); ("len", (16, 4)); ("eth_protocol", (20, 4)); ("ip_protocol", (24, 4));
      ("bind_inany", (28, 4)); ("hash", (32, 4)); ("sk", (40, 8)); ("migrating_sk", (48, 8))]
  end.
Definition context_size (c : context) : Z :=
  match c with SkBuff => 192 | Xdp => 24 | SkMsg => 80 | SockOps => 224 | SkReuseport => 56 end.
