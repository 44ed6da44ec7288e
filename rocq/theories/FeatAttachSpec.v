(** Which attach types belong to which types of programs, from
    include/uapi/linux/bpf.h and [attach_type_to_prog_type] of
    kernel/bpf/syscall.c, which are not part of /repo.  Types of programs that
    are not attached by an attach type are left out. *)
From Verif Require Import Base.
Import ListNotations.
Local Open Scope Z_scope.

Inductive belongs : Z -> Z -> Prop :=
| b_skb a : In a [0; 1] -> belongs 8 a                       (* CGROUP_INET_INGRESS, EGRESS *)
| b_sock a : In a [2; 12; 13; 34] -> belongs 9 a             (* INET_SOCK_CREATE, POST_BIND, SOCK_RELEASE *)
| b_ops : belongs 13 3                                       (* CGROUP_SOCK_OPS *)
| b_sk_skb a : In a [4; 5; 38] -> belongs 14 a               (* SK_SKB_STREAM_PARSER, STREAM_VERDICT, VERDICT *)
| b_device : belongs 15 6                                    (* CGROUP_DEVICE *)
| b_msg : belongs 16 7                                       (* SK_MSG_VERDICT *)
| b_addr a : In a [8; 9; 10; 11; 14; 15; 19; 20; 29; 30; 31; 32] -> belongs 18 a
| b_lirc : belongs 20 16                                     (* LIRC_MODE2 *)
| b_reuseport a : In a [39; 40] -> belongs 21 a              (* SK_REUSEPORT_SELECT, _OR_MIGRATE *)
| b_dissector : belongs 22 17                                (* FLOW_DISSECTOR *)
| b_sysctl : belongs 23 18                                   (* CGROUP_SYSCTL *)
| b_sockopt a : In a [21; 22] -> belongs 25 a                (* CGROUP_GETSOCKOPT, SETSOCKOPT *)
| b_tracing a : In a [23; 24; 25; 26; 28] -> belongs 26 a    (* TRACE_RAW_TP, FENTRY, FEXIT, MODIFY_RETURN, TRACE_ITER *)
| b_lsm a : In a [27; 43] -> belongs 29 a                    (* LSM_MAC, LSM_CGROUP *)
| b_lookup : belongs 30 36                                   (* SK_LOOKUP *)
| b_netfilter : belongs 32 45.                               (* NETFILTER *)

(** Types the kernel loads only with an attach type of theirs other than 0
    ([bpf_prog_load_check_attach] and [check_attach_btf_id]). *)
Definition demanding : list Z := [18; 25; 26; 29; 30; 32].
