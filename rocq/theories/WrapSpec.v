(** What is claimed about the generated bindings of helpers. *)
From Coq Require Import String.
From Verif Require Import Base Text TextSplit WrapModel.
Open Scope Z_scope.

(** The kernel's helpers in the order of its list of them (the macro
    ___BPF_FUNC_MAPPER of include/uapi/linux/bpf.h, where they are numbered
    from 1), with the number of parameters they take; trace_printk takes two
    and up to three more. *)
Definition mapper : list (list Z * nat) := map (fun p => (txt (fst p), Z.to_nat (snd p))) (([
  ("map_lookup_elem", 2); ("map_update_elem", 4); ("map_delete_elem", 2); ("probe_read", 3); ("ktime_get_ns", 0); ("trace_printk", 2);
  ("get_prandom_u32", 0); ("get_smp_processor_id", 0); ("skb_store_bytes", 5); ("l3_csum_replace", 5); ("l4_csum_replace", 5); ("tail_call", 3);
  ("clone_redirect", 3); ("get_current_pid_tgid", 0); ("get_current_uid_gid", 0); ("get_current_comm", 2); ("get_cgroup_classid", 1);
  ("skb_vlan_push", 3); ("skb_vlan_pop", 1); ("skb_get_tunnel_key", 4); ("skb_set_tunnel_key", 4); ("perf_event_read", 2); ("redirect", 2);
  ("get_route_realm", 1); ("perf_event_output", 5); ("skb_load_bytes", 4); ("get_stackid", 3); ("csum_diff", 5); ("skb_get_tunnel_opt", 3);
  ("skb_set_tunnel_opt", 3); ("skb_change_proto", 3); ("skb_change_type", 2); ("skb_under_cgroup", 3); ("get_hash_recalc", 1); ("get_current_task",
  0); ("probe_write_user", 3); ("current_task_under_cgroup", 2); ("skb_change_tail", 3); ("skb_pull_data", 2); ("csum_update", 2);
  ("set_hash_invalid", 1); ("get_numa_node_id", 0); ("skb_change_head", 3); ("xdp_adjust_head", 2); ("probe_read_str", 3); ("get_socket_cookie", 1);
  ("get_socket_uid", 1); ("set_hash", 2); ("setsockopt", 5); ("skb_adjust_room", 4); ("redirect_map", 3); ("sk_redirect_map", 4); ("sock_map_update",
  4); ("xdp_adjust_meta", 2); ("perf_event_read_value", 4); ("perf_prog_read_value", 3); ("getsockopt", 5); ("override_return", 2);
  ("sock_ops_cb_flags_set", 2); ("msg_redirect_map", 4); ("msg_apply_bytes", 2); ("msg_cork_bytes", 2); ("msg_pull_data", 4); ("bind", 3);
  ("xdp_adjust_tail", 2); ("skb_get_xfrm_state", 5); ("get_stack", 4); ("skb_load_bytes_relative", 5); ("fib_lookup", 4); ("sock_hash_update", 4);
  ("msg_redirect_hash", 4); ("sk_redirect_hash", 4); ("lwt_push_encap", 4); ("lwt_seg6_store_bytes", 4); ("lwt_seg6_adjust_srh", 3);
  ("lwt_seg6_action", 4); ("rc_repeat", 1); ("rc_keydown", 4); ("skb_cgroup_id", 1); ("get_current_cgroup_id", 0); ("get_local_storage", 2);
  ("sk_select_reuseport", 4); ("skb_ancestor_cgroup_id", 2); ("sk_lookup_tcp", 5); ("sk_lookup_udp", 5); ("sk_release", 1); ("map_push_elem", 3);
  ("map_pop_elem", 2); ("map_peek_elem", 2); ("msg_push_data", 4); ("msg_pop_data", 4); ("rc_pointer_rel", 3); ("spin_lock", 1); ("spin_unlock", 1);
  ("sk_fullsock", 1); ("tcp_sock", 1); ("skb_ecn_set_ce", 1); ("get_listener_sock", 1); ("skc_lookup_tcp", 5); ("tcp_check_syncookie", 5);
  ("sysctl_get_name", 4); ("sysctl_get_current_value", 3); ("sysctl_get_new_value", 3); ("sysctl_set_new_value", 3); ("strtol", 4); ("strtoul", 4);
  ("sk_storage_get", 4); ("sk_storage_delete", 2); ("send_signal", 1); ("tcp_gen_syncookie", 5); ("skb_output", 5); ("probe_read_user", 3);
  ("probe_read_kernel", 3); ("probe_read_user_str", 3); ("probe_read_kernel_str", 3); ("tcp_send_ack", 2); ("send_signal_thread", 1); ("jiffies64",
  0); ("read_branch_records", 4); ("get_ns_current_pid_tgid", 4); ("xdp_output", 5); ("get_netns_cookie", 1); ("get_current_ancestor_cgroup_id", 1);
  ("sk_assign", 3); ("ktime_get_boot_ns", 0); ("seq_printf", 5); ("seq_write", 3); ("sk_cgroup_id", 1); ("sk_ancestor_cgroup_id", 2);
  ("ringbuf_output", 4); ("ringbuf_reserve", 3); ("ringbuf_submit", 2); ("ringbuf_discard", 2); ("ringbuf_query", 2); ("csum_level", 2);
  ("skc_to_tcp6_sock", 1); ("skc_to_tcp_sock", 1); ("skc_to_tcp_timewait_sock", 1); ("skc_to_tcp_request_sock", 1); ("skc_to_udp6_sock", 1);
  ("get_task_stack", 4); ("load_hdr_opt", 4); ("store_hdr_opt", 4); ("reserve_hdr_opt", 3); ("inode_storage_get", 4); ("inode_storage_delete", 2);
  ("d_path", 3); ("copy_from_user", 3); ("snprintf_btf", 5); ("seq_printf_btf", 4); ("skb_cgroup_classid", 1); ("redirect_neigh", 4); ("per_cpu_ptr",
  2); ("this_cpu_ptr", 1); ("redirect_peer", 2); ("task_storage_get", 4); ("task_storage_delete", 2); ("get_current_task_btf", 0); ("bprm_opts_set",
  2); ("ktime_get_coarse_ns", 0); ("ima_inode_hash", 3); ("sock_from_file", 1); ("check_mtu", 5); ("for_each_map_elem", 4); ("snprintf", 5);
  ("sys_bpf", 3); ("btf_find_by_name_kind", 4); ("sys_close", 1); ("timer_init", 3); ("timer_set_callback", 2); ("timer_start", 3); ("timer_cancel",
  1); ("get_func_ip", 1); ("get_attach_cookie", 1); ("task_pt_regs", 1); ("get_branch_snapshot", 3); ("trace_vprintk", 4); ("skc_to_unix_sock", 1);
  ("kallsyms_lookup_name", 4); ("find_vma", 5); ("loop", 4); ("strncmp", 3); ("get_func_arg", 3); ("get_func_ret", 2); ("get_func_arg_cnt", 1);
  ("get_retval", 0); ("set_retval", 1); ("xdp_get_buff_len", 1); ("xdp_load_bytes", 4); ("xdp_store_bytes", 4); ("copy_from_user_task", 5);
  ("skb_set_tstamp", 3); ("ima_file_hash", 3); ("kptr_xchg", 2); ("map_lookup_percpu_elem", 3); ("skc_to_mptcp_sock", 1); ("dynptr_from_mem", 4);
  ("ringbuf_reserve_dynptr", 4); ("ringbuf_submit_dynptr", 2); ("ringbuf_discard_dynptr", 2); ("dynptr_read", 5); ("dynptr_write", 5); ("dynptr_data",
  3); ("tcp_raw_gen_syncookie_ipv4", 3); ("tcp_raw_gen_syncookie_ipv6", 3); ("tcp_raw_check_syncookie_ipv4", 2); ("tcp_raw_check_syncookie_ipv6", 2);
  ("ktime_get_tai_ns", 0); ("user_ringbuf_drain", 4); ("cgrp_storage_get", 4); ("cgrp_storage_delete", 2)
])%string : list (string * Z)).

(** The number of a helper of that name. *)
Fixpoint number_from (k : Z) (n : list Z) (l : list (list Z * nat)) : option (Z * nat) :=
  match l with [] => None | (m, a) :: r => if str_eqb n (txt "bpf_" ++ m) then Some (k, a) else number_from (k + 1) n r end.
Definition in_kernel (n : list Z) : option (Z * nat) := number_from 1 n mapper.

(** A function that does what the helper of its name does: called with values
    for its parameters, it calls that helper with them in order. BPF passes up
    to five. *)
Definition faithful (w : wrapper) : Prop :=
  exists k a, in_kernel (w_name w) = Some (k, a) /\ length (w_params w) = a /\ (a <= 5)%nat /\
    w_fun w = w_params w /\ w_fun_ret w = w_ret w /\
    forall args, length args = a -> calls w args = Some (k, args).

(** A header that declares helpers: what clang makes of
    the declaration of a constant pointer to a function, whose value is the
    number,
    bindgen turns into a static of type Option<fn(parameters) -> type>. *)
Record decl := { d_name : list Z; d_params : list (list Z * list Z); d_ret : list Z }.
Definition option_of (d : decl) : ty :=
  TPath [(txt "core", GNone); (txt "option", GNone);
         (txt "Option", GAngle [Some (TFn (map (fun p => (Some (fst p), snd p)) (d_params d)) (d_ret d))])].
Definition static_of (d : decl) : foreign := FStatic (d_name d) (option_of d).

(** The items of a file contain the declarations [ds] in this order, each in a
    module of its own, among other items. *)
Inductive contains : list item -> list decl -> Prop :=
| c_none : contains [] []
| c_decl d r ds : contains r ds -> contains (IForeign [static_of d] :: r) (d :: ds)
| c_other t r ds : contains r ds -> contains (IOther t :: r) ds
| c_module l r ds : (forall n t, In (FStatic n t) l -> starts_with (txt "bpf_") n = false) -> contains r ds -> contains (IForeign l :: r) ds.

(** A declaration whose parameters can be told apart. *)
Definition proper (d : decl) : Prop := starts_with (txt "bpf_") (d_name d) = true /\ NoDup (map fst (d_params d)).

(** The function wanted for the [k]th declaration, counted from 1. *)
Definition wants (k : Z) (d : decl) (w : wrapper) : Prop :=
  w_name w = d_name d /\ w_params w = d_params d /\ w_ret w = d_ret d /\ w_fun w = d_params d /\ w_fun_ret w = d_ret d /\
  forall args, length args = length (d_params d) -> calls w args = Some (k, args).

Definition printk (d : decl) : bool := str_eqb (d_name d) (txt "bpf_trace_printk").

(** Declarations with their positions. *)
Fixpoint numbered (k : Z) (ds : list decl) : list (Z * decl) := match ds with [] => [] | d :: r => (k, d) :: numbered (k + 1) r end.

(** What should be left of the items: everything but the declarations. *)
Inductive left_over : list item -> list item -> Prop :=
| l_none : left_over [] []
| l_decl d r r' : left_over r r' -> starts_with (txt "bpf_") (d_name d) = true -> left_over (IForeign [static_of d] :: r) (INothing :: r')
| l_other t r r' : left_over r r' -> left_over (IOther t :: r) (IOther t :: r')
| l_module l r r' : (forall n t, In (FStatic n t) l -> starts_with (txt "bpf_") n = false) -> left_over r r' ->
    left_over (IForeign l :: r) (IForeign l :: r').

(** A header that declares the first helpers of the kernel in the kernel's
    order, each with its parameters. *)
Definition follows_kernel (ds : list decl) : Prop :=
  exists n, map (fun d => (d_name d, length (d_params d))) ds = map (fun p => ((txt "bpf_" ++ fst p)%list, snd p)) (firstn n mapper).

(** The constants that number the helpers: the kernel's enum of them starts with
    an unused one and ends with the count. *)
Fixpoint count_from (k : Z) (l : list (list Z)) : list (list Z * Z) :=
  match l with [] => [] | n :: r => (n, k) :: count_from (k + 1) r end.
Definition kernel_constants : list (list Z * Z) := count_from 0 (txt "unspec" :: map fst mapper ++ [txt "MAX_ID"]).

(** The statics of a file that are taken for helpers, in order. *)
Definition named_helper (f : foreign) : list (list Z * ty) :=
  match f with FStatic n t => if starts_with (txt "bpf_") n then [(n, t)] else [] | FOther _ => [] end.
Definition helper_statics (items : list item) : list (list Z * ty) :=
  flat_map (fun i => match i with IForeign l => flat_map named_helper l | _ => [] end) items.

(** A type whose last segment has a function pointer as first argument. *)
Definition points_to (t : ty) (i : list (option (list Z) * list Z)) (o : list Z) : Prop :=
  exists segs n rest, t = TPath (segs ++ [(n, GAngle (Some (TFn i o) :: rest))])%list.
(** A static the generator can make a function of; of trace_printk it makes
    none, so its parameters need no names. *)
Definition usable (p : list Z * ty) : Prop :=
  exists i o, points_to (snd p) i o /\ (fst p <> txt "bpf_trace_printk" -> forall q, In q i -> fst q <> None).
