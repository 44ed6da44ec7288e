(** The constants that name the kernel's helpers in the generated bindings,
    without the prefix BPF_FUNC_. The files of the other eight architectures
    have the same lists. *)
From Coq Require Import String.
From Verif Require Import Base Text.
Open Scope Z_scope.

(** The module bpf_func_id of
    /repo/ebpf/aya-ebpf-bindings/src/x86_64/bindings.rs:1297-1512. *)
Definition ids_ebpf : list (list Z * Z) :=
  [ (txt "unspec", 0);
    (txt "map_lookup_elem", 1);
    (txt "map_update_elem", 2);
    (txt "map_delete_elem", 3);
    (txt "probe_read", 4);
    (txt "ktime_get_ns", 5);
    (txt "trace_printk", 6);
    (txt "get_prandom_u32", 7);
    (txt "get_smp_processor_id", 8);
    (txt "skb_store_bytes", 9);
    (txt "l3_csum_replace", 10);
    (txt "l4_csum_replace", 11);
    (txt "tail_call", 12);
    (txt "clone_redirect", 13);
    (txt "get_current_pid_tgid", 14);
    (txt "get_current_uid_gid", 15);
    (txt "get_current_comm", 16);
    (txt "get_cgroup_classid", 17);
    (txt "skb_vlan_push", 18);
    (txt "skb_vlan_pop", 19);
    (txt "skb_get_tunnel_key", 20);
    (txt "skb_set_tunnel_key", 21);
    (txt "perf_event_read", 22);
    (txt "redirect", 23);
    (txt "get_route_realm", 24);
    (txt "perf_event_output", 25);
    (txt "skb_load_bytes", 26);
    (txt "get_stackid", 27);
    (txt "csum_diff", 28);
    (txt "skb_get_tunnel_opt", 29);
    (txt "skb_set_tunnel_opt", 30);
    (txt "skb_change_proto", 31);
    (txt "skb_change_type", 32);
    (txt "skb_under_cgroup", 33);
    (txt "get_hash_recalc", 34);
    (txt "get_current_task", 35);
    (txt "probe_write_user", 36);
    (txt "current_task_under_cgroup", 37);
    (txt "skb_change_tail", 38);
    (txt "skb_pull_data", 39);
    (txt "csum_update", 40);
    (txt "set_hash_invalid", 41);
    (txt "get_numa_node_id", 42);
    (txt "skb_change_head", 43);
    (txt "xdp_adjust_head", 44);
    (txt "probe_read_str", 45);
    (txt "get_socket_cookie", 46);
    (txt "get_socket_uid", 47);
    (txt "set_hash", 48);
    (txt "setsockopt", 49);
    (txt "skb_adjust_room", 50);
    (txt "redirect_map", 51);
    (txt "sk_redirect_map", 52);
    (txt "sock_map_update", 53);
    (txt "xdp_adjust_meta", 54);
    (txt "perf_event_read_value", 55);
    (txt "perf_prog_read_value", 56);
    (txt "getsockopt", 57);
    (txt "override_return", 58);
    (txt "sock_ops_cb_flags_set", 59);
    (txt "msg_redirect_map", 60);
    (txt "msg_apply_bytes", 61);
    (txt "msg_cork_bytes", 62);
    (txt "msg_pull_data", 63);
    (txt "bind", 64);
    (txt "xdp_adjust_tail", 65);
    (txt "skb_get_xfrm_state", 66);
    (txt "get_stack", 67);
    (txt "skb_load_bytes_relative", 68);
    (txt "fib_lookup", 69);
    (txt "sock_hash_update", 70);
    (txt "msg_redirect_hash", 71);
    (txt "sk_redirect_hash", 72);
    (txt "lwt_push_encap", 73);
    (txt "lwt_seg6_store_bytes", 74);
    (txt "lwt_seg6_adjust_srh", 75);
    (txt "lwt_seg6_action", 76);
    (txt "rc_repeat", 77);
    (txt "rc_keydown", 78);
    (txt "skb_cgroup_id", 79);
    (txt "get_current_cgroup_id", 80);
    (txt "get_local_storage", 81);
    (txt "sk_select_reuseport", 82);
    (txt "skb_ancestor_cgroup_id", 83);
    (txt "sk_lookup_tcp", 84);
    (txt "sk_lookup_udp", 85);
    (txt "sk_release", 86);
    (txt "map_push_elem", 87);
    (txt "map_pop_elem", 88);
    (txt "map_peek_elem", 89);
    (txt "msg_push_data", 90);
    (txt "msg_pop_data", 91);
    (txt "rc_pointer_rel", 92);
    (txt "spin_lock", 93);
    (txt "spin_unlock", 94);
    (txt "sk_fullsock", 95);
    (txt "tcp_sock", 96);
    (txt "skb_ecn_set_ce", 97);
    (txt "get_listener_sock", 98);
    (txt "skc_lookup_tcp", 99);
    (txt "tcp_check_syncookie", 100);
    (txt "sysctl_get_name", 101);
    (txt "sysctl_get_current_value", 102);
    (txt "sysctl_get_new_value", 103);
    (txt "sysctl_set_new_value", 104);
    (txt "strtol", 105);
    (txt "strtoul", 106);
    (txt "sk_storage_get", 107);
    (txt "sk_storage_delete", 108);
    (txt "send_signal", 109);
    (txt "tcp_gen_syncookie", 110);
    (txt "skb_output", 111);
    (txt "probe_read_user", 112);
    (txt "probe_read_kernel", 113);
    (txt "probe_read_user_str", 114);
    (txt "probe_read_kernel_str", 115);
    (txt "tcp_send_ack", 116);
    (txt "send_signal_thread", 117);
    (txt "jiffies64", 118);
    (txt "read_branch_records", 119);
    (txt "get_ns_current_pid_tgid", 120);
    (txt "xdp_output", 121);
    (txt "get_netns_cookie", 122);
    (txt "get_current_ancestor_cgroup_id", 123);
    (txt "sk_assign", 124);
    (txt "ktime_get_boot_ns", 125);
    (txt "seq_printf", 126);
    (txt "seq_write", 127);
    (txt "sk_cgroup_id", 128);
    (txt "sk_ancestor_cgroup_id", 129);
    (txt "ringbuf_output", 130);
    (txt "ringbuf_reserve", 131);
    (txt "ringbuf_submit", 132);
    (txt "ringbuf_discard", 133);
    (txt "ringbuf_query", 134);
    (txt "csum_level", 135);
    (txt "skc_to_tcp6_sock", 136);
    (txt "skc_to_tcp_sock", 137);
    (txt "skc_to_tcp_timewait_sock", 138);
    (txt "skc_to_tcp_request_sock", 139);
    (txt "skc_to_udp6_sock", 140);
    (txt "get_task_stack", 141);
    (txt "load_hdr_opt", 142);
    (txt "store_hdr_opt", 143);
    (txt "reserve_hdr_opt", 144);
    (txt "inode_storage_get", 145);
    (txt "inode_storage_delete", 146);
    (txt "d_path", 147);
    (txt "copy_from_user", 148);
    (txt "snprintf_btf", 149);
    (txt "seq_printf_btf", 150);
    (txt "skb_cgroup_classid", 151);
    (txt "redirect_neigh", 152);
    (txt "per_cpu_ptr", 153);
    (txt "this_cpu_ptr", 154);
    (txt "redirect_peer", 155);
    (txt "task_storage_get", 156);
    (txt "task_storage_delete", 157);
    (txt "get_current_task_btf", 158);
    (txt "bprm_opts_set", 159);
    (txt "ktime_get_coarse_ns", 160);
    (txt "ima_inode_hash", 161);
    (txt "sock_from_file", 162);
    (txt "check_mtu", 163);
    (txt "for_each_map_elem", 164);
    (txt "snprintf", 165);
    (txt "sys_bpf", 166);
    (txt "btf_find_by_name_kind", 167);
    (txt "sys_close", 168);
    (txt "timer_init", 169);
    (txt "timer_set_callback", 170);
    (txt "timer_start", 171);
    (txt "timer_cancel", 172);
    (txt "get_func_ip", 173);
    (txt "get_attach_cookie", 174);
    (txt "task_pt_regs", 175);
    (txt "get_branch_snapshot", 176);
    (txt "trace_vprintk", 177);
    (txt "skc_to_unix_sock", 178);
    (txt "kallsyms_lookup_name", 179);
    (txt "find_vma", 180);
    (txt "loop", 181);
    (txt "strncmp", 182);
    (txt "get_func_arg", 183);
    (txt "get_func_ret", 184);
    (txt "get_func_arg_cnt", 185);
    (txt "get_retval", 186);
    (txt "set_retval", 187);
    (txt "xdp_get_buff_len", 188);
    (txt "xdp_load_bytes", 189);
    (txt "xdp_store_bytes", 190);
    (txt "copy_from_user_task", 191);
    (txt "skb_set_tstamp", 192);
    (txt "ima_file_hash", 193);
    (txt "kptr_xchg", 194);
    (txt "map_lookup_percpu_elem", 195);
    (txt "skc_to_mptcp_sock", 196);
    (txt "dynptr_from_mem", 197);
    (txt "ringbuf_reserve_dynptr", 198);
    (txt "ringbuf_submit_dynptr", 199);
    (txt "ringbuf_discard_dynptr", 200);
    (txt "dynptr_read", 201);
    (txt "dynptr_write", 202);
    (txt "dynptr_data", 203);
    (txt "tcp_raw_gen_syncookie_ipv4", 204);
    (txt "tcp_raw_gen_syncookie_ipv6", 205);
    (txt "tcp_raw_check_syncookie_ipv4", 206);
    (txt "tcp_raw_check_syncookie_ipv6", 207);
    (txt "ktime_get_tai_ns", 208);
    (txt "user_ringbuf_drain", 209);
    (txt "cgrp_storage_get", 210);
    (txt "cgrp_storage_delete", 211);
    (txt "MAX_ID", 212) ].

(** The enum bpf_func_id of
    /repo/aya-obj/src/generated/linux_bindings_x86_64.rs:1112-1326. *)
Definition ids_obj : list (list Z * Z) :=
  [ (txt "unspec", 0);
    (txt "map_lookup_elem", 1);
    (txt "map_update_elem", 2);
    (txt "map_delete_elem", 3);
    (txt "probe_read", 4);
    (txt "ktime_get_ns", 5);
    (txt "trace_printk", 6);
    (txt "get_prandom_u32", 7);
    (txt "get_smp_processor_id", 8);
    (txt "skb_store_bytes", 9);
    (txt "l3_csum_replace", 10);
    (txt "l4_csum_replace", 11);
    (txt "tail_call", 12);
    (txt "clone_redirect", 13);
    (txt "get_current_pid_tgid", 14);
    (txt "get_current_uid_gid", 15);
    (txt "get_current_comm", 16);
    (txt "get_cgroup_classid", 17);
    (txt "skb_vlan_push", 18);
    (txt "skb_vlan_pop", 19);
    (txt "skb_get_tunnel_key", 20);
    (txt "skb_set_tunnel_key", 21);
    (txt "perf_event_read", 22);
    (txt "redirect", 23);
    (txt "get_route_realm", 24);
    (txt "perf_event_output", 25);
    (txt "skb_load_bytes", 26);
    (txt "get_stackid", 27);
    (txt "csum_diff", 28);
    (txt "skb_get_tunnel_opt", 29);
    (txt "skb_set_tunnel_opt", 30);
    (txt "skb_change_proto", 31);
    (txt "skb_change_type", 32);
    (txt "skb_under_cgroup", 33);
    (txt "get_hash_recalc", 34);
    (txt "get_current_task", 35);
    (txt "probe_write_user", 36);
    (txt "current_task_under_cgroup", 37);
    (txt "skb_change_tail", 38);
    (txt "skb_pull_data", 39);
    (txt "csum_update", 40);
    (txt "set_hash_invalid", 41);
    (txt "get_numa_node_id", 42);
    (txt "skb_change_head", 43);
    (txt "xdp_adjust_head", 44);
    (txt "probe_read_str", 45);
    (txt "get_socket_cookie", 46);
    (txt "get_socket_uid", 47);
    (txt "set_hash", 48);
    (txt "setsockopt", 49);
    (txt "skb_adjust_room", 50);
    (txt "redirect_map", 51);
    (txt "sk_redirect_map", 52);
    (txt "sock_map_update", 53);
    (txt "xdp_adjust_meta", 54);
    (txt "perf_event_read_value", 55);
    (txt "perf_prog_read_value", 56);
    (txt "getsockopt", 57);
    (txt "override_return", 58);
    (txt "sock_ops_cb_flags_set", 59);
    (txt "msg_redirect_map", 60);
    (txt "msg_apply_bytes", 61);
    (txt "msg_cork_bytes", 62);
    (txt "msg_pull_data", 63);
    (txt "bind", 64);
    (txt "xdp_adjust_tail", 65);
    (txt "skb_get_xfrm_state", 66);
    (txt "get_stack", 67);
    (txt "skb_load_bytes_relative", 68);
    (txt "fib_lookup", 69);
    (txt "sock_hash_update", 70);
    (txt "msg_redirect_hash", 71);
    (txt "sk_redirect_hash", 72);
    (txt "lwt_push_encap", 73);
    (txt "lwt_seg6_store_bytes", 74);
    (txt "lwt_seg6_adjust_srh", 75);
    (txt "lwt_seg6_action", 76);
    (txt "rc_repeat", 77);
    (txt "rc_keydown", 78);
    (txt "skb_cgroup_id", 79);
    (txt "get_current_cgroup_id", 80);
    (txt "get_local_storage", 81);
    (txt "sk_select_reuseport", 82);
    (txt "skb_ancestor_cgroup_id", 83);
    (txt "sk_lookup_tcp", 84);
    (txt "sk_lookup_udp", 85);
    (txt "sk_release", 86);
    (txt "map_push_elem", 87);
    (txt "map_pop_elem", 88);
    (txt "map_peek_elem", 89);
    (txt "msg_push_data", 90);
    (txt "msg_pop_data", 91);
    (txt "rc_pointer_rel", 92);
    (txt "spin_lock", 93);
    (txt "spin_unlock", 94);
    (txt "sk_fullsock", 95);
    (txt "tcp_sock", 96);
    (txt "skb_ecn_set_ce", 97);
    (txt "get_listener_sock", 98);
    (txt "skc_lookup_tcp", 99);
    (txt "tcp_check_syncookie", 100);
    (txt "sysctl_get_name", 101);
    (txt "sysctl_get_current_value", 102);
    (txt "sysctl_get_new_value", 103);
    (txt "sysctl_set_new_value", 104);
    (txt "strtol", 105);
    (txt "strtoul", 106);
    (txt "sk_storage_get", 107);
    (txt "sk_storage_delete", 108);
    (txt "send_signal", 109);
    (txt "tcp_gen_syncookie", 110);
    (txt "skb_output", 111);
    (txt "probe_read_user", 112);
    (txt "probe_read_kernel", 113);
    (txt "probe_read_user_str", 114);
    (txt "probe_read_kernel_str", 115);
    (txt "tcp_send_ack", 116);
    (txt "send_signal_thread", 117);
    (txt "jiffies64", 118);
    (txt "read_branch_records", 119);
    (txt "get_ns_current_pid_tgid", 120);
    (txt "xdp_output", 121);
    (txt "get_netns_cookie", 122);
    (txt "get_current_ancestor_cgroup_id", 123);
    (txt "sk_assign", 124);
    (txt "ktime_get_boot_ns", 125);
    (txt "seq_printf", 126);
    (txt "seq_write", 127);
    (txt "sk_cgroup_id", 128);
    (txt "sk_ancestor_cgroup_id", 129);
    (txt "ringbuf_output", 130);
    (txt "ringbuf_reserve", 131);
    (txt "ringbuf_submit", 132);
    (txt "ringbuf_discard", 133);
    (txt "ringbuf_query", 134);
    (txt "csum_level", 135);
    (txt "skc_to_tcp6_sock", 136);
    (txt "skc_to_tcp_sock", 137);
    (txt "skc_to_tcp_timewait_sock", 138);
    (txt "skc_to_tcp_request_sock", 139);
    (txt "skc_to_udp6_sock", 140);
    (txt "get_task_stack", 141);
    (txt "load_hdr_opt", 142);
    (txt "store_hdr_opt", 143);
    (txt "reserve_hdr_opt", 144);
    (txt "inode_storage_get", 145);
    (txt "inode_storage_delete", 146);
    (txt "d_path", 147);
    (txt "copy_from_user", 148);
    (txt "snprintf_btf", 149);
    (txt "seq_printf_btf", 150);
    (txt "skb_cgroup_classid", 151);
    (txt "redirect_neigh", 152);
    (txt "per_cpu_ptr", 153);
    (txt "this_cpu_ptr", 154);
    (txt "redirect_peer", 155);
    (txt "task_storage_get", 156);
    (txt "task_storage_delete", 157);
    (txt "get_current_task_btf", 158);
    (txt "bprm_opts_set", 159);
    (txt "ktime_get_coarse_ns", 160);
    (txt "ima_inode_hash", 161);
    (txt "sock_from_file", 162);
    (txt "check_mtu", 163);
    (txt "for_each_map_elem", 164);
    (txt "snprintf", 165);
    (txt "sys_bpf", 166);
    (txt "btf_find_by_name_kind", 167);
    (txt "sys_close", 168);
    (txt "timer_init", 169);
    (txt "timer_set_callback", 170);
    (txt "timer_start", 171);
    (txt "timer_cancel", 172);
    (txt "get_func_ip", 173);
    (txt "get_attach_cookie", 174);
    (txt "task_pt_regs", 175);
    (txt "get_branch_snapshot", 176);
    (txt "trace_vprintk", 177);
    (txt "skc_to_unix_sock", 178);
    (txt "kallsyms_lookup_name", 179);
    (txt "find_vma", 180);
    (txt "loop", 181);
    (txt "strncmp", 182);
    (txt "get_func_arg", 183);
    (txt "get_func_ret", 184);
    (txt "get_func_arg_cnt", 185);
    (txt "get_retval", 186);
    (txt "set_retval", 187);
    (txt "xdp_get_buff_len", 188);
    (txt "xdp_load_bytes", 189);
    (txt "xdp_store_bytes", 190);
    (txt "copy_from_user_task", 191);
    (txt "skb_set_tstamp", 192);
    (txt "ima_file_hash", 193);
    (txt "kptr_xchg", 194);
    (txt "map_lookup_percpu_elem", 195);
    (txt "skc_to_mptcp_sock", 196);
    (txt "dynptr_from_mem", 197);
    (txt "ringbuf_reserve_dynptr", 198);
    (txt "ringbuf_submit_dynptr", 199);
    (txt "ringbuf_discard_dynptr", 200);
    (txt "dynptr_read", 201);
    (txt "dynptr_write", 202);
    (txt "dynptr_data", 203);
    (txt "tcp_raw_gen_syncookie_ipv4", 204);
    (txt "tcp_raw_gen_syncookie_ipv6", 205);
    (txt "tcp_raw_check_syncookie_ipv4", 206);
    (txt "tcp_raw_check_syncookie_ipv6", 207);
    (txt "ktime_get_tai_ns", 208);
    (txt "user_ringbuf_drain", 209);
    (txt "cgrp_storage_get", 210);
    (txt "cgrp_storage_delete", 211);
    (txt "MAX_ID", 212) ].
