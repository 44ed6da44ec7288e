(** The generated functions: /repo/ebpf/aya-ebpf-bindings/src/x86_64/helpers.rs,
    of which the files of the other eight architectures are copies. Types are
    written without the prefix ::aya_ebpf_cty. *)
From Coq Require Import String.
From Verif Require Import Base Text WrapModel.
Open Scope Z_scope.

Definition gen (name : string) (ps : list (string * string)) (ret : string) (fps : list (string * string)) (fret : string) (n : Z) (args : list string) : wrapper :=
  let two := fun p : string * string => (txt (fst p), txt (snd p)) in
  {| w_name := txt name; w_params := map two ps; w_ret := txt ret; w_fun := map two fps; w_fun_ret := txt fret; w_number := n; w_args := map bytes_of_string args |}.

Definition helpers_rs : list wrapper := ([
  gen "bpf_map_lookup_elem" [("map", "*mut c_void"); ("key", "*const c_void")] "*mut c_void" [("map", "*mut c_void"); ("key", "*const c_void")] "*mut c_void" 1 ["map"; "key"];
  gen "bpf_map_update_elem" [("map", "*mut c_void"); ("key", "*const c_void"); ("value", "*const c_void"); ("flags", "__u64")] "c_long" [("map", "*mut c_void"); ("key", "*const c_void"); ("value", "*const c_void"); ("flags", "__u64")] "c_long" 2 ["map"; "key"; "value"; "flags"];
  gen "bpf_map_delete_elem" [("map", "*mut c_void"); ("key", "*const c_void")] "c_long" [("map", "*mut c_void"); ("key", "*const c_void")] "c_long" 3 ["map"; "key"];
  gen "bpf_probe_read" [("dst", "*mut c_void"); ("size", "__u32"); ("unsafe_ptr", "*const c_void")] "c_long" [("dst", "*mut c_void"); ("size", "__u32"); ("unsafe_ptr", "*const c_void")] "c_long" 4 ["dst"; "size"; "unsafe_ptr"];
  gen "bpf_ktime_get_ns" [] "__u64" [] "__u64" 5 [];
  gen "bpf_get_prandom_u32" [] "__u32" [] "__u32" 7 [];
  gen "bpf_get_smp_processor_id" [] "__u32" [] "__u32" 8 [];
  gen "bpf_skb_store_bytes" [("skb", "*mut __sk_buff"); ("offset", "__u32"); ("from", "*const c_void"); ("len", "__u32"); ("flags", "__u64")] "c_long" [("skb", "*mut __sk_buff"); ("offset", "__u32"); ("from", "*const c_void"); ("len", "__u32"); ("flags", "__u64")] "c_long" 9 ["skb"; "offset"; "from"; "len"; "flags"];
  gen "bpf_l3_csum_replace" [("skb", "*mut __sk_buff"); ("offset", "__u32"); ("from", "__u64"); ("to", "__u64"); ("size", "__u64")] "c_long" [("skb", "*mut __sk_buff"); ("offset", "__u32"); ("from", "__u64"); ("to", "__u64"); ("size", "__u64")] "c_long" 10 ["skb"; "offset"; "from"; "to"; "size"];
  gen "bpf_l4_csum_replace" [("skb", "*mut __sk_buff"); ("offset", "__u32"); ("from", "__u64"); ("to", "__u64"); ("flags", "__u64")] "c_long" [("skb", "*mut __sk_buff"); ("offset", "__u32"); ("from", "__u64"); ("to", "__u64"); ("flags", "__u64")] "c_long" 11 ["skb"; "offset"; "from"; "to"; "flags"];
  gen "bpf_tail_call" [("ctx", "*mut c_void"); ("prog_array_map", "*mut c_void"); ("index", "__u32")] "c_long" [("ctx", "*mut c_void"); ("prog_array_map", "*mut c_void"); ("index", "__u32")] "c_long" 12 ["ctx"; "prog_array_map"; "index"];
  gen "bpf_clone_redirect" [("skb", "*mut __sk_buff"); ("ifindex", "__u32"); ("flags", "__u64")] "c_long" [("skb", "*mut __sk_buff"); ("ifindex", "__u32"); ("flags", "__u64")] "c_long" 13 ["skb"; "ifindex"; "flags"];
  gen "bpf_get_current_pid_tgid" [] "__u64" [] "__u64" 14 [];
  gen "bpf_get_current_uid_gid" [] "__u64" [] "__u64" 15 [];
  gen "bpf_get_current_comm" [("buf", "*mut c_void"); ("size_of_buf", "__u32")] "c_long" [("buf", "*mut c_void"); ("size_of_buf", "__u32")] "c_long" 16 ["buf"; "size_of_buf"];
  gen "bpf_get_cgroup_classid" [("skb", "*mut __sk_buff")] "__u32" [("skb", "*mut __sk_buff")] "__u32" 17 ["skb"];
  gen "bpf_skb_vlan_push" [("skb", "*mut __sk_buff"); ("vlan_proto", "__be16"); ("vlan_tci", "__u16")] "c_long" [("skb", "*mut __sk_buff"); ("vlan_proto", "__be16"); ("vlan_tci", "__u16")] "c_long" 18 ["skb"; "vlan_proto"; "vlan_tci"];
  gen "bpf_skb_vlan_pop" [("skb", "*mut __sk_buff")] "c_long" [("skb", "*mut __sk_buff")] "c_long" 19 ["skb"];
  gen "bpf_skb_get_tunnel_key" [("skb", "*mut __sk_buff"); ("key", "*mut bpf_tunnel_key"); ("size", "__u32"); ("flags", "__u64")] "c_long" [("skb", "*mut __sk_buff"); ("key", "*mut bpf_tunnel_key"); ("size", "__u32"); ("flags", "__u64")] "c_long" 20 ["skb"; "key"; "size"; "flags"];
  gen "bpf_skb_set_tunnel_key" [("skb", "*mut __sk_buff"); ("key", "*mut bpf_tunnel_key"); ("size", "__u32"); ("flags", "__u64")] "c_long" [("skb", "*mut __sk_buff"); ("key", "*mut bpf_tunnel_key"); ("size", "__u32"); ("flags", "__u64")] "c_long" 21 ["skb"; "key"; "size"; "flags"];
  gen "bpf_perf_event_read" [("map", "*mut c_void"); ("flags", "__u64")] "__u64" [("map", "*mut c_void"); ("flags", "__u64")] "__u64" 22 ["map"; "flags"];
  gen "bpf_redirect" [("ifindex", "__u32"); ("flags", "__u64")] "c_long" [("ifindex", "__u32"); ("flags", "__u64")] "c_long" 23 ["ifindex"; "flags"];
  gen "bpf_get_route_realm" [("skb", "*mut __sk_buff")] "__u32" [("skb", "*mut __sk_buff")] "__u32" 24 ["skb"];
  gen "bpf_perf_event_output" [("ctx", "*mut c_void"); ("map", "*mut c_void"); ("flags", "__u64"); ("data", "*mut c_void"); ("size", "__u64")] "c_long" [("ctx", "*mut c_void"); ("map", "*mut c_void"); ("flags", "__u64"); ("data", "*mut c_void"); ("size", "__u64")] "c_long" 25 ["ctx"; "map"; "flags"; "data"; "size"];
  gen "bpf_skb_load_bytes" [("skb", "*const c_void"); ("offset", "__u32"); ("to", "*mut c_void"); ("len", "__u32")] "c_long" [("skb", "*const c_void"); ("offset", "__u32"); ("to", "*mut c_void"); ("len", "__u32")] "c_long" 26 ["skb"; "offset"; "to"; "len"];
  gen "bpf_get_stackid" [("ctx", "*mut c_void"); ("map", "*mut c_void"); ("flags", "__u64")] "c_long" [("ctx", "*mut c_void"); ("map", "*mut c_void"); ("flags", "__u64")] "c_long" 27 ["ctx"; "map"; "flags"];
  gen "bpf_csum_diff" [("from", "*mut __be32"); ("from_size", "__u32"); ("to", "*mut __be32"); ("to_size", "__u32"); ("seed", "__wsum")] "__s64" [("from", "*mut __be32"); ("from_size", "__u32"); ("to", "*mut __be32"); ("to_size", "__u32"); ("seed", "__wsum")] "__s64" 28 ["from"; "from_size"; "to"; "to_size"; "seed"];
  gen "bpf_skb_get_tunnel_opt" [("skb", "*mut __sk_buff"); ("opt", "*mut c_void"); ("size", "__u32")] "c_long" [("skb", "*mut __sk_buff"); ("opt", "*mut c_void"); ("size", "__u32")] "c_long" 29 ["skb"; "opt"; "size"];
  gen "bpf_skb_set_tunnel_opt" [("skb", "*mut __sk_buff"); ("opt", "*mut c_void"); ("size", "__u32")] "c_long" [("skb", "*mut __sk_buff"); ("opt", "*mut c_void"); ("size", "__u32")] "c_long" 30 ["skb"; "opt"; "size"];
  gen "bpf_skb_change_proto" [("skb", "*mut __sk_buff"); ("proto", "__be16"); ("flags", "__u64")] "c_long" [("skb", "*mut __sk_buff"); ("proto", "__be16"); ("flags", "__u64")] "c_long" 31 ["skb"; "proto"; "flags"];
  gen "bpf_skb_change_type" [("skb", "*mut __sk_buff"); ("type_", "__u32")] "c_long" [("skb", "*mut __sk_buff"); ("type_", "__u32")] "c_long" 32 ["skb"; "type_"];
  gen "bpf_skb_under_cgroup" [("skb", "*mut __sk_buff"); ("map", "*mut c_void"); ("index", "__u32")] "c_long" [("skb", "*mut __sk_buff"); ("map", "*mut c_void"); ("index", "__u32")] "c_long" 33 ["skb"; "map"; "index"];
  gen "bpf_get_hash_recalc" [("skb", "*mut __sk_buff")] "__u32" [("skb", "*mut __sk_buff")] "__u32" 34 ["skb"];
  gen "bpf_get_current_task" [] "__u64" [] "__u64" 35 [];
  gen "bpf_probe_write_user" [("dst", "*mut c_void"); ("src", "*const c_void"); ("len", "__u32")] "c_long" [("dst", "*mut c_void"); ("src", "*const c_void"); ("len", "__u32")] "c_long" 36 ["dst"; "src"; "len"];
  gen "bpf_current_task_under_cgroup" [("map", "*mut c_void"); ("index", "__u32")] "c_long" [("map", "*mut c_void"); ("index", "__u32")] "c_long" 37 ["map"; "index"];
  gen "bpf_skb_change_tail" [("skb", "*mut __sk_buff"); ("len", "__u32"); ("flags", "__u64")] "c_long" [("skb", "*mut __sk_buff"); ("len", "__u32"); ("flags", "__u64")] "c_long" 38 ["skb"; "len"; "flags"];
  gen "bpf_skb_pull_data" [("skb", "*mut __sk_buff"); ("len", "__u32")] "c_long" [("skb", "*mut __sk_buff"); ("len", "__u32")] "c_long" 39 ["skb"; "len"];
  gen "bpf_csum_update" [("skb", "*mut __sk_buff"); ("csum", "__wsum")] "__s64" [("skb", "*mut __sk_buff"); ("csum", "__wsum")] "__s64" 40 ["skb"; "csum"];
  gen "bpf_set_hash_invalid" [("skb", "*mut __sk_buff")] "" [("skb", "*mut __sk_buff")] "" 41 ["skb"];
  gen "bpf_get_numa_node_id" [] "c_long" [] "c_long" 42 [];
  gen "bpf_skb_change_head" [("skb", "*mut __sk_buff"); ("len", "__u32"); ("flags", "__u64")] "c_long" [("skb", "*mut __sk_buff"); ("len", "__u32"); ("flags", "__u64")] "c_long" 43 ["skb"; "len"; "flags"];
  gen "bpf_xdp_adjust_head" [("xdp_md", "*mut xdp_md"); ("delta", "c_int")] "c_long" [("xdp_md", "*mut xdp_md"); ("delta", "c_int")] "c_long" 44 ["xdp_md"; "delta"];
  gen "bpf_probe_read_str" [("dst", "*mut c_void"); ("size", "__u32"); ("unsafe_ptr", "*const c_void")] "c_long" [("dst", "*mut c_void"); ("size", "__u32"); ("unsafe_ptr", "*const c_void")] "c_long" 45 ["dst"; "size"; "unsafe_ptr"];
  gen "bpf_get_socket_cookie" [("ctx", "*mut c_void")] "__u64" [("ctx", "*mut c_void")] "__u64" 46 ["ctx"];
  gen "bpf_get_socket_uid" [("skb", "*mut __sk_buff")] "__u32" [("skb", "*mut __sk_buff")] "__u32" 47 ["skb"];
  gen "bpf_set_hash" [("skb", "*mut __sk_buff"); ("hash", "__u32")] "c_long" [("skb", "*mut __sk_buff"); ("hash", "__u32")] "c_long" 48 ["skb"; "hash"];
  gen "bpf_setsockopt" [("bpf_socket", "*mut c_void"); ("level", "c_int"); ("optname", "c_int"); ("optval", "*mut c_void"); ("optlen", "c_int")] "c_long" [("bpf_socket", "*mut c_void"); ("level", "c_int"); ("optname", "c_int"); ("optval", "*mut c_void"); ("optlen", "c_int")] "c_long" 49 ["bpf_socket"; "level"; "optname"; "optval"; "optlen"];
  gen "bpf_skb_adjust_room" [("skb", "*mut __sk_buff"); ("len_diff", "__s32"); ("mode", "__u32"); ("flags", "__u64")] "c_long" [("skb", "*mut __sk_buff"); ("len_diff", "__s32"); ("mode", "__u32"); ("flags", "__u64")] "c_long" 50 ["skb"; "len_diff"; "mode"; "flags"];
  gen "bpf_redirect_map" [("map", "*mut c_void"); ("key", "__u64"); ("flags", "__u64")] "c_long" [("map", "*mut c_void"); ("key", "__u64"); ("flags", "__u64")] "c_long" 51 ["map"; "key"; "flags"];
  gen "bpf_sk_redirect_map" [("skb", "*mut __sk_buff"); ("map", "*mut c_void"); ("key", "__u32"); ("flags", "__u64")] "c_long" [("skb", "*mut __sk_buff"); ("map", "*mut c_void"); ("key", "__u32"); ("flags", "__u64")] "c_long" 52 ["skb"; "map"; "key"; "flags"];
  gen "bpf_sock_map_update" [("skops", "*mut bpf_sock_ops"); ("map", "*mut c_void"); ("key", "*mut c_void"); ("flags", "__u64")] "c_long" [("skops", "*mut bpf_sock_ops"); ("map", "*mut c_void"); ("key", "*mut c_void"); ("flags", "__u64")] "c_long" 53 ["skops"; "map"; "key"; "flags"];
  gen "bpf_xdp_adjust_meta" [("xdp_md", "*mut xdp_md"); ("delta", "c_int")] "c_long" [("xdp_md", "*mut xdp_md"); ("delta", "c_int")] "c_long" 54 ["xdp_md"; "delta"];
  gen "bpf_perf_event_read_value" [("map", "*mut c_void"); ("flags", "__u64"); ("buf", "*mut bpf_perf_event_value"); ("buf_size", "__u32")] "c_long" [("map", "*mut c_void"); ("flags", "__u64"); ("buf", "*mut bpf_perf_event_value"); ("buf_size", "__u32")] "c_long" 55 ["map"; "flags"; "buf"; "buf_size"];
  gen "bpf_perf_prog_read_value" [("ctx", "*mut bpf_perf_event_data"); ("buf", "*mut bpf_perf_event_value"); ("buf_size", "__u32")] "c_long" [("ctx", "*mut bpf_perf_event_data"); ("buf", "*mut bpf_perf_event_value"); ("buf_size", "__u32")] "c_long" 56 ["ctx"; "buf"; "buf_size"];
  gen "bpf_getsockopt" [("bpf_socket", "*mut c_void"); ("level", "c_int"); ("optname", "c_int"); ("optval", "*mut c_void"); ("optlen", "c_int")] "c_long" [("bpf_socket", "*mut c_void"); ("level", "c_int"); ("optname", "c_int"); ("optval", "*mut c_void"); ("optlen", "c_int")] "c_long" 57 ["bpf_socket"; "level"; "optname"; "optval"; "optlen"];
  gen "bpf_override_return" [("regs", "*mut pt_regs"); ("rc", "__u64")] "c_long" [("regs", "*mut pt_regs"); ("rc", "__u64")] "c_long" 58 ["regs"; "rc"];
  gen "bpf_sock_ops_cb_flags_set" [("bpf_sock", "*mut bpf_sock_ops"); ("argval", "c_int")] "c_long" [("bpf_sock", "*mut bpf_sock_ops"); ("argval", "c_int")] "c_long" 59 ["bpf_sock"; "argval"];
  gen "bpf_msg_redirect_map" [("msg", "*mut sk_msg_md"); ("map", "*mut c_void"); ("key", "__u32"); ("flags", "__u64")] "c_long" [("msg", "*mut sk_msg_md"); ("map", "*mut c_void"); ("key", "__u32"); ("flags", "__u64")] "c_long" 60 ["msg"; "map"; "key"; "flags"];
  gen "bpf_msg_apply_bytes" [("msg", "*mut sk_msg_md"); ("bytes", "__u32")] "c_long" [("msg", "*mut sk_msg_md"); ("bytes", "__u32")] "c_long" 61 ["msg"; "bytes"];
  gen "bpf_msg_cork_bytes" [("msg", "*mut sk_msg_md"); ("bytes", "__u32")] "c_long" [("msg", "*mut sk_msg_md"); ("bytes", "__u32")] "c_long" 62 ["msg"; "bytes"];
  gen "bpf_msg_pull_data" [("msg", "*mut sk_msg_md"); ("start", "__u32"); ("end", "__u32"); ("flags", "__u64")] "c_long" [("msg", "*mut sk_msg_md"); ("start", "__u32"); ("end", "__u32"); ("flags", "__u64")] "c_long" 63 ["msg"; "start"; "end"; "flags"];
  gen "bpf_bind" [("ctx", "*mut bpf_sock_addr"); ("addr", "*mut sockaddr"); ("addr_len", "c_int")] "c_long" [("ctx", "*mut bpf_sock_addr"); ("addr", "*mut sockaddr"); ("addr_len", "c_int")] "c_long" 64 ["ctx"; "addr"; "addr_len"];
  gen "bpf_xdp_adjust_tail" [("xdp_md", "*mut xdp_md"); ("delta", "c_int")] "c_long" [("xdp_md", "*mut xdp_md"); ("delta", "c_int")] "c_long" 65 ["xdp_md"; "delta"];
  gen "bpf_skb_get_xfrm_state" [("skb", "*mut __sk_buff"); ("index", "__u32"); ("xfrm_state", "*mut bpf_xfrm_state"); ("size", "__u32"); ("flags", "__u64")] "c_long" [("skb", "*mut __sk_buff"); ("index", "__u32"); ("xfrm_state", "*mut bpf_xfrm_state"); ("size", "__u32"); ("flags", "__u64")] "c_long" 66 ["skb"; "index"; "xfrm_state"; "size"; "flags"];
  gen "bpf_get_stack" [("ctx", "*mut c_void"); ("buf", "*mut c_void"); ("size", "__u32"); ("flags", "__u64")] "c_long" [("ctx", "*mut c_void"); ("buf", "*mut c_void"); ("size", "__u32"); ("flags", "__u64")] "c_long" 67 ["ctx"; "buf"; "size"; "flags"];
  gen "bpf_skb_load_bytes_relative" [("skb", "*const c_void"); ("offset", "__u32"); ("to", "*mut c_void"); ("len", "__u32"); ("start_header", "__u32")] "c_long" [("skb", "*const c_void"); ("offset", "__u32"); ("to", "*mut c_void"); ("len", "__u32"); ("start_header", "__u32")] "c_long" 68 ["skb"; "offset"; "to"; "len"; "start_header"];
  gen "bpf_fib_lookup" [("ctx", "*mut c_void"); ("params", "*mut bpf_fib_lookup"); ("plen", "c_int"); ("flags", "__u32")] "c_long" [("ctx", "*mut c_void"); ("params", "*mut bpf_fib_lookup"); ("plen", "c_int"); ("flags", "__u32")] "c_long" 69 ["ctx"; "params"; "plen"; "flags"];
  gen "bpf_sock_hash_update" [("skops", "*mut bpf_sock_ops"); ("map", "*mut c_void"); ("key", "*mut c_void"); ("flags", "__u64")] "c_long" [("skops", "*mut bpf_sock_ops"); ("map", "*mut c_void"); ("key", "*mut c_void"); ("flags", "__u64")] "c_long" 70 ["skops"; "map"; "key"; "flags"];
  gen "bpf_msg_redirect_hash" [("msg", "*mut sk_msg_md"); ("map", "*mut c_void"); ("key", "*mut c_void"); ("flags", "__u64")] "c_long" [("msg", "*mut sk_msg_md"); ("map", "*mut c_void"); ("key", "*mut c_void"); ("flags", "__u64")] "c_long" 71 ["msg"; "map"; "key"; "flags"];
  gen "bpf_sk_redirect_hash" [("skb", "*mut __sk_buff"); ("map", "*mut c_void"); ("key", "*mut c_void"); ("flags", "__u64")] "c_long" [("skb", "*mut __sk_buff"); ("map", "*mut c_void"); ("key", "*mut c_void"); ("flags", "__u64")] "c_long" 72 ["skb"; "map"; "key"; "flags"];
  gen "bpf_lwt_push_encap" [("skb", "*mut __sk_buff"); ("type_", "__u32"); ("hdr", "*mut c_void"); ("len", "__u32")] "c_long" [("skb", "*mut __sk_buff"); ("type_", "__u32"); ("hdr", "*mut c_void"); ("len", "__u32")] "c_long" 73 ["skb"; "type_"; "hdr"; "len"];
  gen "bpf_lwt_seg6_store_bytes" [("skb", "*mut __sk_buff"); ("offset", "__u32"); ("from", "*const c_void"); ("len", "__u32")] "c_long" [("skb", "*mut __sk_buff"); ("offset", "__u32"); ("from", "*const c_void"); ("len", "__u32")] "c_long" 74 ["skb"; "offset"; "from"; "len"];
  gen "bpf_lwt_seg6_adjust_srh" [("skb", "*mut __sk_buff"); ("offset", "__u32"); ("delta", "__s32")] "c_long" [("skb", "*mut __sk_buff"); ("offset", "__u32"); ("delta", "__s32")] "c_long" 75 ["skb"; "offset"; "delta"];
  gen "bpf_lwt_seg6_action" [("skb", "*mut __sk_buff"); ("action", "__u32"); ("param", "*mut c_void"); ("param_len", "__u32")] "c_long" [("skb", "*mut __sk_buff"); ("action", "__u32"); ("param", "*mut c_void"); ("param_len", "__u32")] "c_long" 76 ["skb"; "action"; "param"; "param_len"];
  gen "bpf_rc_repeat" [("ctx", "*mut c_void")] "c_long" [("ctx", "*mut c_void")] "c_long" 77 ["ctx"];
  gen "bpf_rc_keydown" [("ctx", "*mut c_void"); ("protocol", "__u32"); ("scancode", "__u64"); ("toggle", "__u32")] "c_long" [("ctx", "*mut c_void"); ("protocol", "__u32"); ("scancode", "__u64"); ("toggle", "__u32")] "c_long" 78 ["ctx"; "protocol"; "scancode"; "toggle"];
  gen "bpf_skb_cgroup_id" [("skb", "*mut __sk_buff")] "__u64" [("skb", "*mut __sk_buff")] "__u64" 79 ["skb"];
  gen "bpf_get_current_cgroup_id" [] "__u64" [] "__u64" 80 [];
  gen "bpf_get_local_storage" [("map", "*mut c_void"); ("flags", "__u64")] "*mut c_void" [("map", "*mut c_void"); ("flags", "__u64")] "*mut c_void" 81 ["map"; "flags"];
  gen "bpf_sk_select_reuseport" [("reuse", "*mut sk_reuseport_md"); ("map", "*mut c_void"); ("key", "*mut c_void"); ("flags", "__u64")] "c_long" [("reuse", "*mut sk_reuseport_md"); ("map", "*mut c_void"); ("key", "*mut c_void"); ("flags", "__u64")] "c_long" 82 ["reuse"; "map"; "key"; "flags"];
  gen "bpf_skb_ancestor_cgroup_id" [("skb", "*mut __sk_buff"); ("ancestor_level", "c_int")] "__u64" [("skb", "*mut __sk_buff"); ("ancestor_level", "c_int")] "__u64" 83 ["skb"; "ancestor_level"];
  gen "bpf_sk_lookup_tcp" [("ctx", "*mut c_void"); ("tuple", "*mut bpf_sock_tuple"); ("tuple_size", "__u32"); ("netns", "__u64"); ("flags", "__u64")] "*mut bpf_sock" [("ctx", "*mut c_void"); ("tuple", "*mut bpf_sock_tuple"); ("tuple_size", "__u32"); ("netns", "__u64"); ("flags", "__u64")] "*mut bpf_sock" 84 ["ctx"; "tuple"; "tuple_size"; "netns"; "flags"];
  gen "bpf_sk_lookup_udp" [("ctx", "*mut c_void"); ("tuple", "*mut bpf_sock_tuple"); ("tuple_size", "__u32"); ("netns", "__u64"); ("flags", "__u64")] "*mut bpf_sock" [("ctx", "*mut c_void"); ("tuple", "*mut bpf_sock_tuple"); ("tuple_size", "__u32"); ("netns", "__u64"); ("flags", "__u64")] "*mut bpf_sock" 85 ["ctx"; "tuple"; "tuple_size"; "netns"; "flags"];
  gen "bpf_sk_release" [("sock", "*mut c_void")] "c_long" [("sock", "*mut c_void")] "c_long" 86 ["sock"];
  gen "bpf_map_push_elem" [("map", "*mut c_void"); ("value", "*const c_void"); ("flags", "__u64")] "c_long" [("map", "*mut c_void"); ("value", "*const c_void"); ("flags", "__u64")] "c_long" 87 ["map"; "value"; "flags"];
  gen "bpf_map_pop_elem" [("map", "*mut c_void"); ("value", "*mut c_void")] "c_long" [("map", "*mut c_void"); ("value", "*mut c_void")] "c_long" 88 ["map"; "value"];
  gen "bpf_map_peek_elem" [("map", "*mut c_void"); ("value", "*mut c_void")] "c_long" [("map", "*mut c_void"); ("value", "*mut c_void")] "c_long" 89 ["map"; "value"];
  gen "bpf_msg_push_data" [("msg", "*mut sk_msg_md"); ("start", "__u32"); ("len", "__u32"); ("flags", "__u64")] "c_long" [("msg", "*mut sk_msg_md"); ("start", "__u32"); ("len", "__u32"); ("flags", "__u64")] "c_long" 90 ["msg"; "start"; "len"; "flags"];
  gen "bpf_msg_pop_data" [("msg", "*mut sk_msg_md"); ("start", "__u32"); ("len", "__u32"); ("flags", "__u64")] "c_long" [("msg", "*mut sk_msg_md"); ("start", "__u32"); ("len", "__u32"); ("flags", "__u64")] "c_long" 91 ["msg"; "start"; "len"; "flags"];
  gen "bpf_rc_pointer_rel" [("ctx", "*mut c_void"); ("rel_x", "__s32"); ("rel_y", "__s32")] "c_long" [("ctx", "*mut c_void"); ("rel_x", "__s32"); ("rel_y", "__s32")] "c_long" 92 ["ctx"; "rel_x"; "rel_y"];
  gen "bpf_spin_lock" [("lock", "*mut bpf_spin_lock")] "c_long" [("lock", "*mut bpf_spin_lock")] "c_long" 93 ["lock"];
  gen "bpf_spin_unlock" [("lock", "*mut bpf_spin_lock")] "c_long" [("lock", "*mut bpf_spin_lock")] "c_long" 94 ["lock"];
  gen "bpf_sk_fullsock" [("sk", "*mut bpf_sock")] "*mut bpf_sock" [("sk", "*mut bpf_sock")] "*mut bpf_sock" 95 ["sk"];
  gen "bpf_tcp_sock" [("sk", "*mut bpf_sock")] "*mut bpf_tcp_sock" [("sk", "*mut bpf_sock")] "*mut bpf_tcp_sock" 96 ["sk"];
  gen "bpf_skb_ecn_set_ce" [("skb", "*mut __sk_buff")] "c_long" [("skb", "*mut __sk_buff")] "c_long" 97 ["skb"];
  gen "bpf_get_listener_sock" [("sk", "*mut bpf_sock")] "*mut bpf_sock" [("sk", "*mut bpf_sock")] "*mut bpf_sock" 98 ["sk"];
  gen "bpf_skc_lookup_tcp" [("ctx", "*mut c_void"); ("tuple", "*mut bpf_sock_tuple"); ("tuple_size", "__u32"); ("netns", "__u64"); ("flags", "__u64")] "*mut bpf_sock" [("ctx", "*mut c_void"); ("tuple", "*mut bpf_sock_tuple"); ("tuple_size", "__u32"); ("netns", "__u64"); ("flags", "__u64")] "*mut bpf_sock" 99 ["ctx"; "tuple"; "tuple_size"; "netns"; "flags"];
  gen "bpf_tcp_check_syncookie" [("sk", "*mut c_void"); ("iph", "*mut c_void"); ("iph_len", "__u32"); ("th", "*mut tcphdr"); ("th_len", "__u32")] "c_long" [("sk", "*mut c_void"); ("iph", "*mut c_void"); ("iph_len", "__u32"); ("th", "*mut tcphdr"); ("th_len", "__u32")] "c_long" 100 ["sk"; "iph"; "iph_len"; "th"; "th_len"];
  gen "bpf_sysctl_get_name" [("ctx", "*mut bpf_sysctl"); ("buf", "*mut c_char"); ("buf_len", "c_ulong"); ("flags", "__u64")] "c_long" [("ctx", "*mut bpf_sysctl"); ("buf", "*mut c_char"); ("buf_len", "c_ulong"); ("flags", "__u64")] "c_long" 101 ["ctx"; "buf"; "buf_len"; "flags"];
  gen "bpf_sysctl_get_current_value" [("ctx", "*mut bpf_sysctl"); ("buf", "*mut c_char"); ("buf_len", "c_ulong")] "c_long" [("ctx", "*mut bpf_sysctl"); ("buf", "*mut c_char"); ("buf_len", "c_ulong")] "c_long" 102 ["ctx"; "buf"; "buf_len"];
  gen "bpf_sysctl_get_new_value" [("ctx", "*mut bpf_sysctl"); ("buf", "*mut c_char"); ("buf_len", "c_ulong")] "c_long" [("ctx", "*mut bpf_sysctl"); ("buf", "*mut c_char"); ("buf_len", "c_ulong")] "c_long" 103 ["ctx"; "buf"; "buf_len"];
  gen "bpf_sysctl_set_new_value" [("ctx", "*mut bpf_sysctl"); ("buf", "*const c_char"); ("buf_len", "c_ulong")] "c_long" [("ctx", "*mut bpf_sysctl"); ("buf", "*const c_char"); ("buf_len", "c_ulong")] "c_long" 104 ["ctx"; "buf"; "buf_len"];
  gen "bpf_strtol" [("buf", "*const c_char"); ("buf_len", "c_ulong"); ("flags", "__u64"); ("res", "*mut c_long")] "c_long" [("buf", "*const c_char"); ("buf_len", "c_ulong"); ("flags", "__u64"); ("res", "*mut c_long")] "c_long" 105 ["buf"; "buf_len"; "flags"; "res"];
  gen "bpf_strtoul" [("buf", "*const c_char"); ("buf_len", "c_ulong"); ("flags", "__u64"); ("res", "*mut c_ulong")] "c_long" [("buf", "*const c_char"); ("buf_len", "c_ulong"); ("flags", "__u64"); ("res", "*mut c_ulong")] "c_long" 106 ["buf"; "buf_len"; "flags"; "res"];
  gen "bpf_sk_storage_get" [("map", "*mut c_void"); ("sk", "*mut c_void"); ("value", "*mut c_void"); ("flags", "__u64")] "*mut c_void" [("map", "*mut c_void"); ("sk", "*mut c_void"); ("value", "*mut c_void"); ("flags", "__u64")] "*mut c_void" 107 ["map"; "sk"; "value"; "flags"];
  gen "bpf_sk_storage_delete" [("map", "*mut c_void"); ("sk", "*mut c_void")] "c_long" [("map", "*mut c_void"); ("sk", "*mut c_void")] "c_long" 108 ["map"; "sk"];
  gen "bpf_send_signal" [("sig", "__u32")] "c_long" [("sig", "__u32")] "c_long" 109 ["sig"];
  gen "bpf_tcp_gen_syncookie" [("sk", "*mut c_void"); ("iph", "*mut c_void"); ("iph_len", "__u32"); ("th", "*mut tcphdr"); ("th_len", "__u32")] "__s64" [("sk", "*mut c_void"); ("iph", "*mut c_void"); ("iph_len", "__u32"); ("th", "*mut tcphdr"); ("th_len", "__u32")] "__s64" 110 ["sk"; "iph"; "iph_len"; "th"; "th_len"];
  gen "bpf_skb_output" [("ctx", "*mut c_void"); ("map", "*mut c_void"); ("flags", "__u64"); ("data", "*mut c_void"); ("size", "__u64")] "c_long" [("ctx", "*mut c_void"); ("map", "*mut c_void"); ("flags", "__u64"); ("data", "*mut c_void"); ("size", "__u64")] "c_long" 111 ["ctx"; "map"; "flags"; "data"; "size"];
  gen "bpf_probe_read_user" [("dst", "*mut c_void"); ("size", "__u32"); ("unsafe_ptr", "*const c_void")] "c_long" [("dst", "*mut c_void"); ("size", "__u32"); ("unsafe_ptr", "*const c_void")] "c_long" 112 ["dst"; "size"; "unsafe_ptr"];
  gen "bpf_probe_read_kernel" [("dst", "*mut c_void"); ("size", "__u32"); ("unsafe_ptr", "*const c_void")] "c_long" [("dst", "*mut c_void"); ("size", "__u32"); ("unsafe_ptr", "*const c_void")] "c_long" 113 ["dst"; "size"; "unsafe_ptr"];
  gen "bpf_probe_read_user_str" [("dst", "*mut c_void"); ("size", "__u32"); ("unsafe_ptr", "*const c_void")] "c_long" [("dst", "*mut c_void"); ("size", "__u32"); ("unsafe_ptr", "*const c_void")] "c_long" 114 ["dst"; "size"; "unsafe_ptr"];
  gen "bpf_probe_read_kernel_str" [("dst", "*mut c_void"); ("size", "__u32"); ("unsafe_ptr", "*const c_void")] "c_long" [("dst", "*mut c_void"); ("size", "__u32"); ("unsafe_ptr", "*const c_void")] "c_long" 115 ["dst"; "size"; "unsafe_ptr"];
  gen "bpf_tcp_send_ack" [("tp", "*mut c_void"); ("rcv_nxt", "__u32")] "c_long" [("tp", "*mut c_void"); ("rcv_nxt", "__u32")] "c_long" 116 ["tp"; "rcv_nxt"];
  gen "bpf_send_signal_thread" [("sig", "__u32")] "c_long" [("sig", "__u32")] "c_long" 117 ["sig"];
  gen "bpf_jiffies64" [] "__u64" [] "__u64" 118 [];
  gen "bpf_read_branch_records" [("ctx", "*mut bpf_perf_event_data"); ("buf", "*mut c_void"); ("size", "__u32"); ("flags", "__u64")] "c_long" [("ctx", "*mut bpf_perf_event_data"); ("buf", "*mut c_void"); ("size", "__u32"); ("flags", "__u64")] "c_long" 119 ["ctx"; "buf"; "size"; "flags"];
  gen "bpf_get_ns_current_pid_tgid" [("dev", "__u64"); ("ino", "__u64"); ("nsdata", "*mut bpf_pidns_info"); ("size", "__u32")] "c_long" [("dev", "__u64"); ("ino", "__u64"); ("nsdata", "*mut bpf_pidns_info"); ("size", "__u32")] "c_long" 120 ["dev"; "ino"; "nsdata"; "size"];
  gen "bpf_xdp_output" [("ctx", "*mut c_void"); ("map", "*mut c_void"); ("flags", "__u64"); ("data", "*mut c_void"); ("size", "__u64")] "c_long" [("ctx", "*mut c_void"); ("map", "*mut c_void"); ("flags", "__u64"); ("data", "*mut c_void"); ("size", "__u64")] "c_long" 121 ["ctx"; "map"; "flags"; "data"; "size"];
  gen "bpf_get_netns_cookie" [("ctx", "*mut c_void")] "__u64" [("ctx", "*mut c_void")] "__u64" 122 ["ctx"];
  gen "bpf_get_current_ancestor_cgroup_id" [("ancestor_level", "c_int")] "__u64" [("ancestor_level", "c_int")] "__u64" 123 ["ancestor_level"];
  gen "bpf_sk_assign" [("ctx", "*mut c_void"); ("sk", "*mut c_void"); ("flags", "__u64")] "c_long" [("ctx", "*mut c_void"); ("sk", "*mut c_void"); ("flags", "__u64")] "c_long" 124 ["ctx"; "sk"; "flags"];
  gen "bpf_ktime_get_boot_ns" [] "__u64" [] "__u64" 125 [];
  gen "bpf_seq_printf" [("m", "*mut seq_file"); ("fmt", "*const c_char"); ("fmt_size", "__u32"); ("data", "*const c_void"); ("data_len", "__u32")] "c_long" [("m", "*mut seq_file"); ("fmt", "*const c_char"); ("fmt_size", "__u32"); ("data", "*const c_void"); ("data_len", "__u32")] "c_long" 126 ["m"; "fmt"; "fmt_size"; "data"; "data_len"];
  gen "bpf_seq_write" [("m", "*mut seq_file"); ("data", "*const c_void"); ("len", "__u32")] "c_long" [("m", "*mut seq_file"); ("data", "*const c_void"); ("len", "__u32")] "c_long" 127 ["m"; "data"; "len"];
  gen "bpf_sk_cgroup_id" [("sk", "*mut c_void")] "__u64" [("sk", "*mut c_void")] "__u64" 128 ["sk"];
  gen "bpf_sk_ancestor_cgroup_id" [("sk", "*mut c_void"); ("ancestor_level", "c_int")] "__u64" [("sk", "*mut c_void"); ("ancestor_level", "c_int")] "__u64" 129 ["sk"; "ancestor_level"];
  gen "bpf_ringbuf_output" [("ringbuf", "*mut c_void"); ("data", "*mut c_void"); ("size", "__u64"); ("flags", "__u64")] "c_long" [("ringbuf", "*mut c_void"); ("data", "*mut c_void"); ("size", "__u64"); ("flags", "__u64")] "c_long" 130 ["ringbuf"; "data"; "size"; "flags"];
  gen "bpf_ringbuf_reserve" [("ringbuf", "*mut c_void"); ("size", "__u64"); ("flags", "__u64")] "*mut c_void" [("ringbuf", "*mut c_void"); ("size", "__u64"); ("flags", "__u64")] "*mut c_void" 131 ["ringbuf"; "size"; "flags"];
  gen "bpf_ringbuf_submit" [("data", "*mut c_void"); ("flags", "__u64")] "" [("data", "*mut c_void"); ("flags", "__u64")] "" 132 ["data"; "flags"];
  gen "bpf_ringbuf_discard" [("data", "*mut c_void"); ("flags", "__u64")] "" [("data", "*mut c_void"); ("flags", "__u64")] "" 133 ["data"; "flags"];
  gen "bpf_ringbuf_query" [("ringbuf", "*mut c_void"); ("flags", "__u64")] "__u64" [("ringbuf", "*mut c_void"); ("flags", "__u64")] "__u64" 134 ["ringbuf"; "flags"];
  gen "bpf_csum_level" [("skb", "*mut __sk_buff"); ("level", "__u64")] "c_long" [("skb", "*mut __sk_buff"); ("level", "__u64")] "c_long" 135 ["skb"; "level"];
  gen "bpf_skc_to_tcp6_sock" [("sk", "*mut c_void")] "*mut tcp6_sock" [("sk", "*mut c_void")] "*mut tcp6_sock" 136 ["sk"];
  gen "bpf_skc_to_tcp_sock" [("sk", "*mut c_void")] "*mut tcp_sock" [("sk", "*mut c_void")] "*mut tcp_sock" 137 ["sk"];
  gen "bpf_skc_to_tcp_timewait_sock" [("sk", "*mut c_void")] "*mut tcp_timewait_sock" [("sk", "*mut c_void")] "*mut tcp_timewait_sock" 138 ["sk"];
  gen "bpf_skc_to_tcp_request_sock" [("sk", "*mut c_void")] "*mut tcp_request_sock" [("sk", "*mut c_void")] "*mut tcp_request_sock" 139 ["sk"];
  gen "bpf_skc_to_udp6_sock" [("sk", "*mut c_void")] "*mut udp6_sock" [("sk", "*mut c_void")] "*mut udp6_sock" 140 ["sk"];
  gen "bpf_get_task_stack" [("task", "*mut task_struct"); ("buf", "*mut c_void"); ("size", "__u32"); ("flags", "__u64")] "c_long" [("task", "*mut task_struct"); ("buf", "*mut c_void"); ("size", "__u32"); ("flags", "__u64")] "c_long" 141 ["task"; "buf"; "size"; "flags"];
  gen "bpf_load_hdr_opt" [("skops", "*mut bpf_sock_ops"); ("searchby_res", "*mut c_void"); ("len", "__u32"); ("flags", "__u64")] "c_long" [("skops", "*mut bpf_sock_ops"); ("searchby_res", "*mut c_void"); ("len", "__u32"); ("flags", "__u64")] "c_long" 142 ["skops"; "searchby_res"; "len"; "flags"];
  gen "bpf_store_hdr_opt" [("skops", "*mut bpf_sock_ops"); ("from", "*const c_void"); ("len", "__u32"); ("flags", "__u64")] "c_long" [("skops", "*mut bpf_sock_ops"); ("from", "*const c_void"); ("len", "__u32"); ("flags", "__u64")] "c_long" 143 ["skops"; "from"; "len"; "flags"];
  gen "bpf_reserve_hdr_opt" [("skops", "*mut bpf_sock_ops"); ("len", "__u32"); ("flags", "__u64")] "c_long" [("skops", "*mut bpf_sock_ops"); ("len", "__u32"); ("flags", "__u64")] "c_long" 144 ["skops"; "len"; "flags"];
  gen "bpf_inode_storage_get" [("map", "*mut c_void"); ("inode", "*mut c_void"); ("value", "*mut c_void"); ("flags", "__u64")] "*mut c_void" [("map", "*mut c_void"); ("inode", "*mut c_void"); ("value", "*mut c_void"); ("flags", "__u64")] "*mut c_void" 145 ["map"; "inode"; "value"; "flags"];
  gen "bpf_inode_storage_delete" [("map", "*mut c_void"); ("inode", "*mut c_void")] "c_int" [("map", "*mut c_void"); ("inode", "*mut c_void")] "c_int" 146 ["map"; "inode"];
  gen "bpf_d_path" [("path", "*mut path"); ("buf", "*mut c_char"); ("sz", "__u32")] "c_long" [("path", "*mut path"); ("buf", "*mut c_char"); ("sz", "__u32")] "c_long" 147 ["path"; "buf"; "sz"];
  gen "bpf_copy_from_user" [("dst", "*mut c_void"); ("size", "__u32"); ("user_ptr", "*const c_void")] "c_long" [("dst", "*mut c_void"); ("size", "__u32"); ("user_ptr", "*const c_void")] "c_long" 148 ["dst"; "size"; "user_ptr"];
  gen "bpf_snprintf_btf" [("str_", "*mut c_char"); ("str_size", "__u32"); ("ptr", "*mut btf_ptr"); ("btf_ptr_size", "__u32"); ("flags", "__u64")] "c_long" [("str_", "*mut c_char"); ("str_size", "__u32"); ("ptr", "*mut btf_ptr"); ("btf_ptr_size", "__u32"); ("flags", "__u64")] "c_long" 149 ["str_"; "str_size"; "ptr"; "btf_ptr_size"; "flags"];
  gen "bpf_seq_printf_btf" [("m", "*mut seq_file"); ("ptr", "*mut btf_ptr"); ("ptr_size", "__u32"); ("flags", "__u64")] "c_long" [("m", "*mut seq_file"); ("ptr", "*mut btf_ptr"); ("ptr_size", "__u32"); ("flags", "__u64")] "c_long" 150 ["m"; "ptr"; "ptr_size"; "flags"];
  gen "bpf_skb_cgroup_classid" [("skb", "*mut __sk_buff")] "__u64" [("skb", "*mut __sk_buff")] "__u64" 151 ["skb"];
  gen "bpf_redirect_neigh" [("ifindex", "__u32"); ("params", "*mut bpf_redir_neigh"); ("plen", "c_int"); ("flags", "__u64")] "c_long" [("ifindex", "__u32"); ("params", "*mut bpf_redir_neigh"); ("plen", "c_int"); ("flags", "__u64")] "c_long" 152 ["ifindex"; "params"; "plen"; "flags"];
  gen "bpf_per_cpu_ptr" [("percpu_ptr", "*const c_void"); ("cpu", "__u32")] "*mut c_void" [("percpu_ptr", "*const c_void"); ("cpu", "__u32")] "*mut c_void" 153 ["percpu_ptr"; "cpu"];
  gen "bpf_this_cpu_ptr" [("percpu_ptr", "*const c_void")] "*mut c_void" [("percpu_ptr", "*const c_void")] "*mut c_void" 154 ["percpu_ptr"];
  gen "bpf_redirect_peer" [("ifindex", "__u32"); ("flags", "__u64")] "c_long" [("ifindex", "__u32"); ("flags", "__u64")] "c_long" 155 ["ifindex"; "flags"];
  gen "bpf_task_storage_get" [("map", "*mut c_void"); ("task", "*mut task_struct"); ("value", "*mut c_void"); ("flags", "__u64")] "*mut c_void" [("map", "*mut c_void"); ("task", "*mut task_struct"); ("value", "*mut c_void"); ("flags", "__u64")] "*mut c_void" 156 ["map"; "task"; "value"; "flags"];
  gen "bpf_task_storage_delete" [("map", "*mut c_void"); ("task", "*mut task_struct")] "c_long" [("map", "*mut c_void"); ("task", "*mut task_struct")] "c_long" 157 ["map"; "task"];
  gen "bpf_get_current_task_btf" [] "*mut task_struct" [] "*mut task_struct" 158 [];
  gen "bpf_bprm_opts_set" [("bprm", "*mut linux_binprm"); ("flags", "__u64")] "c_long" [("bprm", "*mut linux_binprm"); ("flags", "__u64")] "c_long" 159 ["bprm"; "flags"];
  gen "bpf_ktime_get_coarse_ns" [] "__u64" [] "__u64" 160 [];
  gen "bpf_ima_inode_hash" [("inode", "*mut inode"); ("dst", "*mut c_void"); ("size", "__u32")] "c_long" [("inode", "*mut inode"); ("dst", "*mut c_void"); ("size", "__u32")] "c_long" 161 ["inode"; "dst"; "size"];
  gen "bpf_sock_from_file" [("file", "*mut file")] "*mut socket" [("file", "*mut file")] "*mut socket" 162 ["file"];
  gen "bpf_check_mtu" [("ctx", "*mut c_void"); ("ifindex", "__u32"); ("mtu_len", "*mut __u32"); ("len_diff", "__s32"); ("flags", "__u64")] "c_long" [("ctx", "*mut c_void"); ("ifindex", "__u32"); ("mtu_len", "*mut __u32"); ("len_diff", "__s32"); ("flags", "__u64")] "c_long" 163 ["ctx"; "ifindex"; "mtu_len"; "len_diff"; "flags"];
  gen "bpf_for_each_map_elem" [("map", "*mut c_void"); ("callback_fn", "*mut c_void"); ("callback_ctx", "*mut c_void"); ("flags", "__u64")] "c_long" [("map", "*mut c_void"); ("callback_fn", "*mut c_void"); ("callback_ctx", "*mut c_void"); ("flags", "__u64")] "c_long" 164 ["map"; "callback_fn"; "callback_ctx"; "flags"];
  gen "bpf_snprintf" [("str_", "*mut c_char"); ("str_size", "__u32"); ("fmt", "*const c_char"); ("data", "*mut __u64"); ("data_len", "__u32")] "c_long" [("str_", "*mut c_char"); ("str_size", "__u32"); ("fmt", "*const c_char"); ("data", "*mut __u64"); ("data_len", "__u32")] "c_long" 165 ["str_"; "str_size"; "fmt"; "data"; "data_len"];
  gen "bpf_sys_bpf" [("cmd", "__u32"); ("attr", "*mut c_void"); ("attr_size", "__u32")] "c_long" [("cmd", "__u32"); ("attr", "*mut c_void"); ("attr_size", "__u32")] "c_long" 166 ["cmd"; "attr"; "attr_size"];
  gen "bpf_btf_find_by_name_kind" [("name", "*mut c_char"); ("name_sz", "c_int"); ("kind", "__u32"); ("flags", "c_int")] "c_long" [("name", "*mut c_char"); ("name_sz", "c_int"); ("kind", "__u32"); ("flags", "c_int")] "c_long" 167 ["name"; "name_sz"; "kind"; "flags"];
  gen "bpf_sys_close" [("fd", "__u32")] "c_long" [("fd", "__u32")] "c_long" 168 ["fd"];
  gen "bpf_timer_init" [("timer", "*mut bpf_timer"); ("map", "*mut c_void"); ("flags", "__u64")] "c_long" [("timer", "*mut bpf_timer"); ("map", "*mut c_void"); ("flags", "__u64")] "c_long" 169 ["timer"; "map"; "flags"];
  gen "bpf_timer_set_callback" [("timer", "*mut bpf_timer"); ("callback_fn", "*mut c_void")] "c_long" [("timer", "*mut bpf_timer"); ("callback_fn", "*mut c_void")] "c_long" 170 ["timer"; "callback_fn"];
  gen "bpf_timer_start" [("timer", "*mut bpf_timer"); ("nsecs", "__u64"); ("flags", "__u64")] "c_long" [("timer", "*mut bpf_timer"); ("nsecs", "__u64"); ("flags", "__u64")] "c_long" 171 ["timer"; "nsecs"; "flags"];
  gen "bpf_timer_cancel" [("timer", "*mut bpf_timer")] "c_long" [("timer", "*mut bpf_timer")] "c_long" 172 ["timer"];
  gen "bpf_get_func_ip" [("ctx", "*mut c_void")] "__u64" [("ctx", "*mut c_void")] "__u64" 173 ["ctx"];
  gen "bpf_get_attach_cookie" [("ctx", "*mut c_void")] "__u64" [("ctx", "*mut c_void")] "__u64" 174 ["ctx"];
  gen "bpf_task_pt_regs" [("task", "*mut task_struct")] "c_long" [("task", "*mut task_struct")] "c_long" 175 ["task"];
  gen "bpf_get_branch_snapshot" [("entries", "*mut c_void"); ("size", "__u32"); ("flags", "__u64")] "c_long" [("entries", "*mut c_void"); ("size", "__u32"); ("flags", "__u64")] "c_long" 176 ["entries"; "size"; "flags"];
  gen "bpf_trace_vprintk" [("fmt", "*const c_char"); ("fmt_size", "__u32"); ("data", "*const c_void"); ("data_len", "__u32")] "c_long" [("fmt", "*const c_char"); ("fmt_size", "__u32"); ("data", "*const c_void"); ("data_len", "__u32")] "c_long" 177 ["fmt"; "fmt_size"; "data"; "data_len"];
  gen "bpf_skc_to_unix_sock" [("sk", "*mut c_void")] "*mut unix_sock" [("sk", "*mut c_void")] "*mut unix_sock" 178 ["sk"];
  gen "bpf_kallsyms_lookup_name" [("name", "*const c_char"); ("name_sz", "c_int"); ("flags", "c_int"); ("res", "*mut __u64")] "c_long" [("name", "*const c_char"); ("name_sz", "c_int"); ("flags", "c_int"); ("res", "*mut __u64")] "c_long" 179 ["name"; "name_sz"; "flags"; "res"];
  gen "bpf_find_vma" [("task", "*mut task_struct"); ("addr", "__u64"); ("callback_fn", "*mut c_void"); ("callback_ctx", "*mut c_void"); ("flags", "__u64")] "c_long" [("task", "*mut task_struct"); ("addr", "__u64"); ("callback_fn", "*mut c_void"); ("callback_ctx", "*mut c_void"); ("flags", "__u64")] "c_long" 180 ["task"; "addr"; "callback_fn"; "callback_ctx"; "flags"];
  gen "bpf_loop" [("nr_loops", "__u32"); ("callback_fn", "*mut c_void"); ("callback_ctx", "*mut c_void"); ("flags", "__u64")] "c_long" [("nr_loops", "__u32"); ("callback_fn", "*mut c_void"); ("callback_ctx", "*mut c_void"); ("flags", "__u64")] "c_long" 181 ["nr_loops"; "callback_fn"; "callback_ctx"; "flags"];
  gen "bpf_strncmp" [("s1", "*const c_char"); ("s1_sz", "__u32"); ("s2", "*const c_char")] "c_long" [("s1", "*const c_char"); ("s1_sz", "__u32"); ("s2", "*const c_char")] "c_long" 182 ["s1"; "s1_sz"; "s2"];
  gen "bpf_get_func_arg" [("ctx", "*mut c_void"); ("n", "__u32"); ("value", "*mut __u64")] "c_long" [("ctx", "*mut c_void"); ("n", "__u32"); ("value", "*mut __u64")] "c_long" 183 ["ctx"; "n"; "value"];
  gen "bpf_get_func_ret" [("ctx", "*mut c_void"); ("value", "*mut __u64")] "c_long" [("ctx", "*mut c_void"); ("value", "*mut __u64")] "c_long" 184 ["ctx"; "value"];
  gen "bpf_get_func_arg_cnt" [("ctx", "*mut c_void")] "c_long" [("ctx", "*mut c_void")] "c_long" 185 ["ctx"];
  gen "bpf_get_retval" [] "c_int" [] "c_int" 186 [];
  gen "bpf_set_retval" [("retval", "c_int")] "c_int" [("retval", "c_int")] "c_int" 187 ["retval"];
  gen "bpf_xdp_get_buff_len" [("xdp_md", "*mut xdp_md")] "__u64" [("xdp_md", "*mut xdp_md")] "__u64" 188 ["xdp_md"];
  gen "bpf_xdp_load_bytes" [("xdp_md", "*mut xdp_md"); ("offset", "__u32"); ("buf", "*mut c_void"); ("len", "__u32")] "c_long" [("xdp_md", "*mut xdp_md"); ("offset", "__u32"); ("buf", "*mut c_void"); ("len", "__u32")] "c_long" 189 ["xdp_md"; "offset"; "buf"; "len"];
  gen "bpf_xdp_store_bytes" [("xdp_md", "*mut xdp_md"); ("offset", "__u32"); ("buf", "*mut c_void"); ("len", "__u32")] "c_long" [("xdp_md", "*mut xdp_md"); ("offset", "__u32"); ("buf", "*mut c_void"); ("len", "__u32")] "c_long" 190 ["xdp_md"; "offset"; "buf"; "len"];
  gen "bpf_copy_from_user_task" [("dst", "*mut c_void"); ("size", "__u32"); ("user_ptr", "*const c_void"); ("tsk", "*mut task_struct"); ("flags", "__u64")] "c_long" [("dst", "*mut c_void"); ("size", "__u32"); ("user_ptr", "*const c_void"); ("tsk", "*mut task_struct"); ("flags", "__u64")] "c_long" 191 ["dst"; "size"; "user_ptr"; "tsk"; "flags"];
  gen "bpf_skb_set_tstamp" [("skb", "*mut __sk_buff"); ("tstamp", "__u64"); ("tstamp_type", "__u32")] "c_long" [("skb", "*mut __sk_buff"); ("tstamp", "__u64"); ("tstamp_type", "__u32")] "c_long" 192 ["skb"; "tstamp"; "tstamp_type"];
  gen "bpf_ima_file_hash" [("file", "*mut file"); ("dst", "*mut c_void"); ("size", "__u32")] "c_long" [("file", "*mut file"); ("dst", "*mut c_void"); ("size", "__u32")] "c_long" 193 ["file"; "dst"; "size"];
  gen "bpf_kptr_xchg" [("map_value", "*mut c_void"); ("ptr", "*mut c_void")] "*mut c_void" [("map_value", "*mut c_void"); ("ptr", "*mut c_void")] "*mut c_void" 194 ["map_value"; "ptr"];
  gen "bpf_map_lookup_percpu_elem" [("map", "*mut c_void"); ("key", "*const c_void"); ("cpu", "__u32")] "*mut c_void" [("map", "*mut c_void"); ("key", "*const c_void"); ("cpu", "__u32")] "*mut c_void" 195 ["map"; "key"; "cpu"];
  gen "bpf_skc_to_mptcp_sock" [("sk", "*mut c_void")] "*mut mptcp_sock" [("sk", "*mut c_void")] "*mut mptcp_sock" 196 ["sk"];
  gen "bpf_dynptr_from_mem" [("data", "*mut c_void"); ("size", "__u32"); ("flags", "__u64"); ("ptr", "*mut bpf_dynptr")] "c_long" [("data", "*mut c_void"); ("size", "__u32"); ("flags", "__u64"); ("ptr", "*mut bpf_dynptr")] "c_long" 197 ["data"; "size"; "flags"; "ptr"];
  gen "bpf_ringbuf_reserve_dynptr" [("ringbuf", "*mut c_void"); ("size", "__u32"); ("flags", "__u64"); ("ptr", "*mut bpf_dynptr")] "c_long" [("ringbuf", "*mut c_void"); ("size", "__u32"); ("flags", "__u64"); ("ptr", "*mut bpf_dynptr")] "c_long" 198 ["ringbuf"; "size"; "flags"; "ptr"];
  gen "bpf_ringbuf_submit_dynptr" [("ptr", "*mut bpf_dynptr"); ("flags", "__u64")] "" [("ptr", "*mut bpf_dynptr"); ("flags", "__u64")] "" 199 ["ptr"; "flags"];
  gen "bpf_ringbuf_discard_dynptr" [("ptr", "*mut bpf_dynptr"); ("flags", "__u64")] "" [("ptr", "*mut bpf_dynptr"); ("flags", "__u64")] "" 200 ["ptr"; "flags"];
  gen "bpf_dynptr_read" [("dst", "*mut c_void"); ("len", "__u32"); ("src", "*const bpf_dynptr"); ("offset", "__u32"); ("flags", "__u64")] "c_long" [("dst", "*mut c_void"); ("len", "__u32"); ("src", "*const bpf_dynptr"); ("offset", "__u32"); ("flags", "__u64")] "c_long" 201 ["dst"; "len"; "src"; "offset"; "flags"];
  gen "bpf_dynptr_write" [("dst", "*const bpf_dynptr"); ("offset", "__u32"); ("src", "*mut c_void"); ("len", "__u32"); ("flags", "__u64")] "c_long" [("dst", "*const bpf_dynptr"); ("offset", "__u32"); ("src", "*mut c_void"); ("len", "__u32"); ("flags", "__u64")] "c_long" 202 ["dst"; "offset"; "src"; "len"; "flags"];
  gen "bpf_dynptr_data" [("ptr", "*const bpf_dynptr"); ("offset", "__u32"); ("len", "__u32")] "*mut c_void" [("ptr", "*const bpf_dynptr"); ("offset", "__u32"); ("len", "__u32")] "*mut c_void" 203 ["ptr"; "offset"; "len"];
  gen "bpf_tcp_raw_gen_syncookie_ipv4" [("iph", "*mut iphdr"); ("th", "*mut tcphdr"); ("th_len", "__u32")] "__s64" [("iph", "*mut iphdr"); ("th", "*mut tcphdr"); ("th_len", "__u32")] "__s64" 204 ["iph"; "th"; "th_len"];
  gen "bpf_tcp_raw_gen_syncookie_ipv6" [("iph", "*mut ipv6hdr"); ("th", "*mut tcphdr"); ("th_len", "__u32")] "__s64" [("iph", "*mut ipv6hdr"); ("th", "*mut tcphdr"); ("th_len", "__u32")] "__s64" 205 ["iph"; "th"; "th_len"];
  gen "bpf_tcp_raw_check_syncookie_ipv4" [("iph", "*mut iphdr"); ("th", "*mut tcphdr")] "c_long" [("iph", "*mut iphdr"); ("th", "*mut tcphdr")] "c_long" 206 ["iph"; "th"];
  gen "bpf_tcp_raw_check_syncookie_ipv6" [("iph", "*mut ipv6hdr"); ("th", "*mut tcphdr")] "c_long" [("iph", "*mut ipv6hdr"); ("th", "*mut tcphdr")] "c_long" 207 ["iph"; "th"];
  gen "bpf_ktime_get_tai_ns" [] "__u64" [] "__u64" 208 [];
  gen "bpf_user_ringbuf_drain" [("map", "*mut c_void"); ("callback_fn", "*mut c_void"); ("ctx", "*mut c_void"); ("flags", "__u64")] "c_long" [("map", "*mut c_void"); ("callback_fn", "*mut c_void"); ("ctx", "*mut c_void"); ("flags", "__u64")] "c_long" 209 ["map"; "callback_fn"; "ctx"; "flags"];
  gen "bpf_cgrp_storage_get" [("map", "*mut c_void"); ("cgroup", "*mut cgroup"); ("value", "*mut c_void"); ("flags", "__u64")] "*mut c_void" [("map", "*mut c_void"); ("cgroup", "*mut cgroup"); ("value", "*mut c_void"); ("flags", "__u64")] "*mut c_void" 210 ["map"; "cgroup"; "value"; "flags"];
  gen "bpf_cgrp_storage_delete" [("map", "*mut c_void"); ("cgroup", "*mut cgroup")] "c_long" [("map", "*mut c_void"); ("cgroup", "*mut cgroup")] "c_long" 211 ["map"; "cgroup"]
])%string.
