(** The declarations of the structures shared with the kernel, line by line
    as in aya-obj/src/generated/linux_bindings_x86_64.rs (the line numbers are
    given; the declarations are the same for every architecture the library
    supports). A bit field unit is its bytes ([__BindgenBitfieldUnit] is
    [repr(C)] around the array). *)
From Coq Require Import String.
From Verif Require Import Base LayoutModel.
Import ListNotations.
Local Open Scope string_scope.
Local Open Scope Z_scope.

Definition d_bpf_insn : ty := (* 338-344 *)
  Struct [("code", Int 1); ("_bitfield_align_1", Arr 0 (Int 1)); ("_bitfield_1", Arr 1 (Int 1)); ("off", Int 2); ("imm", Int 4)].
Definition d_bpf_attr__bindgen_ty_1 : ty := (* 728-745 *)
  Struct [("map_type", Int 4); ("key_size", Int 4); ("value_size", Int 4); ("max_entries", Int 4); ("map_flags", Int 4); ("inner_map_fd", Int 4);
    ("numa_node", Int 4); ("map_name", Arr 16 (Int 1)); ("map_ifindex", Int 4); ("btf_fd", Int 4); ("btf_key_type_id", Int 4); ("btf_value_type_id",
    Int 4); ("btf_vmlinux_value_type_id", Int 4); ("map_extra", Int 8); ("value_type_btf_obj_fd", Int 4); ("map_token_fd", Int 4)].
Definition d_bpf_attr__bindgen_ty_2__bindgen_ty_1 : ty := (* 756-759 *)
  Union [("value", Int 8); ("next_key", Int 8)].
Definition d_bpf_attr__bindgen_ty_2 : ty := (* 748-753 *)
  Struct [("map_fd", Int 4); ("key", Int 8); ("__bindgen_anon_1", d_bpf_attr__bindgen_ty_2__bindgen_ty_1); ("flags", Int 8)].
Definition d_bpf_attr__bindgen_ty_3 : ty := (* 762-771 *)
  Struct [("in_batch", Int 8); ("out_batch", Int 8); ("keys", Int 8); ("values", Int 8); ("count", Int 4); ("map_fd", Int 4); ("elem_flags", Int 8);
    ("flags", Int 8)].
Definition d_bpf_attr__bindgen_ty_4__bindgen_ty_1 : ty := (* 805-808 *)
  Union [("attach_prog_fd", Int 4); ("attach_btf_obj_fd", Int 4)].
Definition d_bpf_attr__bindgen_ty_4 : ty := (* 774-802 *)
  Struct [("prog_type", Int 4); ("insn_cnt", Int 4); ("insns", Int 8); ("license", Int 8); ("log_level", Int 4); ("log_size", Int 4); ("log_buf", Int
    8); ("kern_version", Int 4); ("prog_flags", Int 4); ("prog_name", Arr 16 (Int 1)); ("prog_ifindex", Int 4); ("expected_attach_type", Int 4);
    ("prog_btf_fd", Int 4); ("func_info_rec_size", Int 4); ("func_info", Int 8); ("func_info_cnt", Int 4); ("line_info_rec_size", Int 4);
    ("line_info", Int 8); ("line_info_cnt", Int 4); ("attach_btf_id", Int 4); ("__bindgen_anon_1", d_bpf_attr__bindgen_ty_4__bindgen_ty_1);
    ("core_relo_cnt", Int 4); ("fd_array", Int 8); ("core_relos", Int 8); ("core_relo_rec_size", Int 4); ("log_true_size", Int 4); ("prog_token_fd",
    Int 4)].
Definition d_bpf_attr__bindgen_ty_5 : ty := (* 811-816 *)
  Struct [("pathname", Int 8); ("bpf_fd", Int 4); ("file_flags", Int 4); ("path_fd", Int 4)].
Definition d_bpf_attr__bindgen_ty_6__bindgen_ty_1 : ty := (* 830-833 *)
  Union [("target_fd", Int 4); ("target_ifindex", Int 4)].
Definition d_bpf_attr__bindgen_ty_6__bindgen_ty_2 : ty := (* 836-839 *)
  Union [("relative_fd", Int 4); ("relative_id", Int 4)].
Definition d_bpf_attr__bindgen_ty_6 : ty := (* 819-827 *)
  Struct [("__bindgen_anon_1", d_bpf_attr__bindgen_ty_6__bindgen_ty_1); ("attach_bpf_fd", Int 4); ("attach_type", Int 4); ("attach_flags", Int 4);
    ("replace_bpf_fd", Int 4); ("__bindgen_anon_2", d_bpf_attr__bindgen_ty_6__bindgen_ty_2); ("expected_revision", Int 8)].
Definition d_bpf_attr__bindgen_ty_7 : ty := (* 842-858 *)
  Struct [("prog_fd", Int 4); ("retval", Int 4); ("data_size_in", Int 4); ("data_size_out", Int 4); ("data_in", Int 8); ("data_out", Int 8);
    ("repeat", Int 4); ("duration", Int 4); ("ctx_size_in", Int 4); ("ctx_size_out", Int 4); ("ctx_in", Int 8); ("ctx_out", Int 8); ("flags", Int 4);
    ("cpu", Int 4); ("batch_size", Int 4)].
Definition d_bpf_attr__bindgen_ty_8__bindgen_ty_1 : ty := (* 868-874 *)
  Union [("start_id", Int 4); ("prog_id", Int 4); ("map_id", Int 4); ("btf_id", Int 4); ("link_id", Int 4)].
Definition d_bpf_attr__bindgen_ty_8 : ty := (* 861-865 *)
  Struct [("__bindgen_anon_1", d_bpf_attr__bindgen_ty_8__bindgen_ty_1); ("next_id", Int 4); ("open_flags", Int 4)].
Definition d_bpf_attr__bindgen_ty_9 : ty := (* 877-881 *)
  Struct [("bpf_fd", Int 4); ("info_len", Int 4); ("info", Int 8)].
Definition d_bpf_attr__bindgen_ty_10__bindgen_ty_1 : ty := (* 900-903 *)
  Union [("target_fd", Int 4); ("target_ifindex", Int 4)].
Definition d_bpf_attr__bindgen_ty_10__bindgen_ty_2 : ty := (* 906-909 *)
  Union [("prog_cnt", Int 4); ("count", Int 4)].
Definition d_bpf_attr__bindgen_ty_10 : ty := (* 884-897 *)
  Struct [("__bindgen_anon_1", d_bpf_attr__bindgen_ty_10__bindgen_ty_1); ("attach_type", Int 4); ("query_flags", Int 4); ("attach_flags", Int 4);
    ("prog_ids", Int 8); ("__bindgen_anon_2", d_bpf_attr__bindgen_ty_10__bindgen_ty_2); ("_bitfield_align_1", Arr 0 (Int 1)); ("_bitfield_1", Arr 4
    (Int 1)); ("prog_attach_flags", Int 8); ("link_ids", Int 8); ("link_attach_flags", Int 8); ("revision", Int 8)].
Definition d_bpf_attr__bindgen_ty_11 : ty := (* 919-925 *)
  Struct [("name", Int 8); ("prog_fd", Int 4); ("_bitfield_align_1", Arr 0 (Int 1)); ("_bitfield_1", Arr 4 (Int 1)); ("cookie", Int 8)].
Definition d_bpf_attr__bindgen_ty_12 : ty := (* 935-944 *)
  Struct [("btf", Int 8); ("btf_log_buf", Int 8); ("btf_size", Int 4); ("btf_log_size", Int 4); ("btf_log_level", Int 4); ("btf_log_true_size", Int
    4); ("btf_flags", Int 4); ("btf_token_fd", Int 4)].
Definition d_bpf_attr__bindgen_ty_13 : ty := (* 947-957 *)
  Struct [("pid", Int 4); ("fd", Int 4); ("flags", Int 4); ("buf_len", Int 4); ("buf", Int 8); ("prog_id", Int 4); ("fd_type", Int 4);
    ("probe_offset", Int 8); ("probe_addr", Int 8)].
Definition d_bpf_attr__bindgen_ty_14__bindgen_ty_1 : ty := (* 969-972 *)
  Union [("prog_fd", Int 4); ("map_fd", Int 4)].
Definition d_bpf_attr__bindgen_ty_14__bindgen_ty_2 : ty := (* 975-978 *)
  Union [("target_fd", Int 4); ("target_ifindex", Int 4)].
Definition d_bpf_attr__bindgen_ty_14__bindgen_ty_3__bindgen_ty_1 : ty := (* 994-997 *)
  Struct [("iter_info", Int 8); ("iter_info_len", Int 4)].
Definition d_bpf_attr__bindgen_ty_14__bindgen_ty_3__bindgen_ty_2 : ty := (* 1000-1002 *)
  Struct [("bpf_cookie", Int 8)].
Definition d_bpf_attr__bindgen_ty_14__bindgen_ty_3__bindgen_ty_3 : ty := (* 1005-1011 *)
  Struct [("flags", Int 4); ("cnt", Int 4); ("syms", Int 8); ("addrs", Int 8); ("cookies", Int 8)].
Definition d_bpf_attr__bindgen_ty_14__bindgen_ty_3__bindgen_ty_4 : ty := (* 1014-1017 *)
  Struct [("target_btf_id", Int 4); ("cookie", Int 8)].
Definition d_bpf_attr__bindgen_ty_14__bindgen_ty_3__bindgen_ty_5 : ty := (* 1020-1025 *)
  Struct [("pf", Int 4); ("hooknum", Int 4); ("priority", Int 4); ("flags", Int 4)].
Definition d_bpf_attr__bindgen_ty_14__bindgen_ty_3__bindgen_ty_6__bindgen_ty_1 : ty := (* 1034-1037 *)
  Union [("relative_fd", Int 4); ("relative_id", Int 4)].
Definition d_bpf_attr__bindgen_ty_14__bindgen_ty_3__bindgen_ty_6 : ty := (* 1028-1031 *)
  Struct [("__bindgen_anon_1", d_bpf_attr__bindgen_ty_14__bindgen_ty_3__bindgen_ty_6__bindgen_ty_1); ("expected_revision", Int 8)].
Definition d_bpf_attr__bindgen_ty_14__bindgen_ty_3__bindgen_ty_7 : ty := (* 1040-1048 *)
  Struct [("path", Int 8); ("offsets", Int 8); ("ref_ctr_offsets", Int 8); ("cookies", Int 8); ("cnt", Int 4); ("flags", Int 4); ("pid", Int 4)].
Definition d_bpf_attr__bindgen_ty_14__bindgen_ty_3__bindgen_ty_8__bindgen_ty_1 : ty := (* 1057-1060 *)
  Union [("relative_fd", Int 4); ("relative_id", Int 4)].
Definition d_bpf_attr__bindgen_ty_14__bindgen_ty_3__bindgen_ty_8 : ty := (* 1051-1054 *)
  Struct [("__bindgen_anon_1", d_bpf_attr__bindgen_ty_14__bindgen_ty_3__bindgen_ty_8__bindgen_ty_1); ("expected_revision", Int 8)].
Definition d_bpf_attr__bindgen_ty_14__bindgen_ty_3 : ty := (* 981-991 *)
  Union [("target_btf_id", Int 4); ("__bindgen_anon_1", d_bpf_attr__bindgen_ty_14__bindgen_ty_3__bindgen_ty_1); ("perf_event",
    d_bpf_attr__bindgen_ty_14__bindgen_ty_3__bindgen_ty_2); ("kprobe_multi", d_bpf_attr__bindgen_ty_14__bindgen_ty_3__bindgen_ty_3); ("tracing",
    d_bpf_attr__bindgen_ty_14__bindgen_ty_3__bindgen_ty_4); ("netfilter", d_bpf_attr__bindgen_ty_14__bindgen_ty_3__bindgen_ty_5); ("tcx",
    d_bpf_attr__bindgen_ty_14__bindgen_ty_3__bindgen_ty_6); ("uprobe_multi", d_bpf_attr__bindgen_ty_14__bindgen_ty_3__bindgen_ty_7); ("netkit",
    d_bpf_attr__bindgen_ty_14__bindgen_ty_3__bindgen_ty_8)].
Definition d_bpf_attr__bindgen_ty_14 : ty := (* 960-966 *)
  Struct [("__bindgen_anon_1", d_bpf_attr__bindgen_ty_14__bindgen_ty_1); ("__bindgen_anon_2", d_bpf_attr__bindgen_ty_14__bindgen_ty_2);
    ("attach_type", Int 4); ("flags", Int 4); ("__bindgen_anon_3", d_bpf_attr__bindgen_ty_14__bindgen_ty_3)].
Definition d_bpf_attr__bindgen_ty_15__bindgen_ty_1 : ty := (* 1071-1074 *)
  Union [("new_prog_fd", Int 4); ("new_map_fd", Int 4)].
Definition d_bpf_attr__bindgen_ty_15__bindgen_ty_2 : ty := (* 1077-1080 *)
  Union [("old_prog_fd", Int 4); ("old_map_fd", Int 4)].
Definition d_bpf_attr__bindgen_ty_15 : ty := (* 1063-1068 *)
  Struct [("link_fd", Int 4); ("__bindgen_anon_1", d_bpf_attr__bindgen_ty_15__bindgen_ty_1); ("flags", Int 4); ("__bindgen_anon_2",
    d_bpf_attr__bindgen_ty_15__bindgen_ty_2)].
Definition d_bpf_attr__bindgen_ty_16 : ty := (* 1083-1085 *)
  Struct [("link_fd", Int 4)].
Definition d_bpf_attr__bindgen_ty_17 : ty := (* 1088-1090 *)
  Struct [("type_", Int 4)].
Definition d_bpf_attr__bindgen_ty_18 : ty := (* 1093-1096 *)
  Struct [("link_fd", Int 4); ("flags", Int 4)].
Definition d_bpf_attr__bindgen_ty_19 : ty := (* 1099-1103 *)
  Struct [("prog_fd", Int 4); ("map_fd", Int 4); ("flags", Int 4)].
Definition d_bpf_attr__bindgen_ty_20 : ty := (* 1106-1109 *)
  Struct [("flags", Int 4); ("bpffs_fd", Int 4)].
Definition d_bpf_attr : ty := (* 704-725 *)
  Union [("__bindgen_anon_1", d_bpf_attr__bindgen_ty_1); ("__bindgen_anon_2", d_bpf_attr__bindgen_ty_2); ("batch", d_bpf_attr__bindgen_ty_3);
    ("__bindgen_anon_3", d_bpf_attr__bindgen_ty_4); ("__bindgen_anon_4", d_bpf_attr__bindgen_ty_5); ("__bindgen_anon_5", d_bpf_attr__bindgen_ty_6);
    ("test", d_bpf_attr__bindgen_ty_7); ("__bindgen_anon_6", d_bpf_attr__bindgen_ty_8); ("info", d_bpf_attr__bindgen_ty_9); ("query",
    d_bpf_attr__bindgen_ty_10); ("raw_tracepoint", d_bpf_attr__bindgen_ty_11); ("__bindgen_anon_7", d_bpf_attr__bindgen_ty_12); ("task_fd_query",
    d_bpf_attr__bindgen_ty_13); ("link_create", d_bpf_attr__bindgen_ty_14); ("link_update", d_bpf_attr__bindgen_ty_15); ("link_detach",
    d_bpf_attr__bindgen_ty_16); ("enable_stats", d_bpf_attr__bindgen_ty_17); ("iter_create", d_bpf_attr__bindgen_ty_18); ("prog_bind_map",
    d_bpf_attr__bindgen_ty_19); ("token_create", d_bpf_attr__bindgen_ty_20)].
Definition d_bpf_prog_info : ty := (* 1475-1515 *)
  Struct [("type_", Int 4); ("id", Int 4); ("tag", Arr 8 (Int 1)); ("jited_prog_len", Int 4); ("xlated_prog_len", Int 4); ("jited_prog_insns", Int 8);
    ("xlated_prog_insns", Int 8); ("load_time", Int 8); ("created_by_uid", Int 4); ("nr_map_ids", Int 4); ("map_ids", Int 8); ("name", Arr 16 (Int
    1)); ("ifindex", Int 4); ("_bitfield_align_1", Arr 0 (Int 1)); ("_bitfield_1", Arr 4 (Int 1)); ("netns_dev", Int 8); ("netns_ino", Int 8);
    ("nr_jited_ksyms", Int 4); ("nr_jited_func_lens", Int 4); ("jited_ksyms", Int 8); ("jited_func_lens", Int 8); ("btf_id", Int 4);
    ("func_info_rec_size", Int 4); ("func_info", Int 8); ("nr_func_info", Int 4); ("nr_line_info", Int 4); ("line_info", Int 8); ("jited_line_info",
    Int 8); ("nr_jited_line_info", Int 4); ("line_info_rec_size", Int 4); ("jited_line_info_rec_size", Int 4); ("nr_prog_tags", Int 4); ("prog_tags",
    Int 8); ("run_time_ns", Int 8); ("run_cnt", Int 8); ("recursion_misses", Int 8); ("verified_insns", Int 4); ("attach_btf_obj_id", Int 4);
    ("attach_btf_id", Int 4)].
Definition d_bpf_map_info : ty := (* 1562-1579 *)
  Struct [("type_", Int 4); ("id", Int 4); ("key_size", Int 4); ("value_size", Int 4); ("max_entries", Int 4); ("map_flags", Int 4); ("name", Arr 16
    (Int 1)); ("ifindex", Int 4); ("btf_vmlinux_value_type_id", Int 4); ("netns_dev", Int 8); ("netns_ino", Int 8); ("btf_id", Int 4);
    ("btf_key_type_id", Int 4); ("btf_value_type_id", Int 4); ("btf_vmlinux_id", Int 4); ("map_extra", Int 8)].
Definition d_bpf_btf_info : ty := (* 1582-1589 *)
  Struct [("btf", Int 8); ("btf_size", Int 4); ("id", Int 4); ("name", Int 8); ("name_len", Int 4); ("kernel_btf", Int 4)].
Definition d_bpf_link_info__bindgen_ty_1__bindgen_ty_1 : ty := (* 1617-1620 *)
  Struct [("tp_name", Int 8); ("tp_name_len", Int 4)].
Definition d_bpf_link_info__bindgen_ty_1__bindgen_ty_2 : ty := (* 1623-1627 *)
  Struct [("attach_type", Int 4); ("target_obj_id", Int 4); ("target_btf_id", Int 4)].
Definition d_bpf_link_info__bindgen_ty_1__bindgen_ty_3 : ty := (* 1630-1633 *)
  Struct [("cgroup_id", Int 8); ("attach_type", Int 4)].
Definition d_bpf_link_info__bindgen_ty_1__bindgen_ty_4__bindgen_ty_1__bindgen_ty_1 : ty := (* 1649-1651 *)
  Struct [("map_id", Int 4)].
Definition d_bpf_link_info__bindgen_ty_1__bindgen_ty_4__bindgen_ty_1 : ty := (* 1644-1646 *)
  Union [("map", d_bpf_link_info__bindgen_ty_1__bindgen_ty_4__bindgen_ty_1__bindgen_ty_1)].
Definition d_bpf_link_info__bindgen_ty_1__bindgen_ty_4__bindgen_ty_2__bindgen_ty_1 : ty := (* 1660-1663 *)
  Struct [("cgroup_id", Int 8); ("order", Int 4)].
Definition d_bpf_link_info__bindgen_ty_1__bindgen_ty_4__bindgen_ty_2__bindgen_ty_2 : ty := (* 1666-1669 *)
  Struct [("tid", Int 4); ("pid", Int 4)].
Definition d_bpf_link_info__bindgen_ty_1__bindgen_ty_4__bindgen_ty_2 : ty := (* 1654-1657 *)
  Union [("cgroup", d_bpf_link_info__bindgen_ty_1__bindgen_ty_4__bindgen_ty_2__bindgen_ty_1); ("task",
    d_bpf_link_info__bindgen_ty_1__bindgen_ty_4__bindgen_ty_2__bindgen_ty_2)].
Definition d_bpf_link_info__bindgen_ty_1__bindgen_ty_4 : ty := (* 1636-1641 *)
  Struct [("target_name", Int 8); ("target_name_len", Int 4); ("__bindgen_anon_1", d_bpf_link_info__bindgen_ty_1__bindgen_ty_4__bindgen_ty_1);
    ("__bindgen_anon_2", d_bpf_link_info__bindgen_ty_1__bindgen_ty_4__bindgen_ty_2)].
Definition d_bpf_link_info__bindgen_ty_1__bindgen_ty_5 : ty := (* 1672-1675 *)
  Struct [("netns_ino", Int 4); ("attach_type", Int 4)].
Definition d_bpf_link_info__bindgen_ty_1__bindgen_ty_6 : ty := (* 1678-1680 *)
  Struct [("ifindex", Int 4)].
Definition d_bpf_link_info__bindgen_ty_1__bindgen_ty_7 : ty := (* 1683-1685 *)
  Struct [("map_id", Int 4)].
Definition d_bpf_link_info__bindgen_ty_1__bindgen_ty_8 : ty := (* 1688-1693 *)
  Struct [("pf", Int 4); ("hooknum", Int 4); ("priority", Int 4); ("flags", Int 4)].
Definition d_bpf_link_info__bindgen_ty_1__bindgen_ty_9 : ty := (* 1696-1702 *)
  Struct [("addrs", Int 8); ("count", Int 4); ("flags", Int 4); ("missed", Int 8); ("cookies", Int 8)].
Definition d_bpf_link_info__bindgen_ty_1__bindgen_ty_10 : ty := (* 1705-1714 *)
  Struct [("path", Int 8); ("offsets", Int 8); ("ref_ctr_offsets", Int 8); ("cookies", Int 8); ("path_size", Int 4); ("count", Int 4); ("flags", Int
    4); ("pid", Int 4)].
Definition d_bpf_link_info__bindgen_ty_1__bindgen_ty_11__bindgen_ty_1__bindgen_ty_1 : ty := (* 1733-1738 *)
  Struct [("file_name", Int 8); ("name_len", Int 4); ("offset", Int 4); ("cookie", Int 8)].
Definition d_bpf_link_info__bindgen_ty_1__bindgen_ty_11__bindgen_ty_1__bindgen_ty_2 : ty := (* 1741-1748 *)
  Struct [("func_name", Int 8); ("name_len", Int 4); ("offset", Int 4); ("addr", Int 8); ("missed", Int 8); ("cookie", Int 8)].
Definition d_bpf_link_info__bindgen_ty_1__bindgen_ty_11__bindgen_ty_1__bindgen_ty_3 : ty := (* 1751-1757 *)
  Struct [("tp_name", Int 8); ("name_len", Int 4); ("_bitfield_align_1", Arr 0 (Int 1)); ("_bitfield_1", Arr 4 (Int 1)); ("cookie", Int 8)].
Definition d_bpf_link_info__bindgen_ty_1__bindgen_ty_11__bindgen_ty_1__bindgen_ty_4 : ty := (* 1767-1773 *)
  Struct [("config", Int 8); ("type_", Int 4); ("_bitfield_align_1", Arr 0 (Int 1)); ("_bitfield_1", Arr 4 (Int 1)); ("cookie", Int 8)].
Definition d_bpf_link_info__bindgen_ty_1__bindgen_ty_11__bindgen_ty_1 : ty := (* 1725-1730 *)
  Union [("uprobe", d_bpf_link_info__bindgen_ty_1__bindgen_ty_11__bindgen_ty_1__bindgen_ty_1); ("kprobe",
    d_bpf_link_info__bindgen_ty_1__bindgen_ty_11__bindgen_ty_1__bindgen_ty_2); ("tracepoint",
    d_bpf_link_info__bindgen_ty_1__bindgen_ty_11__bindgen_ty_1__bindgen_ty_3); ("event",
    d_bpf_link_info__bindgen_ty_1__bindgen_ty_11__bindgen_ty_1__bindgen_ty_4)].
Definition d_bpf_link_info__bindgen_ty_1__bindgen_ty_11 : ty := (* 1717-1722 *)
  Struct [("type_", Int 4); ("_bitfield_align_1", Arr 0 (Int 1)); ("_bitfield_1", Arr 4 (Int 1)); ("__bindgen_anon_1",
    d_bpf_link_info__bindgen_ty_1__bindgen_ty_11__bindgen_ty_1)].
Definition d_bpf_link_info__bindgen_ty_1__bindgen_ty_12 : ty := (* 1790-1793 *)
  Struct [("ifindex", Int 4); ("attach_type", Int 4)].
Definition d_bpf_link_info__bindgen_ty_1__bindgen_ty_13 : ty := (* 1796-1799 *)
  Struct [("ifindex", Int 4); ("attach_type", Int 4)].
Definition d_bpf_link_info__bindgen_ty_1 : ty := (* 1600-1614 *)
  Union [("raw_tracepoint", d_bpf_link_info__bindgen_ty_1__bindgen_ty_1); ("tracing", d_bpf_link_info__bindgen_ty_1__bindgen_ty_2); ("cgroup",
    d_bpf_link_info__bindgen_ty_1__bindgen_ty_3); ("iter", d_bpf_link_info__bindgen_ty_1__bindgen_ty_4); ("netns",
    d_bpf_link_info__bindgen_ty_1__bindgen_ty_5); ("xdp", d_bpf_link_info__bindgen_ty_1__bindgen_ty_6); ("struct_ops",
    d_bpf_link_info__bindgen_ty_1__bindgen_ty_7); ("netfilter", d_bpf_link_info__bindgen_ty_1__bindgen_ty_8); ("kprobe_multi",
    d_bpf_link_info__bindgen_ty_1__bindgen_ty_9); ("uprobe_multi", d_bpf_link_info__bindgen_ty_1__bindgen_ty_10); ("perf_event",
    d_bpf_link_info__bindgen_ty_1__bindgen_ty_11); ("tcx", d_bpf_link_info__bindgen_ty_1__bindgen_ty_12); ("netkit",
    d_bpf_link_info__bindgen_ty_1__bindgen_ty_13)].
Definition d_bpf_link_info : ty := (* 1592-1597 *)
  Struct [("type_", Int 4); ("id", Int 4); ("prog_id", Int 4); ("__bindgen_anon_1", d_bpf_link_info__bindgen_ty_1)].
Definition d_perf_event_attr__bindgen_ty_1 : ty := (* 2306-2309 *)
  Union [("sample_period", Int 8); ("sample_freq", Int 8)].
Definition d_perf_event_attr__bindgen_ty_2 : ty := (* 2312-2315 *)
  Union [("wakeup_events", Int 4); ("wakeup_watermark", Int 4)].
Definition d_perf_event_attr__bindgen_ty_3 : ty := (* 2318-2323 *)
  Union [("bp_addr", Int 8); ("kprobe_func", Int 8); ("uprobe_path", Int 8); ("config1", Int 8)].
Definition d_perf_event_attr__bindgen_ty_4 : ty := (* 2326-2331 *)
  Union [("bp_len", Int 8); ("kprobe_addr", Int 8); ("probe_offset", Int 8); ("config2", Int 8)].
Definition d_perf_event_attr : ty := (* 2278-2303 *)
  Struct [("type_", Int 4); ("size", Int 4); ("config", Int 8); ("__bindgen_anon_1", d_perf_event_attr__bindgen_ty_1); ("sample_type", Int 8);
    ("read_format", Int 8); ("_bitfield_align_1", Arr 0 (Int 4)); ("_bitfield_1", Arr 8 (Int 1)); ("__bindgen_anon_2",
    d_perf_event_attr__bindgen_ty_2); ("bp_type", Int 4); ("__bindgen_anon_3", d_perf_event_attr__bindgen_ty_3); ("__bindgen_anon_4",
    d_perf_event_attr__bindgen_ty_4); ("branch_sample_type", Int 8); ("sample_regs_user", Int 8); ("sample_stack_user", Int 4); ("clockid", Int 4);
    ("sample_regs_intr", Int 8); ("aux_watermark", Int 4); ("sample_max_stack", Int 2); ("__reserved_2", Int 2); ("aux_sample_size", Int 4);
    ("__reserved_3", Int 4); ("sig_data", Int 8); ("config3", Int 8)].
Definition d_perf_event_mmap_page__bindgen_ty_1__bindgen_ty_1 : ty := (* 3824-3827 *)
  Struct [("_bitfield_align_1", Arr 0 (Int 8)); ("_bitfield_1", Arr 8 (Int 1))].
Definition d_perf_event_mmap_page__bindgen_ty_1 : ty := (* 3818-3821 *)
  Union [("capabilities", Int 8); ("__bindgen_anon_1", d_perf_event_mmap_page__bindgen_ty_1__bindgen_ty_1)].
Definition d_perf_event_mmap_page : ty := (* 3788-3815 *)
  Struct [("version", Int 4); ("compat_version", Int 4); ("lock", Int 4); ("index", Int 4); ("offset", Int 8); ("time_enabled", Int 8);
    ("time_running", Int 8); ("__bindgen_anon_1", d_perf_event_mmap_page__bindgen_ty_1); ("pmc_width", Int 2); ("time_shift", Int 2); ("time_mult",
    Int 4); ("time_offset", Int 8); ("time_zero", Int 8); ("size", Int 4); ("__reserved_1", Int 4); ("time_cycles", Int 8); ("time_mask", Int 8);
    ("__reserved", Arr 928 (Int 1)); ("data_head", Int 8); ("data_tail", Int 8); ("data_offset", Int 8); ("data_size", Int 8); ("aux_head", Int 8);
    ("aux_tail", Int 8); ("aux_offset", Int 8); ("aux_size", Int 8)].
Definition d_perf_event_header : ty := (* 4105-4109 *)
  Struct [("type_", Int 4); ("misc", Int 2); ("size", Int 2)].
Definition d_bpf_devmap_val__bindgen_ty_1 : ty := (* 1457-1460 *)
  Union [("fd", Int 4); ("id", Int 4)].
Definition d_bpf_devmap_val : ty := (* 1451-1454 *)
  Struct [("ifindex", Int 4); ("bpf_prog", d_bpf_devmap_val__bindgen_ty_1)].
Definition d_bpf_cpumap_val__bindgen_ty_1 : ty := (* 1469-1472 *)
  Union [("fd", Int 4); ("id", Int 4)].
Definition d_bpf_cpumap_val : ty := (* 1463-1466 *)
  Struct [("qsize", Int 4); ("bpf_prog", d_bpf_cpumap_val__bindgen_ty_1)].
Definition d_bpf_func_info : ty := (* 1997-2000 *)
  Struct [("insn_off", Int 4); ("type_id", Int 4)].
Definition d_bpf_line_info : ty := (* 2003-2008 *)
  Struct [("insn_off", Int 4); ("file_name_off", Int 4); ("line_off", Int 4); ("line_col", Int 4)].
Definition d_btf_header : ty := (* 2014-2023 *)
  Struct [("magic", Int 2); ("version", Int 1); ("flags", Int 1); ("hdr_len", Int 4); ("type_off", Int 4); ("type_len", Int 4); ("str_off", Int 4);
    ("str_len", Int 4)].
Definition d_btf_type__bindgen_ty_1 : ty := (* 2033-2036 *)
  Union [("size", Int 4); ("type_", Int 4)].
Definition d_btf_type : ty := (* 2026-2030 *)
  Struct [("name_off", Int 4); ("info", Int 4); ("__bindgen_anon_1", d_btf_type__bindgen_ty_1)].
Definition d_btf_enum : ty := (* 2062-2065 *)
  Struct [("name_off", Int 4); ("val", Int 4)].
Definition d_btf_array : ty := (* 2068-2072 *)
  Struct [("type_", Int 4); ("index_type", Int 4); ("nelems", Int 4)].
Definition d_btf_member : ty := (* 2075-2079 *)
  Struct [("name_off", Int 4); ("type_", Int 4); ("offset", Int 4)].
Definition d_btf_param : ty := (* 2082-2085 *)
  Struct [("name_off", Int 4); ("type_", Int 4)].
Definition d_btf_var : ty := (* 2099-2101 *)
  Struct [("linkage", Int 4)].
Definition d_btf_var_secinfo : ty := (* 2104-2108 *)
  Struct [("type_", Int 4); ("offset", Int 4); ("size", Int 4)].
Definition d_btf_decl_tag : ty := (* 2111-2113 *)
  Struct [("component_idx", Int 4)].
Definition d_bpf_lpm_trie_key : ty := (* 428-431 *)
  Struct [("prefixlen", Int 4); ("data", Arr 0 (Int 1))].
Definition d_ifinfomsg : ty := (* 4152-4159 *)
  Struct [("ifi_family", Int 1); ("__ifi_pad", Int 1); ("ifi_type", Int 2); ("ifi_index", Int 4); ("ifi_flags", Int 4); ("ifi_change", Int 4)].
Definition d_tcmsg : ty := (* 4162-4170 *)
  Struct [("tcm_family", Int 1); ("tcm__pad1", Int 1); ("tcm__pad2", Int 2); ("tcm_ifindex", Int 4); ("tcm_handle", Int 4); ("tcm_parent", Int 4);
    ("tcm_info", Int 4)].
