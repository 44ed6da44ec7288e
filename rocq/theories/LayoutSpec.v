(** Where the kernel has the fields of the structures it shares with programs:
    include/uapi/linux/bpf.h, btf.h, perf_event.h, rtnetlink.h as a C compiler
    lays them out on 64 bit targets (offset and size in bytes).  [type_] is
    what the bindings call [type], [_bitfield_1] the bytes of the bit fields. *)
From Coq Require Import String.
From Verif Require Import Base LayoutModel.
Import ListNotations.
Local Open Scope string_scope.
Local Open Scope Z_scope.

Definition table := list (list string * Z * Z).
Definition k_bpf_insn : table :=
  [(["code"], 0, 1); (["off"], 2, 2); (["imm"], 4, 4); (["_bitfield_1"], 1, 1)].
Definition k_bpf_attr : table :=
  [(["map_type"], 0, 4); (["key_size"], 4, 4); (["value_size"], 8, 4); (["max_entries"], 12, 4); (["map_flags"], 16, 4); (["inner_map_fd"], 20, 4);
   (["numa_node"], 24, 4); (["map_name"], 28, 16); (["map_ifindex"], 44, 4); (["btf_fd"], 48, 4); (["btf_key_type_id"], 52, 4);
   (["btf_value_type_id"], 56, 4); (["btf_vmlinux_value_type_id"], 60, 4); (["map_extra"], 64, 8); (["map_fd"], 0, 4); (["key"], 8, 8); (["value"],
   16, 8); (["next_key"], 16, 8); (["flags"], 24, 8); (["batch"; "in_batch"], 0, 8); (["batch"; "out_batch"], 8, 8); (["batch"; "keys"], 16, 8);
   (["batch"; "values"], 24, 8); (["batch"; "count"], 32, 4); (["batch"; "map_fd"], 36, 4); (["batch"; "elem_flags"], 40, 8); (["batch"; "flags"], 48,
   8); (["prog_type"], 0, 4); (["insn_cnt"], 4, 4); (["insns"], 8, 8); (["license"], 16, 8); (["log_level"], 24, 4); (["log_size"], 28, 4);
   (["log_buf"], 32, 8); (["kern_version"], 40, 4); (["prog_flags"], 44, 4); (["prog_name"], 48, 16); (["prog_ifindex"], 64, 4);
   (["expected_attach_type"], 68, 4); (["prog_btf_fd"], 72, 4); (["func_info_rec_size"], 76, 4); (["func_info"], 80, 8); (["func_info_cnt"], 88, 4);
   (["line_info_rec_size"], 92, 4); (["line_info"], 96, 8); (["line_info_cnt"], 104, 4); (["attach_btf_id"], 108, 4); (["attach_prog_fd"], 112, 4);
   (["attach_btf_obj_fd"], 112, 4); (["core_relo_cnt"], 116, 4); (["fd_array"], 120, 8); (["core_relos"], 128, 8); (["core_relo_rec_size"], 136, 4);
   (["pathname"], 0, 8); (["bpf_fd"], 8, 4); (["file_flags"], 12, 4); (["target_fd"], 0, 4); (["attach_bpf_fd"], 4, 4); (["attach_type"], 8, 4);
   (["attach_flags"], 12, 4); (["replace_bpf_fd"], 16, 4); (["test"; "prog_fd"], 0, 4); (["test"; "retval"], 4, 4); (["test"; "data_size_in"], 8, 4);
   (["test"; "data_size_out"], 12, 4); (["test"; "data_in"], 16, 8); (["test"; "data_out"], 24, 8); (["test"; "repeat"], 32, 4); (["test";
   "duration"], 36, 4); (["test"; "ctx_size_in"], 40, 4); (["test"; "ctx_size_out"], 44, 4); (["test"; "ctx_in"], 48, 8); (["test"; "ctx_out"], 56,
   8); (["test"; "flags"], 64, 4); (["test"; "cpu"], 68, 4); (["test"; "batch_size"], 72, 4); (["start_id"], 0, 4); (["prog_id"], 0, 4); (["map_id"],
   0, 4); (["btf_id"], 0, 4); (["link_id"], 0, 4); (["next_id"], 4, 4); (["open_flags"], 8, 4); (["info"; "bpf_fd"], 0, 4); (["info"; "info_len"], 4,
   4); (["info"; "info"], 8, 8); (["query"; "target_fd"], 0, 4); (["query"; "attach_type"], 4, 4); (["query"; "query_flags"], 8, 4); (["query";
   "attach_flags"], 12, 4); (["query"; "prog_ids"], 16, 8); (["query"; "prog_cnt"], 24, 4); (["query"; "prog_attach_flags"], 32, 8);
   (["raw_tracepoint"; "name"], 0, 8); (["raw_tracepoint"; "prog_fd"], 8, 4); (["btf"], 0, 8); (["btf_log_buf"], 8, 8); (["btf_size"], 16, 4);
   (["btf_log_size"], 20, 4); (["btf_log_level"], 24, 4); (["task_fd_query"; "pid"], 0, 4); (["task_fd_query"; "fd"], 4, 4); (["task_fd_query";
   "flags"], 8, 4); (["task_fd_query"; "buf_len"], 12, 4); (["task_fd_query"; "buf"], 16, 8); (["task_fd_query"; "prog_id"], 24, 4);
   (["task_fd_query"; "fd_type"], 28, 4); (["task_fd_query"; "probe_offset"], 32, 8); (["task_fd_query"; "probe_addr"], 40, 8); (["link_create";
   "prog_fd"], 0, 4); (["link_create"; "target_fd"], 4, 4); (["link_create"; "target_ifindex"], 4, 4); (["link_create"; "attach_type"], 8, 4);
   (["link_create"; "flags"], 12, 4); (["link_create"; "target_btf_id"], 16, 4); (["link_create"; "iter_info"], 16, 8); (["link_create";
   "iter_info_len"], 24, 4); (["link_create"; "perf_event"; "bpf_cookie"], 16, 8); (["link_create"; "kprobe_multi"; "flags"], 16, 4); (["link_create";
   "kprobe_multi"; "cnt"], 20, 4); (["link_create"; "kprobe_multi"; "syms"], 24, 8); (["link_create"; "kprobe_multi"; "addrs"], 32, 8);
   (["link_create"; "kprobe_multi"; "cookies"], 40, 8); (["link_create"; "tracing"; "target_btf_id"], 16, 4); (["link_create"; "tracing"; "cookie"],
   24, 8); (["link_update"; "link_fd"], 0, 4); (["link_update"; "new_prog_fd"], 4, 4); (["link_update"; "flags"], 8, 4); (["link_update";
   "old_prog_fd"], 12, 4); (["link_detach"; "link_fd"], 0, 4); (["enable_stats"; "type_"], 0, 4); (["iter_create"; "link_fd"], 0, 4); (["iter_create";
   "flags"], 4, 4); (["prog_bind_map"; "prog_fd"], 0, 4); (["prog_bind_map"; "map_fd"], 4, 4); (["prog_bind_map"; "flags"], 8, 4);
   (["value_type_btf_obj_fd"], 72, 4); (["map_token_fd"], 76, 4); (["log_true_size"], 140, 4); (["prog_token_fd"], 144, 4); (["path_fd"], 16, 4);
   (["target_ifindex"], 0, 4); (["relative_fd"], 20, 4); (["relative_id"], 20, 4); (["expected_revision"], 24, 8); (["query"; "target_ifindex"], 0,
   4); (["query"; "count"], 24, 4); (["query"; "link_ids"], 40, 8); (["query"; "link_attach_flags"], 48, 8); (["query"; "revision"], 56, 8);
   (["raw_tracepoint"; "cookie"], 16, 8); (["btf_log_true_size"], 28, 4); (["btf_flags"], 32, 4); (["btf_token_fd"], 36, 4); (["link_create";
   "map_fd"], 0, 4); (["link_create"; "tcx"; "relative_fd"], 16, 4); (["link_create"; "tcx"; "relative_id"], 16, 4); (["link_create"; "tcx";
   "expected_revision"], 24, 8); (["link_create"; "uprobe_multi"; "path"], 16, 8); (["link_create"; "uprobe_multi"; "offsets"], 24, 8);
   (["link_create"; "uprobe_multi"; "ref_ctr_offsets"], 32, 8); (["link_create"; "uprobe_multi"; "cookies"], 40, 8); (["link_create"; "uprobe_multi";
   "cnt"], 48, 4); (["link_create"; "uprobe_multi"; "flags"], 52, 4); (["link_create"; "uprobe_multi"; "pid"], 56, 4); (["link_create"; "netfilter";
   "pf"], 16, 4); (["link_create"; "netkit"; "relative_fd"], 16, 4); (["link_update"; "new_map_fd"], 4, 4); (["link_update"; "old_map_fd"], 12, 4);
   (["token_create"; "flags"], 0, 4); (["token_create"; "bpffs_fd"], 4, 4)].
Definition k_bpf_prog_info : table :=
  [(["type_"], 0, 4); (["id"], 4, 4); (["tag"], 8, 8); (["jited_prog_len"], 16, 4); (["xlated_prog_len"], 20, 4); (["jited_prog_insns"], 24, 8);
   (["xlated_prog_insns"], 32, 8); (["load_time"], 40, 8); (["created_by_uid"], 48, 4); (["nr_map_ids"], 52, 4); (["map_ids"], 56, 8); (["name"], 64,
   16); (["ifindex"], 80, 4); (["netns_dev"], 88, 8); (["netns_ino"], 96, 8); (["nr_jited_ksyms"], 104, 4); (["nr_jited_func_lens"], 108, 4);
   (["jited_ksyms"], 112, 8); (["jited_func_lens"], 120, 8); (["btf_id"], 128, 4); (["func_info_rec_size"], 132, 4); (["func_info"], 136, 8);
   (["nr_func_info"], 144, 4); (["nr_line_info"], 148, 4); (["line_info"], 152, 8); (["jited_line_info"], 160, 8); (["nr_jited_line_info"], 168, 4);
   (["line_info_rec_size"], 172, 4); (["jited_line_info_rec_size"], 176, 4); (["nr_prog_tags"], 180, 4); (["prog_tags"], 184, 8); (["run_time_ns"],
   192, 8); (["run_cnt"], 200, 8); (["recursion_misses"], 208, 8); (["verified_insns"], 216, 4); (["attach_btf_obj_id"], 220, 4); (["attach_btf_id"],
   224, 4); (["_bitfield_1"], 84, 4)].
Definition k_bpf_map_info : table :=
  [(["type_"], 0, 4); (["id"], 4, 4); (["key_size"], 8, 4); (["value_size"], 12, 4); (["max_entries"], 16, 4); (["map_flags"], 20, 4); (["name"], 24,
   16); (["ifindex"], 40, 4); (["btf_vmlinux_value_type_id"], 44, 4); (["netns_dev"], 48, 8); (["netns_ino"], 56, 8); (["btf_id"], 64, 4);
   (["btf_key_type_id"], 68, 4); (["btf_value_type_id"], 72, 4); (["map_extra"], 80, 8); (["btf_vmlinux_id"], 76, 4)].
Definition k_bpf_btf_info : table :=
  [(["btf"], 0, 8); (["btf_size"], 8, 4); (["id"], 12, 4); (["name"], 16, 8); (["name_len"], 24, 4); (["kernel_btf"], 28, 4)].
Definition k_bpf_link_info : table :=
  [(["type_"], 0, 4); (["id"], 4, 4); (["prog_id"], 8, 4); (["raw_tracepoint"; "tp_name"], 16, 8); (["raw_tracepoint"; "tp_name_len"], 24, 4);
   (["tracing"; "attach_type"], 16, 4); (["tracing"; "target_obj_id"], 20, 4); (["tracing"; "target_btf_id"], 24, 4); (["cgroup"; "cgroup_id"], 16,
   8); (["cgroup"; "attach_type"], 24, 4); (["iter"; "target_name"], 16, 8); (["iter"; "target_name_len"], 24, 4); (["iter"; "map"; "map_id"], 28, 4);
   (["iter"; "cgroup"; "cgroup_id"], 32, 8); (["iter"; "cgroup"; "order"], 40, 4); (["iter"; "task"; "tid"], 32, 4); (["iter"; "task"; "pid"], 36, 4);
   (["netns"; "netns_ino"], 16, 4); (["netns"; "attach_type"], 20, 4); (["xdp"; "ifindex"], 16, 4); (["struct_ops"; "map_id"], 16, 4); (["tcx";
   "ifindex"], 16, 4); (["tcx"; "attach_type"], 20, 4); (["perf_event"; "type_"], 16, 4); (["perf_event"; "kprobe"; "func_name"], 24, 8);
   (["perf_event"; "kprobe"; "name_len"], 32, 4); (["perf_event"; "kprobe"; "offset"], 36, 4); (["perf_event"; "kprobe"; "addr"], 40, 8);
   (["perf_event"; "kprobe"; "missed"], 48, 8); (["perf_event"; "kprobe"; "cookie"], 56, 8); (["perf_event"; "uprobe"; "file_name"], 24, 8);
   (["perf_event"; "uprobe"; "name_len"], 32, 4); (["perf_event"; "uprobe"; "offset"], 36, 4); (["perf_event"; "uprobe"; "cookie"], 40, 8);
   (["perf_event"; "tracepoint"; "tp_name"], 24, 8); (["perf_event"; "tracepoint"; "cookie"], 40, 8); (["perf_event"; "event"; "config"], 24, 8);
   (["perf_event"; "event"; "type_"], 32, 4); (["perf_event"; "event"; "cookie"], 40, 8); (["kprobe_multi"; "addrs"], 16, 8); (["kprobe_multi";
   "count"], 24, 4); (["kprobe_multi"; "flags"], 28, 4); (["kprobe_multi"; "missed"], 32, 8); (["uprobe_multi"; "path"], 16, 8); (["uprobe_multi";
   "pid"], 60, 4)].
Definition k_perf_event_attr : table :=
  [(["type_"], 0, 4); (["size"], 4, 4); (["config"], 8, 8); (["sample_period"], 16, 8); (["sample_freq"], 16, 8); (["sample_type"], 24, 8);
   (["read_format"], 32, 8); (["wakeup_events"], 48, 4); (["wakeup_watermark"], 48, 4); (["bp_type"], 52, 4); (["bp_addr"], 56, 8); (["kprobe_func"],
   56, 8); (["uprobe_path"], 56, 8); (["config1"], 56, 8); (["bp_len"], 64, 8); (["kprobe_addr"], 64, 8); (["probe_offset"], 64, 8); (["config2"], 64,
   8); (["branch_sample_type"], 72, 8); (["sample_regs_user"], 80, 8); (["sample_stack_user"], 88, 4); (["clockid"], 92, 4); (["sample_regs_intr"],
   96, 8); (["aux_watermark"], 104, 4); (["sample_max_stack"], 108, 2); (["__reserved_2"], 110, 2); (["aux_sample_size"], 112, 4); (["__reserved_3"],
   116, 4); (["sig_data"], 120, 8); (["config3"], 128, 8); (["_bitfield_1"], 40, 8)].
Definition k_perf_event_mmap_page : table :=
  [(["version"], 0, 4); (["compat_version"], 4, 4); (["lock"], 8, 4); (["index"], 12, 4); (["offset"], 16, 8); (["time_enabled"], 24, 8);
   (["time_running"], 32, 8); (["capabilities"], 40, 8); (["pmc_width"], 48, 2); (["time_shift"], 50, 2); (["time_mult"], 52, 4); (["time_offset"],
   56, 8); (["time_zero"], 64, 8); (["size"], 72, 4); (["__reserved_1"], 76, 4); (["time_cycles"], 80, 8); (["time_mask"], 88, 8); (["__reserved"],
   96, 928); (["data_head"], 1024, 8); (["data_tail"], 1032, 8); (["data_offset"], 1040, 8); (["data_size"], 1048, 8); (["aux_head"], 1056, 8);
   (["aux_tail"], 1064, 8); (["aux_offset"], 1072, 8); (["aux_size"], 1080, 8)].
Definition k_perf_event_header : table :=
  [(["type_"], 0, 4); (["misc"], 4, 2); (["size"], 6, 2)].
Definition k_bpf_devmap_val : table :=
  [(["ifindex"], 0, 4); (["bpf_prog"; "fd"], 4, 4); (["bpf_prog"; "id"], 4, 4)].
Definition k_bpf_cpumap_val : table :=
  [(["qsize"], 0, 4); (["bpf_prog"; "fd"], 4, 4); (["bpf_prog"; "id"], 4, 4)].
Definition k_bpf_func_info : table :=
  [(["insn_off"], 0, 4); (["type_id"], 4, 4)].
Definition k_bpf_line_info : table :=
  [(["insn_off"], 0, 4); (["file_name_off"], 4, 4); (["line_off"], 8, 4); (["line_col"], 12, 4)].
Definition k_btf_header : table :=
  [(["magic"], 0, 2); (["version"], 2, 1); (["flags"], 3, 1); (["hdr_len"], 4, 4); (["type_off"], 8, 4); (["type_len"], 12, 4); (["str_off"], 16, 4);
   (["str_len"], 20, 4)].
Definition k_btf_type : table :=
  [(["name_off"], 0, 4); (["info"], 4, 4); (["size"], 8, 4); (["type_"], 8, 4)].
Definition k_btf_enum : table :=
  [(["name_off"], 0, 4); (["val"], 4, 4)].
Definition k_btf_array : table :=
  [(["type_"], 0, 4); (["index_type"], 4, 4); (["nelems"], 8, 4)].
Definition k_btf_member : table :=
  [(["name_off"], 0, 4); (["type_"], 4, 4); (["offset"], 8, 4)].
Definition k_btf_param : table :=
  [(["name_off"], 0, 4); (["type_"], 4, 4)].
Definition k_btf_var : table :=
  [(["linkage"], 0, 4)].
Definition k_btf_var_secinfo : table :=
  [(["type_"], 0, 4); (["offset"], 4, 4); (["size"], 8, 4)].
Definition k_btf_decl_tag : table :=
  [(["component_idx"], 0, 4)].
Definition k_bpf_lpm_trie_key : table :=
  [(["prefixlen"], 0, 4); (["data"], 4, 0)].
Definition k_ifinfomsg : table :=
  [(["ifi_family"], 0, 1); (["__ifi_pad"], 1, 1); (["ifi_type"], 2, 2); (["ifi_index"], 4, 4); (["ifi_flags"], 8, 4); (["ifi_change"], 12, 4)].
Definition k_tcmsg : table :=
  [(["tcm_family"], 0, 1); (["tcm__pad1"], 1, 1); (["tcm__pad2"], 2, 2); (["tcm_ifindex"], 4, 4); (["tcm_handle"], 8, 4); (["tcm_parent"], 12, 4);
   (["tcm_info"], 16, 4)].

(** Integers have a size, arrays no negative length. *)
Fixpoint wf (t : ty) : Prop :=
  match t with
  | Int n => 0 < n
  | Arr n t => 0 <= n /\ wf t
  | Struct fs | Union fs => (fix go fs := match fs with [] => True | (_, t) :: fs => wf t /\ go fs end) fs
  end.
(** A declaration agrees with the kernel's if every field is where the kernel
    has it and as large. *)
Definition agrees (lookup : list string -> option (Z * Z)) (k : table) : Prop := forall p o s, In (p, o, s) k -> lookup p = Some (o, s).
