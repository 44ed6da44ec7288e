(** Structures shared with the kernel (C84). *)
From Coq Require Import String.
From Verif Require Import Base LayoutModel LayoutDecls LayoutSpec LayoutProofs.
Import ListNotations.
Local Open Scope Z_scope.

(** The fields of a structure are aligned, inside it and do not overlap; the
    members of a union start where it does. *)
Theorem C84_struct : forall fs, wf (Struct fs) ->
  (forall n o t, In (n, o, t) (members (Struct fs)) -> 0 <= o /\ o mod align t = 0 /\ o + size t <= size (Struct fs)) /\
  ForallOrdPairs (fun a b => snd (fst a) + size (snd a) <= snd (fst b)) (members (Struct fs)).
Proof. exact struct_layout. Qed.
Print Assumptions C84_struct.
Theorem C84_union : forall fs, wf (Union fs) -> forall n o t, In (n, o, t) (members (Union fs)) -> o = 0 /\ size t <= size (Union fs).
Proof. exact union_layout. Qed.
Print Assumptions C84_union.
Theorem C84_within : forall t path o s, wf t -> field path t = Some (o, s) -> 0 <= o /\ o + s <= size t.
Proof. exact field_within. Qed.
Print Assumptions C84_within.

(** The requests and the answers of [bpf], of [perf_event_open] and of
    rtnetlink, and the BTF records. *)
Definition at_ (t : ty) (p : list string) := field p t.
Theorem C84_bpf :
  agrees (at_ d_bpf_attr) k_bpf_attr /\ agrees (at_ d_bpf_prog_info) k_bpf_prog_info /\ agrees (at_ d_bpf_map_info) k_bpf_map_info /\
  agrees (at_ d_bpf_btf_info) k_bpf_btf_info /\ agrees (at_ d_bpf_link_info) k_bpf_link_info /\ agrees (at_ d_bpf_insn) k_bpf_insn /\
  agrees (at_ d_bpf_devmap_val) k_bpf_devmap_val /\ agrees (at_ d_bpf_cpumap_val) k_bpf_cpumap_val /\ agrees (at_ d_bpf_lpm_trie_key) k_bpf_lpm_trie_key /\
  agrees (at_ d_bpf_func_info) k_bpf_func_info /\ agrees (at_ d_bpf_line_info) k_bpf_line_info.
Proof. repeat split; apply agree; vm_compute; reflexivity. Qed.
Print Assumptions C84_bpf.
Theorem C84_perf :
  agrees (at_ d_perf_event_attr) k_perf_event_attr /\ agrees (at_ d_perf_event_mmap_page) k_perf_event_mmap_page /\
  agrees (at_ d_perf_event_header) k_perf_event_header.
Proof. repeat split; apply agree; vm_compute; reflexivity. Qed.
Print Assumptions C84_perf.
Theorem C84_btf :
  agrees (at_ d_btf_header) k_btf_header /\ agrees (at_ d_btf_type) k_btf_type /\ agrees (at_ d_btf_enum) k_btf_enum /\ agrees (at_ d_btf_array) k_btf_array /\
  agrees (at_ d_btf_member) k_btf_member /\ agrees (at_ d_btf_param) k_btf_param /\ agrees (at_ d_btf_var) k_btf_var /\
  agrees (at_ d_btf_var_secinfo) k_btf_var_secinfo /\ agrees (at_ d_btf_decl_tag) k_btf_decl_tag.
Proof. repeat split; apply agree; vm_compute; reflexivity. Qed.
Print Assumptions C84_btf.
Theorem C84_netlink : agrees (at_ d_ifinfomsg) k_ifinfomsg /\ agrees (at_ d_tcmsg) k_tcmsg.
Proof. split; apply agree; vm_compute; reflexivity. Qed.
Print Assumptions C84_netlink.
(** Sizes passed to or fixed by the kernel. *)
Theorem C84_sizes :
  size d_bpf_attr = 152 /\ size d_bpf_prog_info = 232 /\ size d_bpf_map_info = 88 /\ size d_bpf_btf_info = 32 /\ size d_bpf_link_info = 64 /\
  size d_perf_event_attr = 136 /\ size d_perf_event_header = 8 /\ size d_bpf_insn = 8 /\ size d_btf_header = 24 /\ size d_btf_type = 12 /\
  size d_btf_member = 12 /\ size d_btf_param = 8 /\ size d_btf_var_secinfo = 12 /\ size d_bpf_func_info = 8 /\ size d_bpf_line_info = 16 /\
  size d_ifinfomsg = 16 /\ size d_tcmsg = 20 /\ size d_bpf_lpm_trie_key = 4.
Proof. vm_compute. repeat split. Qed.
Print Assumptions C84_sizes.

Example layout_example : wf d_bpf_attr /\ wf d_bpf_prog_info /\ wf d_bpf_link_info /\ wf d_perf_event_attr /\ wf d_perf_event_mmap_page.
Proof. repeat split; apply wfb_wf || idtac; vm_compute; try reflexivity; intros E; discriminate E. Qed.
