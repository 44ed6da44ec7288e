(** Model of how an eBPF program declares its maps (ebpf/aya-ebpf/src/maps and
    ebpf/aya-ebpf/src/btf_maps), and of the request user space creates them
    with (aya/src/sys/bpf.rs).

    Simplifications.  A type is its size and its alignment.  The compiler is not
    modelled: of a legacy declaration there are the words of the static, of a
    BTF declaration the fields of the struct in their order, from which rustc
    and bpf-linker write the debug information. *)
From Coq Require Import String.
From Verif Require Import Base Text ObjModel.
Local Open Scope Z_scope.

(** The map types of aya_ebpf::maps and aya_ebpf::btf_maps. *)
Inductive decl :=
| DArray | DBloomFilter | DCgroupArray | DCgroupStorage | DPerCpuCgroupStorage | DHashMap | DLruHashMap | DPerCpuHashMap
| DLruPerCpuHashMap | DLpmTrie | DPerCpuArray | DPerfEventArray | DPerfEventByteArray | DProgramArray | DQueue
| DReusePortSockArray | DRingBuf | DSockHash | DSockMap | DStack | DStackTrace | DCpuMap | DDevMap | DDevMapHash | DXskMap
| DArrayOfMaps | DHashOfMaps | DCgrpStorage | DInodeStorage | DSkStorage.

(** What the author chooses: the sizes of the type arguments K and V (T),
    the alignment of V, the constants, and whether the map is pinned. *)
Record params := {
  a_key : Z; a_value : Z; a_align : Z; a_entries : Z; a_flags : Z; a_hash_funcs : Z; a_depth : Z; a_pinned : bool }.

(** ebpf/aya-ebpf-bindings/src/x86_64/bindings.rs, the enum bpf_map_type and the
    flags of map creation (the same on every architecture). *)
Definition BPF_MAP_TYPE_HASH := 1.
Definition BPF_MAP_TYPE_ARRAY := 2.
Definition BPF_MAP_TYPE_PROG_ARRAY := 3.
Definition BPF_MAP_TYPE_PERF_EVENT_ARRAY := 4.
Definition BPF_MAP_TYPE_PERCPU_HASH := 5.
Definition BPF_MAP_TYPE_PERCPU_ARRAY := 6.
Definition BPF_MAP_TYPE_STACK_TRACE := 7.
Definition BPF_MAP_TYPE_CGROUP_ARRAY := 8.
Definition BPF_MAP_TYPE_LRU_HASH := 9.
Definition BPF_MAP_TYPE_LRU_PERCPU_HASH := 10.
Definition BPF_MAP_TYPE_LPM_TRIE := 11.
Definition BPF_MAP_TYPE_ARRAY_OF_MAPS := 12.
Definition BPF_MAP_TYPE_HASH_OF_MAPS := 13.
Definition BPF_MAP_TYPE_DEVMAP := 14.
Definition BPF_MAP_TYPE_SOCKMAP := 15.
Definition BPF_MAP_TYPE_CPUMAP := 16.
Definition BPF_MAP_TYPE_XSKMAP := 17.
Definition BPF_MAP_TYPE_SOCKHASH := 18.
Definition BPF_MAP_TYPE_CGROUP_STORAGE := 19.
Definition BPF_MAP_TYPE_REUSEPORT_SOCKARRAY := 20.
Definition BPF_MAP_TYPE_PERCPU_CGROUP_STORAGE := 21.
Definition BPF_MAP_TYPE_QUEUE := 22.
Definition BPF_MAP_TYPE_STACK := 23.
Definition BPF_MAP_TYPE_SK_STORAGE := 24.
Definition BPF_MAP_TYPE_DEVMAP_HASH := 25.
Definition BPF_MAP_TYPE_RINGBUF := 27.
Definition BPF_MAP_TYPE_INODE_STORAGE := 28.
Definition BPF_MAP_TYPE_BLOOM_FILTER := 30.
Definition BPF_MAP_TYPE_CGRP_STORAGE := 32.
Definition BPF_F_NO_PREALLOC := 1.
Definition BPF_F_NO_COMMON_LRU := 2.
Definition BPF_F_STACK_BUILD_ID := 32.
Definition PERF_MAX_STACK_DEPTH := 127.

(** Sizes of the types that are not arguments: u32, i32, (), u64,
    bpf_cgroup_storage_key (a u64, a u32 and padding), bpf_cpumap_val and
    bpf_devmap_val (two u32), and [Key<K>], which is packed
    (maps/lpm_trie.rs:21-27). *)
Definition S_U32 := 4.
Definition S_I32 := 4.
Definition S_UNIT := 0.
Definition S_U64 := 8.
Definition S_CGROUP_STORAGE_KEY := 16.
Definition S_CPUMAP_VAL := 8.
Definition S_DEVMAP_VAL := 8.
Definition s_lpm_key (k : Z) : Z := S_U32 + k.

(** maps/mod.rs:10-37 [MapDef::new]: the words of bpf_map_def.  Sizes are cast
    to u32. *)
Definition map_def (type key value entries flags : Z) (pinned : bool) : list Z :=
  [type; u32 key; u32 value; entries; flags; 0; if pinned then 1 else 0].

(** The constructors of maps/*.rs: array.rs:21, bloom_filter.rs:21,
    cgroup_array.rs:41, cgroup_storage.rs:28-46, hash_map.rs:25-38,
    lpm_trie.rs:38, per_cpu_array.rs:21, perf/perf_event_array.rs:25-30,
    perf/perf_event_byte_array.rs:22-26, program_array.rs:33, queue.rs:22,
    reuseport_sock_array.rs:25, ring_buf.rs:133-137, sock_hash.rs:28,
    sock_map.rs:25, stack.rs:22, stack_trace.rs:19-23, xdp/cpu_map.rs:42-45,
    xdp/dev_map.rs:44-47, xdp/dev_map_hash.rs:46-49, xdp/xsk_map.rs:63-66; and
    [map_constructors], mod.rs:49-77.  Maps of maps and the newer local storages
    have no legacy form. *)
Definition legacy (d : decl) (a : params) : option (list Z) :=
  let mk type key value := Some (map_def type key value (a_entries a) (a_flags a) (a_pinned a)) in
  match d with
  | DArray => mk BPF_MAP_TYPE_ARRAY S_U32 (a_value a)
  | DBloomFilter => mk BPF_MAP_TYPE_BLOOM_FILTER S_UNIT (a_value a)
  | DCgroupArray => mk BPF_MAP_TYPE_CGROUP_ARRAY S_U32 S_U32
  | DCgroupStorage => Some (map_def BPF_MAP_TYPE_CGROUP_STORAGE S_CGROUP_STORAGE_KEY (a_value a) 0 0 (a_pinned a))
  | DPerCpuCgroupStorage => Some (map_def BPF_MAP_TYPE_PERCPU_CGROUP_STORAGE S_CGROUP_STORAGE_KEY (a_value a) 0 0 (a_pinned a))
  | DHashMap => mk BPF_MAP_TYPE_HASH (a_key a) (a_value a)
  | DLruHashMap => mk BPF_MAP_TYPE_LRU_HASH (a_key a) (a_value a)
  | DPerCpuHashMap => mk BPF_MAP_TYPE_PERCPU_HASH (a_key a) (a_value a)
  | DLruPerCpuHashMap => mk BPF_MAP_TYPE_LRU_PERCPU_HASH (a_key a) (a_value a)
  | DLpmTrie =>
      Some (map_def BPF_MAP_TYPE_LPM_TRIE (s_lpm_key (a_key a)) (a_value a) (a_entries a) (Z.lor (a_flags a) BPF_F_NO_PREALLOC) (a_pinned a))
  | DPerCpuArray => mk BPF_MAP_TYPE_PERCPU_ARRAY S_U32 (a_value a)
  | DPerfEventArray | DPerfEventByteArray => Some (map_def BPF_MAP_TYPE_PERF_EVENT_ARRAY S_U32 S_U32 0 (a_flags a) (a_pinned a))
  | DProgramArray => mk BPF_MAP_TYPE_PROG_ARRAY S_U32 S_U32
  | DQueue => mk BPF_MAP_TYPE_QUEUE S_UNIT (a_value a)
  | DReusePortSockArray => mk BPF_MAP_TYPE_REUSEPORT_SOCKARRAY S_U32 S_U32
  | DRingBuf => mk BPF_MAP_TYPE_RINGBUF S_UNIT S_UNIT
  | DSockHash => mk BPF_MAP_TYPE_SOCKHASH (a_key a) S_U32
  | DSockMap => mk BPF_MAP_TYPE_SOCKMAP S_U32 S_U32
  | DStack => mk BPF_MAP_TYPE_STACK S_UNIT (a_value a)
  | DStackTrace => mk BPF_MAP_TYPE_STACK_TRACE S_U32 (S_U64 * PERF_MAX_STACK_DEPTH)
  | DCpuMap => mk BPF_MAP_TYPE_CPUMAP S_U32 S_CPUMAP_VAL
  | DDevMap => mk BPF_MAP_TYPE_DEVMAP S_U32 S_DEVMAP_VAL
  | DDevMapHash => mk BPF_MAP_TYPE_DEVMAP_HASH S_U32 S_DEVMAP_VAL
  | DXskMap => mk BPF_MAP_TYPE_XSKMAP S_U32 S_U32
  | DArrayOfMaps | DHashOfMaps | DCgrpStorage | DInodeStorage | DSkStorage => None
  end.

(** The type of a field: [*const [i32; n]], [*const T] with T of so many bytes,
    or [[*const V; 0]] with V the declaration of the inner map. *)
Inductive ftype := PtrArray (n : Z) | PtrType (size : Z) | InnerMaps.

(** btf_maps/mod.rs:215-247 [btf_map_def], regular arm. *)
Definition btf_map (type : Z) (entries flags key value : Z) (extra : list (list Z * ftype)) : list (list Z * ftype) :=
  [(txt "type", PtrArray type); (txt "key", PtrType key); (txt "value", PtrType value);
   (txt "max_entries", PtrArray entries); (txt "map_flags", PtrArray flags)] ++ extra.

(** The declarations of btf_maps/*.rs: array.rs:18-24, bloom_filter.rs:23-30,
    cgroup_array.rs:26-32, cgroup_storage.rs:15-21, cgrp_storage.rs:14-20,
    cpu_map.rs:25-31, dev_map.rs:50-56, dev_map_hash.rs:31-37,
    hash_map.rs:26-34, inode_storage.rs:14-20, lpm_trie.rs:38-44,
    of_maps/array_of_maps.rs and of_maps/hash_of_maps.rs (with [values] of
    mod.rs:199-211), per_cpu_array.rs, perf_event_array.rs,
    perf_event_byte_array.rs:20-26, program_array.rs:25-31, queue.rs,
    reuseport_sock_array.rs:24-30, ring_buf.rs:15-22, sk_storage.rs:15-24,
    sock_hash.rs:36-42, sock_map.rs, stack.rs, stack_trace.rs:37-47,
    xsk_map.rs. *)
Definition btf_decl (d : decl) (a : params) : list (list Z * ftype) :=
  let mk type key value := btf_map type (a_entries a) (a_flags a) key value [] in
  let fixed type flags key value := btf_map type 0 flags key value [] in
  match d with
  | DArray => mk BPF_MAP_TYPE_ARRAY S_U32 (a_value a)
  | DBloomFilter =>
      btf_map BPF_MAP_TYPE_BLOOM_FILTER (a_entries a) (a_flags a) S_UNIT (a_value a) [(txt "map_extra", PtrArray (a_hash_funcs a))]
  | DCgroupArray => mk BPF_MAP_TYPE_CGROUP_ARRAY S_U32 S_U32
  | DCgroupStorage => fixed BPF_MAP_TYPE_CGROUP_STORAGE 0 S_CGROUP_STORAGE_KEY (a_value a)
  | DPerCpuCgroupStorage => fixed BPF_MAP_TYPE_PERCPU_CGROUP_STORAGE 0 S_CGROUP_STORAGE_KEY (a_value a)
  | DHashMap => mk BPF_MAP_TYPE_HASH (a_key a) (a_value a)
  | DLruHashMap => mk BPF_MAP_TYPE_LRU_HASH (a_key a) (a_value a)
  | DPerCpuHashMap => mk BPF_MAP_TYPE_PERCPU_HASH (a_key a) (a_value a)
  | DLruPerCpuHashMap => mk BPF_MAP_TYPE_LRU_PERCPU_HASH (a_key a) (a_value a)
  | DLpmTrie => mk BPF_MAP_TYPE_LPM_TRIE (s_lpm_key (a_key a)) (a_value a)
  | DPerCpuArray => mk BPF_MAP_TYPE_PERCPU_ARRAY S_U32 (a_value a)
  | DPerfEventArray | DPerfEventByteArray => fixed BPF_MAP_TYPE_PERF_EVENT_ARRAY (a_flags a) S_U32 S_U32
  | DProgramArray => mk BPF_MAP_TYPE_PROG_ARRAY S_U32 S_U32
  | DQueue => mk BPF_MAP_TYPE_QUEUE S_UNIT (a_value a)
  | DReusePortSockArray => mk BPF_MAP_TYPE_REUSEPORT_SOCKARRAY S_U32 S_U32
  | DRingBuf => btf_map BPF_MAP_TYPE_RINGBUF (a_entries a) (a_flags a) S_UNIT (a_value a) [(txt "value_size", PtrArray 0)]
  | DSockHash => mk BPF_MAP_TYPE_SOCKHASH (a_key a) S_U32
  | DSockMap => mk BPF_MAP_TYPE_SOCKMAP S_U32 S_U32
  | DStack => mk BPF_MAP_TYPE_STACK S_UNIT (a_value a)
  | DStackTrace => mk BPF_MAP_TYPE_STACK_TRACE S_U32 (S_U64 * a_depth a)
  | DCpuMap => mk BPF_MAP_TYPE_CPUMAP S_U32 S_CPUMAP_VAL
  | DDevMap => mk BPF_MAP_TYPE_DEVMAP S_U32 S_DEVMAP_VAL
  | DDevMapHash => mk BPF_MAP_TYPE_DEVMAP_HASH S_U32 S_DEVMAP_VAL
  | DXskMap => mk BPF_MAP_TYPE_XSKMAP S_U32 S_U32
  | DArrayOfMaps => btf_map BPF_MAP_TYPE_ARRAY_OF_MAPS (a_entries a) (a_flags a) S_U32 S_U32 [(txt "values", InnerMaps)]
  | DHashOfMaps => btf_map BPF_MAP_TYPE_HASH_OF_MAPS (a_entries a) (a_flags a) (a_key a) S_U32 [(txt "values", InnerMaps)]
  | DCgrpStorage => fixed BPF_MAP_TYPE_CGRP_STORAGE BPF_F_NO_PREALLOC S_I32 (a_value a)
  | DInodeStorage => fixed BPF_MAP_TYPE_INODE_STORAGE BPF_F_NO_PREALLOC S_I32 (a_value a)
  | DSkStorage => fixed BPF_MAP_TYPE_SK_STORAGE BPF_F_NO_PREALLOC S_I32 (a_value a)
  end.

(** The section the macros put the static in: aya-ebpf-macros/src/map.rs:26,
    btf_map.rs. *)
Definition map_section (btf : bool) : list Z := if btf then txt ".maps" else txt "maps".

(** The [_CHECK] constants of btf_maps/*.rs, evaluated when a method of the map
    is used: cgroup_array.rs:35-40, xsk_map.rs:32-37, sock_hash.rs:49-59,
    dev_map.rs:59-64, dev_map_hash.rs:40-45, cpu_map.rs:34-39,
    lpm_trie.rs:51-88, stack_trace.rs:55-65, sock_map.rs:47-52, stack.rs:45-55,
    queue.rs:45-55, hash_map.rs:37-58 (with the flags of 131-210),
    per_cpu_array.rs:61-78.  [None]: the map has none. *)
Definition check (d : decl) (a : params) : option bool :=
  let entries := 0 <? a_entries a in
  let unset f := Z.land (a_flags a) f =? 0 in
  let hash rejected := Some ((0 <? a_key a) && (0 <? a_value a) && entries && unset rejected && (a_align a <=? 8)) in
  match d with
  | DCgroupArray | DXskMap | DDevMap | DDevMapHash | DCpuMap | DSockMap => Some entries
  | DSockHash => Some ((0 <? a_key a) && (a_key a <=? 512) && entries)
  | DLpmTrie =>
      Some ((5 <=? s_lpm_key (a_key a)) && (s_lpm_key (a_key a) <=? 260) && (1 <=? a_value a) && entries
            && (a_align a <=? 8) && (a_key a mod a_align a =? 0))
  | DStackTrace => Some ((0 <? a_depth a) && entries && unset BPF_F_STACK_BUILD_ID)
  | DStack | DQueue => Some ((0 <? a_value a) && entries && unset BPF_F_NO_PREALLOC)
  | DHashMap | DPerCpuHashMap => hash BPF_F_NO_COMMON_LRU
  | DLruHashMap | DLruPerCpuHashMap => hash BPF_F_NO_PREALLOC
  | DPerCpuArray => Some ((1 <=? a_value a) && entries && (a_align a <=? 8))
  | _ => None
  end.

(** aya/src/sys/bpf.rs:54-126 [bpf_create_map]: the fields of bpf_attr, without
    the name.  [btf]: the map was declared with BTF. *)
Record attr := {
  t_type : Z; t_key : Z; t_value : Z; t_entries : Z; t_flags : Z; t_extra : Z; t_inner_fd : Z;
  t_key_id : Z; t_value_id : Z; t_btf_fd : Z }.
Definition without_btf : list Z :=
  [BPF_MAP_TYPE_PERF_EVENT_ARRAY; BPF_MAP_TYPE_CGROUP_ARRAY; BPF_MAP_TYPE_STACK_TRACE; BPF_MAP_TYPE_ARRAY_OF_MAPS;
   BPF_MAP_TYPE_HASH_OF_MAPS; BPF_MAP_TYPE_DEVMAP; BPF_MAP_TYPE_DEVMAP_HASH; BPF_MAP_TYPE_CPUMAP; BPF_MAP_TYPE_XSKMAP;
   BPF_MAP_TYPE_SOCKMAP; BPF_MAP_TYPE_SOCKHASH; BPF_MAP_TYPE_QUEUE; BPF_MAP_TYPE_STACK; BPF_MAP_TYPE_RINGBUF].
Definition create_attr (btf : bool) (def : mapdef) (btf_fd inner_fd : option Z) : attr :=
  let fd := match btf_fd with Some n => n | None => 0 end in
  let mk key_id value_id btf_fd :=
    {| t_type := md_type def; t_key := md_key def; t_value := md_value def; t_entries := md_entries def; t_flags := md_flags def;
       t_extra := md_extra def; t_inner_fd := match inner_fd with Some n => n | None => 0 end;
       t_key_id := key_id; t_value_id := value_id; t_btf_fd := btf_fd |} in
  if btf then
    if existsb (Z.eqb (md_type def)) without_btf then mk 0 0 0
    else if md_type def =? BPF_MAP_TYPE_BLOOM_FILTER then mk 0 (md_value_id def) fd
    else mk (md_key_id def) (md_value_id def) fd
  else mk 0 0 0.
