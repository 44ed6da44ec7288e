(** What a map declared in an eBPF program is meant to be, and what the kernel
    asks of it (kernel/bpf: the [map_alloc_check] functions and
    syscall.c [map_create], which are not part of /repo; their behaviour is an
    assumption.  Limits on memory are left out.) *)
From Coq Require Import String.
From Verif Require Import Base Text BtfTypes BtfModel BtfProofs2 ObjModel MapModel TypedModel DeclModel.
Local Open Scope Z_scope.

(** * What is declared *)

(** Type (enum bpf_map_type of the kernel), size of keys and size of values. *)
Definition meant (d : decl) (a : params) : Z * Z * Z :=
  match d with
  | DHashMap => (1, a_key a, a_value a)
  | DArray => (2, 4, a_value a)
  | DProgramArray => (3, 4, 4)
  | DPerfEventArray | DPerfEventByteArray => (4, 4, 4)
  | DPerCpuHashMap => (5, a_key a, a_value a)
  | DPerCpuArray => (6, 4, a_value a)
  | DStackTrace => (7, 4, 8 * a_depth a)
  | DCgroupArray => (8, 4, 4)
  | DLruHashMap => (9, a_key a, a_value a)
  | DLruPerCpuHashMap => (10, a_key a, a_value a)
  | DLpmTrie => (11, 4 + a_key a, a_value a)
  | DArrayOfMaps => (12, 4, 4)
  | DHashOfMaps => (13, a_key a, 4)
  | DDevMap => (14, 4, 8)
  | DSockMap => (15, 4, 4)
  | DCpuMap => (16, 4, 8)
  | DXskMap => (17, 4, 4)
  | DSockHash => (18, a_key a, 4)
  | DCgroupStorage => (19, 16, a_value a)
  | DReusePortSockArray => (20, 4, 4)
  | DPerCpuCgroupStorage => (21, 16, a_value a)
  | DQueue => (22, 0, a_value a)
  | DStack => (23, 0, a_value a)
  | DSkStorage => (24, 4, a_value a)
  | DDevMapHash => (25, 4, 8)
  | DRingBuf => (27, 0, 0)
  | DInodeStorage => (28, 4, a_value a)
  | DBloomFilter => (30, 0, a_value a)
  | DCgrpStorage => (32, 4, a_value a)
  end.
Definition meant_type (d : decl) (a : params) : Z := fst (fst (meant d a)).
Definition meant_key (d : decl) (a : params) : Z := snd (fst (meant d a)).
Definition meant_value (d : decl) (a : params) : Z := snd (meant d a).

(** Storages are not created with room for a number of entries; perf event
    arrays get theirs from the number of CPUs. *)
Definition counted (d : decl) : bool :=
  match d with
  | DPerfEventArray | DPerfEventByteArray | DCgroupStorage | DPerCpuCgroupStorage | DCgrpStorage | DInodeStorage | DSkStorage => false
  | _ => true
  end.
Definition meant_entries (d : decl) (a : params) : Z := if counted d then a_entries a else 0.
(** [btf]: the BTF form, which takes the flags of a trie as they are. *)
Definition meant_flags (btf : bool) (d : decl) (a : params) : Z :=
  match d with
  | DCgroupStorage | DPerCpuCgroupStorage => 0
  | DCgrpStorage | DInodeStorage | DSkStorage => 1
  | DLpmTrie => if btf then a_flags a else Z.lor (a_flags a) 1
  | _ => a_flags a
  end.
Definition meant_extra (btf : bool) (d : decl) (a : params) : Z :=
  match d with DBloomFilter => if btf then a_hash_funcs a else 0 | _ => 0 end.

(** Whether [def] is the declared map. *)
Definition is_declared (btf : bool) (d : decl) (a : params) (def : mapdef) : Prop :=
  md_type def = meant_type d a /\ md_key def = meant_key d a /\ md_value def = meant_value d a /\
  md_entries def = meant_entries d a /\ md_flags def = meant_flags btf d a /\ md_extra def = meant_extra btf d a /\
  md_pin def = (if btf then 0 else if a_pinned a then 1 else 0).

(** Map kinds with a legacy form, and those holding maps. *)
Definition has_legacy (d : decl) : bool :=
  match d with DArrayOfMaps | DHashOfMaps | DCgrpStorage | DInodeStorage | DSkStorage => false | _ => true end.
Definition of_maps (d : decl) : bool := match d with DArrayOfMaps | DHashOfMaps => true | _ => false end.

(** Arguments the Rust types allow; the depth of a legacy stack trace map is
    fixed. *)
Definition u32_ok (x : Z) : Prop := 0 <= x < 2 ^ 32.
Definition params_ok (a : params) : Prop :=
  u32_ok (a_key a) /\ u32_ok (4 + a_key a) /\ u32_ok (a_value a) /\ u32_ok (a_entries a) /\ u32_ok (a_flags a) /\
  u32_ok (a_hash_funcs a) /\ u32_ok (8 * a_depth a) /\ 0 < a_align a.

(** * BTF of a declaration *)

(** The members of the struct rustc writes for the fields: names, and behind
    them pointers to arrays, pointers to types of the size with at most [dims]
    array dimensions, or an array of no pointers to the inner map's struct. *)
Definition field_is (dims : nat) (b : btf) (inner : list member -> Prop) (m : member) (f : list Z * ftype) : Prop :=
  string_at b (m_name m) = Ok (fst f) /\
  match snd f with
  | PtrArray n => exists h h' e i, type_by_id (b_types b) (m_type m) = Ok (TPtr h) /\
      type_by_id (b_types b) (h_third h) = Ok (TArray h' e i n)
  | PtrType n => exists h d k, type_by_id (b_types b) (m_type m) = Ok (TPtr h) /\
      csize (b_types b) d k (h_third h) n /\ (d < 32)%nat /\ (k <= dims)%nat
  | InnerMaps => exists h e i h' h'' ms, type_by_id (b_types b) (m_type m) = Ok (TArray h e i 0) /\
      type_by_id (b_types b) e = Ok (TPtr h') /\ type_by_id (b_types b) (h_third h') = Ok (TStruct h'' ms) /\ inner ms
  end.
Definition plain_struct (dims : nat) (b : btf) (d : decl) (a : params) (ms : list member) : Prop :=
  Forall2 (field_is dims b (fun _ => False)) ms (btf_decl d a).
Definition outer_struct (dims : nat) (b : btf) (d : decl) (a : params) (d' : decl) (a' : params) (ms : list member) : Prop :=
  Forall2 (field_is dims b (plain_struct dims b d' a')) ms (btf_decl d a).

(** The type ids of a definition are those of its key and value types. *)
Definition ids_ok (b : btf) (d : decl) (a : params) (def : mapdef) : Prop :=
  (exists n k, csize (b_types b) n k (md_key_id def) (meant_key d a)) /\
  (d <> DRingBuf -> exists n k, csize (b_types b) n k (md_value_id def) (meant_value d a)).

(** * What the kernel takes *)

(** Flags a type knows, without those that change what the sizes mean. *)
Definition known_flags (ty : Z) : Z :=
  match ty with
  | 1 => 1 + 4 + 8 + 16 + 64 + 128 + 256
  | 5 => 1 + 8 + 16 + 64 + 128 + 256
  | 9 => 2 + 4 + 8 + 16 + 64 + 128 + 256
  | 10 => 2 + 8 + 16 + 64 + 128 + 256
  | 2 => 4 + 8 + 16 + 128 + 256 + 1024 + 4096
  | 6 => 8 + 16 + 128 + 256
  | 3 | 8 | 12 => 4 + 8 + 16
  | 4 => 4 + 8 + 16 + 2048
  | 13 => 1 + 4 + 8 + 16 + 64
  | 7 | 14 | 15 | 18 | 25 => 4 + 8 + 16
  | 11 => 1 + 4 + 8 + 16 + 128 + 256
  | 16 | 17 | 27 => 4
  | 19 | 21 => 4 + 8 + 16 + 128 + 256
  | 20 => 4 + 8 + 16 + 128 + 256
  | 22 | 23 => 4 + 8 + 16 + 128 + 256
  | 24 | 28 | 32 => 1 + 512
  | 30 => 4 + 8 + 16 + 64 + 128 + 256
  | _ => 0
  end.
Definition flags_known (ty flags : Z) : Prop := forall i, 0 <= i -> Z.testbit flags i = true -> Z.testbit (known_flags ty) i = true.

(** htab_map_alloc_check, array_map_alloc_check, fd_array_map_alloc_check,
    fd_htab_map_alloc_check, stack_map_alloc, trie_alloc, dev_map_init_map,
    cpu_map_alloc, sock_map_alloc, sock_hash_alloc, xsk_map_alloc,
    cgroup_storage_map_alloc, reuseport_array_alloc_check,
    queue_stack_map_alloc_check, ringbuf_map_alloc, bloom_map_alloc,
    bpf_local_storage_map_alloc_check.  [stack]: perf_event_max_stack. *)
Definition sizes_taken (page stack : Z) (t : attr) : Prop :=
  let key := t_key t in let value := t_value t in let entries := t_entries t in
  match t_type t with
  | 1 | 5 | 9 | 10 => 0 < key /\ 0 < value /\ 0 < entries
  | 2 | 6 => key = 4 /\ 0 < value /\ 0 < entries
  | 3 | 4 | 8 | 12 | 17 => key = 4 /\ value = 4 /\ 0 < entries
  | 13 => 0 < key /\ value = 4 /\ 0 < entries
  | 7 => key = 4 /\ 8 <= value /\ (8 | value) /\ value <= 8 * stack /\ 0 < entries
  | 11 => 5 <= key <= 260 /\ 0 < value /\ 0 < entries /\ Z.testbit (t_flags t) 0 = true
  | 14 | 16 | 25 => key = 4 /\ (value = 4 \/ value = 8) /\ 0 < entries
  | 15 | 20 => key = 4 /\ (value = 4 \/ value = 8) /\ 0 < entries
  | 18 => 0 < key <= 512 /\ (value = 4 \/ value = 8) /\ 0 < entries
  | 19 | 21 => (key = 8 \/ key = 16) /\ 0 < value /\ entries = 0
  | 22 | 23 => key = 0 /\ 0 < value /\ 0 < entries
  | 24 | 28 | 32 => key = 4 /\ 0 < value /\ entries = 0 /\ Z.testbit (t_flags t) 0 = true
  | 27 => key = 0 /\ value = 0 /\ exists k, 0 <= k /\ entries = page * 2 ^ k
  | 30 => key = 0 /\ 0 < value /\ 0 < entries
  | _ => False
  end.

(** Only bloom filters have something to say in [map_extra]. *)
Definition extra_taken (t : attr) : Prop := if t_type t =? 30 then 0 <= t_extra t <= 15 else t_extra t = 0.

(** map_check_btf: types of maps that take no type ids, that need them, and
    that take them if the sizes are right. *)
Definition btf_taken (b : btf) (t : attr) : Prop :=
  let none := t_key_id t = 0 /\ t_value_id t = 0 in
  let sized id n := id <> 0 /\ exists d k, csize (b_types b) d k id n in
  match t_type t with
  | 4 | 7 | 8 | 12 | 13 | 14 | 15 | 16 | 17 | 18 | 22 | 23 | 25 | 27 => none
  | 24 | 28 | 32 => sized (t_key_id t) (t_key t) /\ sized (t_value_id t) (t_value t)
  | 30 => t_key_id t = 0 /\ (t_value_id t = 0 \/ sized (t_value_id t) (t_value t))
  | _ => none \/ (sized (t_key_id t) (t_key t) /\ sized (t_value_id t) (t_value t))
  end.
Definition kernel_takes (page stack : Z) (b : btf) (t : attr) : Prop :=
  sizes_taken page stack t /\ flags_known (t_type t) (t_flags t) /\ extra_taken t /\ btf_taken b t.

(** * Sensible declarations *)

(** Sizes: keys and values are not empty, there is room for an entry, and the
    limits of tries, socket hashes, stack traces and ring buffers. *)
Definition uses_key (d : decl) : bool :=
  match d with DHashMap | DLruHashMap | DPerCpuHashMap | DLruPerCpuHashMap | DLpmTrie | DSockHash | DHashOfMaps => true | _ => false end.
Definition uses_value (d : decl) : bool :=
  match d with
  | DHashMap | DLruHashMap | DPerCpuHashMap | DLruPerCpuHashMap | DLpmTrie | DArray | DPerCpuArray | DBloomFilter | DQueue | DStack
  | DCgroupStorage | DPerCpuCgroupStorage | DCgrpStorage | DInodeStorage | DSkStorage => true
  | _ => false
  end.
Definition sized (stack : Z) (d : decl) (a : params) : Prop :=
  (uses_key d = true -> 0 < a_key a) /\ (uses_value d = true -> 0 < a_value a) /\ (counted d = true -> 0 < a_entries a) /\
  (d = DLpmTrie -> a_key a <= 256) /\ (d = DSockHash -> a_key a <= 512) /\ (d = DStackTrace -> 0 < a_depth a <= stack).
Definition flagged (btf : bool) (d : decl) (a : params) : Prop :=
  flags_known (meant_type d a) (meant_flags btf d a) /\ (d = DLpmTrie -> btf = true -> Z.testbit (a_flags a) 0 = true) /\
  (d = DBloomFilter -> a_hash_funcs a <= 15).
(** References to values are aligned when the kernel aligns to 8 bytes; in a
    trie the value follows the key. *)
Definition aligned (d : decl) (a : params) : Prop :=
  (d = DHashMap \/ d = DLruHashMap \/ d = DPerCpuHashMap \/ d = DLruPerCpuHashMap \/ d = DPerCpuArray \/ d = DLpmTrie -> a_align a <= 8) /\
  (d = DLpmTrie -> (a_align a | a_key a)).

(** * Handles *)

(** The handle of user space for a map of the declared kind. *)
Definition same_kind (d : decl) : wrapper :=
  match d with
  | DArray => WArray | DBloomFilter => WBloomFilter | DCgroupArray => WCgroupArray | DCgroupStorage => WCgroupStorage
  | DPerCpuCgroupStorage => WPerCpuCgroupStorage | DHashMap | DLruHashMap => WHashMap | DPerCpuHashMap | DLruPerCpuHashMap => WPerCpuHashMap
  | DLpmTrie => WLpmTrie | DPerCpuArray => WPerCpuArray | DPerfEventArray | DPerfEventByteArray => WPerfEventArray
  | DProgramArray => WProgramArray | DQueue => WQueue | DReusePortSockArray => WReusePortSockArray | DRingBuf => WRingBuf
  | DSockHash => WSockHash | DSockMap => WSockMap | DStack => WStack | DStackTrace => WStackTraceMap | DCpuMap => WCpuMap
  | DDevMap => WDevMap | DDevMapHash => WDevMapHash | DXskMap => WXskMap | DArrayOfMaps => WArrayOfMaps | DHashOfMaps => WHashOfMaps
  | DCgrpStorage => WCgrpStorage | DInodeStorage => WInodeStorage | DSkStorage => WSkStorage
  end.

(** * Creating the map *)

(** A number of entries asked for in user space (EbpfLoader::map_max_entries). *)
Definition asked_ok (d : decl) (user : option Z) : Prop :=
  match user with Some n => 0 < n /\ (counted d = true \/ d = DPerfEventArray \/ d = DPerfEventByteArray) | None => True end.
(** Values of CPU maps and device maps have the size the kernel knows. *)
Definition settled_value (cpumap devmap : bool) (d : decl) (a : params) : Z :=
  match d with DCpuMap => if cpumap then 8 else 4 | DDevMap | DDevMapHash => if devmap then 8 else 4 | _ => meant_value d a end.
(** The definition after the sizes are settled (C40), and what the kernel then
    reports of the map. *)
Definition settled (entries value : Z) (def : mapdef) : mapdef := set_entries entries (set_value value def).
Definition reported (def : mapdef) : shape :=
  {| PinModel.h_type := md_type def; PinModel.h_key := md_key def; PinModel.h_value := md_value def;
     PinModel.h_entries := md_entries def; PinModel.h_flags := md_flags def |}.
