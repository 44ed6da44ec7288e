(** Model of the typed map handles of aya/src/maps: which handle a map can be
    viewed as, the checks made on the sizes, and the system call each method
    makes.

    Simplifications: plain-data types ([Pod]) are their bytes, so [K] and [V] are
    sizes and a key or value is a list of that many bytes; the machine is
    little-endian; a pointer handed to the kernel is the memory it points to;
    whether a handle owns or borrows the map makes no difference; [RingBuf::new]
    maps memory, which is modelled in RingBufModel and left out here. *)
From Verif Require Import Base MapModel.
From Verif Require PinModel.
Local Open Scope Z_scope.

Notation shape := PinModel.shape.
Notation h_type := PinModel.h_type.
Notation h_key := PinModel.h_key.
Notation h_value := PinModel.h_value.
Notation h_entries := PinModel.h_entries.
Notation h_flags := PinModel.h_flags.

(** * Map variants *)

(** aya/src/maps/mod.rs:306-367 [Map]. *)
Inductive variant :=
| VArray | VArrayOfMaps | VBloomFilter | VCgroupArray | VCgroupStorage | VCgrpStorage | VCpuMap | VDevMap | VDevMapHash
| VHashMap | VHashOfMaps | VInodeStorage | VLpmTrie | VLruHashMap | VPerCpuArray | VPerCpuCgroupStorage | VPerCpuHashMap
| VPerCpuLruHashMap | VPerfEventArray | VProgramArray | VQueue | VReusePortSockArray | VRingBuf | VSockHash | VSockMap
| VSkStorage | VStack | VStackTraceMap | VUnsupported | VXskMap.

Inductive merr :=
| EInvalidMapType (ty : Z) | EInvalidKeySize (size expected : Z) | EInvalidValueSize (size expected : Z)
| EInvalidValueStride (size stride : Z) | EUnsupportedMapFlags (flags : Z) | EUnsupported (ty : Z)
| EOutOfBounds (index max_entries : Z) | EKeyNotFound | EElementNotFound | EChainedProgram
| ESyscall (errno : Z) | ENoMethod | EUndefined.

(** aya-obj/src/maps.rs:5-56: the numbers of the map types are those of
    aya-obj/src/generated/linux_bindings_x86_64.rs:503-536, 0 to 33. *)
Definition map_type_of (n : Z) : option Z := if (0 <=? n) && (n <=? 33) then Some n else None.

(** aya/src/maps/mod.rs:455-499 [Map::from_map_data]. *)
Definition from_map_data (sh : shape) : res merr variant :=
  match map_type_of (h_type sh) with
  | None => Err (EInvalidMapType (h_type sh))
  | Some ty =>
      match ty with
      | 1 => Ok VHashMap
      | 2 => Ok VArray
      | 3 => Ok VProgramArray
      | 4 => Ok VPerfEventArray
      | 5 => Ok VPerCpuHashMap
      | 6 => Ok VPerCpuArray
      | 7 => Ok VStackTraceMap
      | 9 => Ok VLruHashMap
      | 10 => Ok VPerCpuLruHashMap
      | 11 => Ok VLpmTrie
      | 14 => Ok VDevMap
      | 15 => Ok VSockMap
      | 16 => Ok VCpuMap
      | 17 => Ok VXskMap
      | 18 => Ok VSockHash
      | 22 => Ok VQueue
      | 23 => Ok VStack
      | 25 => Ok VDevMapHash
      | 27 => Ok VRingBuf
      | 30 => Ok VBloomFilter
      | 8 => Ok VCgroupArray
      | 12 => Ok VArrayOfMaps
      | 13 => Ok VHashOfMaps
      | 19 => Ok VCgroupStorage
      | 20 => Ok VReusePortSockArray
      | 24 => Ok VSkStorage
      | 26 => Ok VUnsupported
      | 28 => Ok VInodeStorage
      | 29 => Ok VUnsupported
      | 31 => Ok VUnsupported
      | 32 => Ok VCgrpStorage
      | 33 => Ok VUnsupported
      | 21 => Ok VPerCpuCgroupStorage
      | _ => Err (EInvalidMapType (h_type sh))
      end
  end.

(** aya/src/bpf.rs:889-940 [parse_map]. *)
Definition parse_map (sh : shape) (allow_unsupported : bool) : res merr variant :=
  match map_type_of (h_type sh) with
  | None => Err (EInvalidMapType (h_type sh))
  | Some ty =>
      match ty with
      | 2 => Ok VArray
      | 6 => Ok VPerCpuArray
      | 3 => Ok VProgramArray
      | 8 => Ok VCgroupArray
      | 19 => Ok VCgroupStorage
      | 21 => Ok VPerCpuCgroupStorage
      | 1 => Ok VHashMap
      | 9 => Ok VLruHashMap
      | 5 => Ok VPerCpuHashMap
      | 10 => Ok VPerCpuLruHashMap
      | 4 => Ok VPerfEventArray
      | 20 => Ok VReusePortSockArray
      | 27 => Ok VRingBuf
      | 18 => Ok VSockHash
      | 15 => Ok VSockMap
      | 30 => Ok VBloomFilter
      | 11 => Ok VLpmTrie
      | 23 => Ok VStack
      | 7 => Ok VStackTraceMap
      | 22 => Ok VQueue
      | 16 => Ok VCpuMap
      | 14 => Ok VDevMap
      | 25 => Ok VDevMapHash
      | 17 => Ok VXskMap
      | 24 => Ok VSkStorage
      | 28 => Ok VInodeStorage
      | 32 => Ok VCgrpStorage
      | 12 => Ok VArrayOfMaps
      | 13 => Ok VHashOfMaps
      | _ => if allow_unsupported then Ok VUnsupported else Err (EUnsupported ty)
      end
  end.

(** * Handles *)

Inductive wrapper :=
| WArray | WArrayOfMaps | WBloomFilter | WCgroupArray | WCgroupStorage | WCgrpStorage | WCpuMap | WDevMap | WDevMapHash
| WHashMap | WHashOfMaps | WInodeStorage | WLpmTrie | WPerCpuArray | WPerCpuCgroupStorage | WPerCpuHashMap
| WPerfEventArray | WProgramArray | WQueue | WReusePortSockArray | WRingBuf | WSockHash | WSockMap | WSkStorage | WStack
| WStackTraceMap | WXskMap.

(** aya/src/maps/mod.rs:592-657 [impl_try_from_map]: the variants a handle is
    made from. *)
Definition accepts (w : wrapper) (v : variant) : bool :=
  match w, v with
  | WArray, VArray | WArrayOfMaps, VArrayOfMaps | WBloomFilter, VBloomFilter | WCgroupArray, VCgroupArray
  | WCgroupStorage, VCgroupStorage | WCgrpStorage, VCgrpStorage | WCpuMap, VCpuMap | WDevMap, VDevMap
  | WDevMapHash, VDevMapHash | WHashMap, VHashMap | WHashMap, VLruHashMap | WHashOfMaps, VHashOfMaps
  | WInodeStorage, VInodeStorage | WLpmTrie, VLpmTrie | WPerCpuArray, VPerCpuArray
  | WPerCpuCgroupStorage, VPerCpuCgroupStorage | WPerCpuHashMap, VPerCpuHashMap | WPerCpuHashMap, VPerCpuLruHashMap
  | WPerfEventArray, VPerfEventArray | WProgramArray, VProgramArray | WQueue, VQueue
  | WReusePortSockArray, VReusePortSockArray | WRingBuf, VRingBuf | WSockHash, VSockHash | WSockMap, VSockMap
  | WSkStorage, VSkStorage | WStack, VStack | WStackTraceMap, VStackTraceMap | WXskMap, VXskMap => true
  | _, _ => false
  end.

(** Whether the kernel stores program ids in CPU maps and in device maps
    (aya/src/kernel_features.rs:71-72); asked once (see [SysModel]). *)
Record features := { f_cpumap : bool; f_devmap : bool }.

(** aya/src/maps/mod.rs:756-763 [check_bounds]. *)
Definition check_bounds (sh : shape) (index : Z) : res merr unit :=
  if h_entries sh <=? index then Err (EOutOfBounds index (h_entries sh)) else Ok tt.

(** aya/src/maps/mod.rs:765-777 [check_kv_size] and 779-786 [check_v_size];
    [k] and [v] are the sizes of the types. *)
Definition check_kv_size (k v : Z) (sh : shape) : res merr unit :=
  if negb (k =? h_key sh) then Err (EInvalidKeySize k (h_key sh))
  else if negb (v =? h_value sh) then Err (EInvalidValueSize v (h_value sh))
  else Ok tt.
Definition check_v_size (v : Z) (sh : shape) : res merr unit :=
  if negb (v =? h_value sh) then Err (EInvalidValueSize v (h_value sh)) else Ok tt.

(** aya/src/maps/stack_trace.rs:85-122, without the map. *)
Definition BPF_F_STACK_BUILD_ID := 32.
Definition stack_trace_new (sh : shape) : res merr unit :=
  if negb (h_key sh =? 4) then Err (EInvalidKeySize (h_key sh) 4)
  else if negb (Z.land (h_flags sh) BPF_F_STACK_BUILD_ID =? 0) then Err (EUnsupportedMapFlags (h_flags sh))
  else if (h_value sh =? 0) || negb (h_value sh mod 8 =? 0) then Err (EInvalidValueStride (h_value sh) 8)
  else Ok tt.

(** The [new] of each handle: array/array.rs:38-46, of_maps/array.rs:38-45,
    bloom_filter.rs:46-54, array/cgroup_array.rs:38-43, cgroup_storage.rs:75-83
    and 118-126, cgrp_storage.rs:32-40, xdp/cpu_map.rs:59-69,
    xdp/dev_map.rs:50-60, xdp/dev_map_hash.rs:49-59, hash_map/hash_map.rs:40-48,
    of_maps/hash_map.rs:39-47, inode_storage.rs:29-37, lpm_trie.rs:107-115,
    array/per_cpu_array.rs:58-66, hash_map/per_cpu_hash_map.rs:51-59,
    perf/perf_event_array.rs, array/program_array.rs:54-59, queue.rs:39-47,
    sock/reuseport_sock_array.rs:54-59, sock/sock_hash.rs:71-79,
    sock/sock_map.rs:58-63, sk_storage.rs:29-37, stack.rs:39-47,
    stack_trace.rs:85-122, xdp/xsk_map.rs:40-45. *)
Definition new (f : features) (w : wrapper) (k v : Z) (sh : shape) : res merr unit :=
  match w with
  | WArray | WPerCpuArray => check_kv_size 4 v sh
  | WArrayOfMaps | WCgroupArray | WProgramArray | WReusePortSockArray | WSockMap | WXskMap => check_kv_size 4 4 sh
  | WBloomFilter => check_v_size v sh
  | WCgroupStorage | WPerCpuCgroupStorage => check_kv_size 16 v sh
  | WCgrpStorage | WInodeStorage | WSkStorage => check_kv_size 4 v sh
  | WCpuMap => check_kv_size 4 (if f_cpumap f then 8 else 4) sh
  | WDevMap | WDevMapHash => check_kv_size 4 (if f_devmap f then 8 else 4) sh
  | WHashMap | WPerCpuHashMap => check_kv_size k v sh
  | WHashOfMaps | WSockHash => check_kv_size k 4 sh
  | WLpmTrie => check_kv_size (4 + k) v sh
  | WPerfEventArray | WRingBuf => Ok tt
  | WQueue | WStack => check_kv_size 0 v sh
  | WStackTraceMap => stack_trace_new sh
  end.

Record handle := { hd_wrap : wrapper; hd_k : Z; hd_v : Z; hd_shape : shape }.

(** aya/src/maps/mod.rs:583-597: [TryFrom<Map>] from the variant [m] holding a
    map of shape [sh]. *)
Definition try_from_map (f : features) (w : wrapper) (k v : Z) (m : variant) (sh : shape) : res merr handle :=
  if accepts w m then bind (new f w k v sh) (fun _ => Ok {| hd_wrap := w; hd_k := k; hd_v := v; hd_shape := sh |})
  else Err (EInvalidMapType (h_type sh)).

(** aya-obj/src/obj.rs:1372-1412 [parse_map_info] and aya/src/maps/mod.rs:956-962
    [from_fd_inner]: the shape kept with a map that was looked up is what the
    kernel says about it. *)
Definition from_info (kernel : shape) : shape :=
  {| PinModel.h_type := h_type kernel; PinModel.h_key := h_key kernel; PinModel.h_value := h_value kernel;
     PinModel.h_entries := h_entries kernel; PinModel.h_flags := h_flags kernel |}.

(** aya/src/maps/mod.rs:676-680 and of_maps/mod.rs:15-18: a handle for a map
    found by its number. *)
Definition from_id (f : features) (w : wrapper) (k v : Z) (kernel : shape) : res merr handle :=
  let sh := from_info kernel in bind (from_map_data sh) (fun m => try_from_map f w k v m sh).

(** aya/src/maps/mod.rs:722-754 [create]: type, key size and value size of a
    stand-alone map. *)
Definition create_shape (w : wrapper) (k v entries flags : Z) : option shape :=
  let mk ty key := Some {| PinModel.h_type := ty; PinModel.h_key := key; PinModel.h_value := v; PinModel.h_entries := entries; PinModel.h_flags := flags |} in
  match w with
  | WArray => mk 2 4
  | WPerCpuArray => mk 6 4
  | WBloomFilter => mk 30 0
  | WQueue => mk 22 0
  | WStack => mk 23 0
  | WHashMap => mk 1 k
  | WPerCpuHashMap => mk 5 k
  | WLpmTrie => mk 11 (4 + k)
  | _ => None
  end.

(** * Methods *)

(** What the methods take as key: plain data, an index, a file descriptor, a
    prefix length and data (lpm_trie.rs:64-69), an inode and an attach type
    (cgroup_storage.rs:29-32). *)
Inductive ukey :=
| UData (b : list Z) | UIndex (i : Z) | UFd (fd : Z) | ULpm (prefix : Z) (data : list Z) | UCgroup (inode attach : Z).
(** What they take as value: plain data, one per CPU, a file descriptor, a queue
    size or interface and a program. *)
Inductive uval :=
| WData (b : list Z) | WPerCpu (l : list (list Z)) | WFd (fd : Z) | WXdp (target : Z) (prog : option Z).

(** The bytes of a key: [u32], [i32], [#[repr(C, packed)] Key],
    [bpf_cgroup_storage_key] with its padding. *)
Definition key_bytes (k : ukey) : list Z :=
  match k with
  | UData b => b
  | UIndex i => le_enc 4 i
  | UFd fd => le_enc 4 fd
  | ULpm prefix data => le_enc 4 prefix ++ data
  | UCgroup inode attach => le_enc 8 inode ++ le_enc 4 attach ++ [0; 0; 0; 0]
  end.

Inductive op :=
| OGet (k : ukey) (flags : Z) | OSet (k : ukey) (v : uval) (flags : Z) | ORemove (k : ukey) | OKeys (prev : option ukey)
| OPush (v : uval) (flags : Z) | OPop (flags : Z) | OContains (v : uval) (flags : Z).

Inductive cmd := CLookup | CUpdate | CDelete | CNextKey | CLookupDelete.
(** A system call: [bpf_attr], with the memory behind its pointers. *)
Record req := { q_cmd : cmd; q_key : option (list Z); q_value : option (list Z); q_flags : Z }.

(** aya/src/sys/bpf.rs:225-247 and 278-299: [n] bytes for the value, all zero. *)
Definition lookup (c : cmd) (key : option (list Z)) (n : Z) (flags : Z) : req :=
  {| q_cmd := c; q_key := key; q_value := Some (repeat 0 (Z.to_nat n)); q_flags := flags |}.
(** aya/src/sys/bpf.rs:320-337 [bpf_map_update_elem], 354-369. *)
Definition update (key : option (list Z)) (value : list Z) (flags : Z) : req :=
  {| q_cmd := CUpdate; q_key := key; q_value := Some value; q_flags := flags |}.
(** aya/src/sys/bpf.rs:381-389 [bpf_map_delete_elem]. *)
Definition delete (key : list Z) : req := {| q_cmd := CDelete; q_key := Some key; q_value := None; q_flags := 0 |}.
(** aya/src/sys/bpf.rs:391-410 [bpf_map_get_next_key]: [n] bytes for the next
    key; what is in them before does not matter. *)
Definition next_key (prev : option (list Z)) (n : Z) : req :=
  {| q_cmd := CNextKey; q_key := prev; q_value := Some (repeat 0 (Z.to_nat n)); q_flags := 0 |}.
(** aya/src/sys/bpf.rs:301-318 [bpf_map_peek_elem] and 339-352
    [bpf_map_push_elem]. *)
Definition peek (value : list Z) (flags : Z) : req := {| q_cmd := CLookup; q_key := None; q_value := Some value; q_flags := flags |}.
Definition push (value : list Z) (flags : Z) : req := {| q_cmd := CUpdate; q_key := None; q_value := Some value; q_flags := flags |}.

(** The size of the values a [get] reads, per CPU for [per_cpu] handles: the
    type its [bpf_map_lookup_elem] is called at; [stack_trace.rs:133] frames of
    8 bytes. *)
Definition per_cpu (w : wrapper) : bool :=
  match w with WPerCpuArray | WPerCpuHashMap | WPerCpuCgroupStorage => true | _ => false end.
Definition value_size (f : features) (h : handle) : Z :=
  match hd_wrap h with
  | WArray | WHashMap | WLpmTrie | WSkStorage | WInodeStorage | WCgrpStorage | WCgroupStorage | WQueue | WStack | WBloomFilter
  | WPerCpuArray | WPerCpuHashMap | WPerCpuCgroupStorage => hd_v h
  | WCpuMap => if f_cpumap f then 8 else 4
  | WDevMap | WDevMapHash => if f_devmap f then 8 else 4
  | WStackTraceMap => (h_value (hd_shape h) / 8) * 8
  | _ => 4
  end.
(** The size of the type of the keys. *)
Definition key_size (h : handle) : Z :=
  match hd_wrap h with
  | WHashMap | WPerCpuHashMap | WHashOfMaps | WSockHash => hd_k h
  | WLpmTrie => 4 + hd_k h
  | WCgroupStorage | WPerCpuCgroupStorage => 16
  | _ => 4
  end.
Definition value_space (f : features) (cpus : nat) (h : handle) : Z :=
  if per_cpu (hd_wrap h) then Z.of_nat (cpus * next_multiple_of_8 (Z.to_nat (hd_v h))) else value_size f h.

(** The handles whose methods check the index first. *)
Definition bounded (w : wrapper) : bool :=
  match w with
  | WArray | WPerCpuArray | WProgramArray | WCgroupArray | WCpuMap | WDevMap | WXskMap | WArrayOfMaps | WSockMap
  | WReusePortSockArray => true
  | _ => false
  end.
Definition check_key (h : handle) (k : ukey) : res merr unit :=
  match k with
  | UIndex i => if bounded (hd_wrap h) then check_bounds (hd_shape h) i else Ok tt
  | _ => Ok tt
  end.

(** The bytes of a value: [MapModel.build_kernel_mem] for per-CPU values
    (aya/src/sys/bpf.rs:371-379); xdp/cpu_map.rs:151-165, xdp/dev_map.rs:141-156
    and xdp/dev_map_hash.rs:139-154 for the last. *)
Definition xdp_bytes (supported : bool) (target : Z) (prog : option Z) : res merr (list Z) :=
  if supported then Ok (le_enc 4 target ++ le_enc 4 (match prog with Some fd => fd | None => 0 end))
  else match prog with Some _ => Err EChainedProgram | None => Ok (le_enc 4 target) end.
Definition val_bytes (f : features) (cpus : nat) (h : handle) (v : uval) : res merr (list Z) :=
  match v with
  | WData b => Ok b
  | WFd fd => Ok (le_enc 4 fd)
  | WPerCpu l => match build_kernel_mem cpus (Z.to_nat (hd_v h)) l with Ok m => Ok m | Err _ => Err EUndefined end
  | WXdp target prog => xdp_bytes (match hd_wrap h with WCpuMap => f_cpumap f | _ => f_devmap f end) target prog
  end.

(** The methods of each handle; those of array/*.rs, xdp/*.rs, sock/*.rs,
    of_maps/*.rs, hash_map/*.rs, *_storage.rs, queue.rs, stack.rs,
    bloom_filter.rs, lpm_trie.rs, stack_trace.rs and
    perf/perf_event_array.rs [open]. *)
Inductive meth := MGet | MSet | MRemove | MKeys | MPush | MPop | MContains.
Definition methods (w : wrapper) : list meth :=
  match w with
  | WArray | WPerCpuArray | WCpuMap | WDevMap | WArrayOfMaps | WCgroupStorage | WPerCpuCgroupStorage => [MGet; MSet]
  | WCgroupArray | WXskMap => [MSet; MRemove]
  | WProgramArray | WSockMap | WReusePortSockArray => [MSet; MRemove; MKeys]
  | WHashMap | WPerCpuHashMap | WLpmTrie | WDevMapHash | WHashOfMaps | WSockHash => [MGet; MSet; MRemove; MKeys]
  | WSkStorage | WInodeStorage | WCgrpStorage => [MGet; MSet; MRemove]
  | WQueue | WStack => [MPush; MPop]
  | WBloomFilter => [MPush; MContains]
  | WStackTraceMap => [MGet; MRemove; MKeys]
  | WPerfEventArray => [MSet]
  | WRingBuf => []
  end.
Definition meth_of (o : op) : meth :=
  match o with
  | OGet _ _ => MGet | OSet _ _ _ => MSet | ORemove _ => MRemove | OKeys _ => MKeys | OPush _ _ => MPush | OPop _ => MPop
  | OContains _ _ => MContains
  end.
Definition meth_eqb (a b : meth) : bool :=
  match a, b with
  | MGet, MGet | MSet, MSet | MRemove, MRemove | MKeys, MKeys | MPush, MPush | MPop, MPop | MContains, MContains => true
  | _, _ => false
  end.

(** The system call of a method, or the error it returns instead. *)
Definition plan (f : features) (cpus : nat) (h : handle) (o : op) : res merr req :=
  if negb (existsb (meth_eqb (meth_of o)) (methods (hd_wrap h))) then Err ENoMethod
  else
    match o with
    | OGet k flags => bind (check_key h k) (fun _ => Ok (lookup CLookup (Some (key_bytes k)) (value_space f cpus h) flags))
    | OSet k v flags =>
        bind (check_key h k) (fun _ => bind (val_bytes f cpus h v) (fun b => Ok (update (Some (key_bytes k)) b flags)))
    | ORemove k => bind (check_key h k) (fun _ => Ok (delete (key_bytes k)))
    | OKeys prev => Ok (next_key (option_map key_bytes prev) (key_size h))
    | OPush v flags => bind (val_bytes f cpus h v) (fun b => Ok (push b flags))
    | OPop flags => Ok (lookup CLookupDelete None (value_size f h) flags)
    | OContains v flags => bind (val_bytes f cpus h v) (fun b => Ok (peek b flags))
    end.

(** * Answers *)

(** What a method returns. *)
Inductive out :=
| RUnit | RData (b : list Z) | RPerCpu (l : list (list Z)) | RXdp (target : Z) (prog : option Z) | RId (id : Z)
| RFrames (ips : list Z) | RKey (k : list Z) | REnd.

(** stack_trace.rs:141-145: the frames before the first 0. *)
Fixpoint words64 (n : nat) (b : list Z) : list Z :=
  match n with O => [] | S n => le_dec (firstn 8 b) :: words64 n (skipn 8 b) end.
Fixpoint take_nonzero (l : list Z) : list Z :=
  match l with [] => [] | x :: l => if x =? 0 then [] else x :: take_nonzero l end.

(** xdp/cpu_map.rs:89-105, xdp/dev_map.rs:80-96, xdp/dev_map_hash.rs:69-85. *)
Definition xdp_value (supported : bool) (b : list Z) : out :=
  if supported then
    let id := le_dec (slice 4 4 b) in RXdp (le_dec (firstn 4 b)) (if id =? 0 then None else Some id)
  else RXdp (le_dec b) None.

(** What is made of the value the kernel filled in; [RId] is the number
    [map_from_id] looks up (of_maps/array.rs:86-89, of_maps/hash_map.rs:74-77). *)
Definition decode_value (f : features) (h : handle) (b : list Z) : res merr out :=
  match hd_wrap h with
  | WCpuMap => Ok (xdp_value (f_cpumap f) b)
  | WDevMap | WDevMapHash => Ok (xdp_value (f_devmap f) b)
  | WArrayOfMaps | WHashOfMaps => Ok (RId (le_dec b))
  | WStackTraceMap => Ok (RFrames (take_nonzero (words64 (Z.to_nat (h_value (hd_shape h) / 8)) b)))
  | w =>
      if per_cpu w then match from_kernel_mem (Z.to_nat (hd_v h)) b with Ok l => Ok (RPerCpu l) | Err _ => Err EUndefined end
      else Ok (RData b)
  end.

Definition ENOENT := 2.
(** [r]: the value buffer after the call, or the error number.  ENOENT becomes
    [KeyNotFound] or [ElementNotFound] for reads (sys/bpf.rs:242-246, 294-298,
    313-317, hash_map/mod.rs:27, queue.rs:74, bloom_filter.rs:64), the end for
    keys, and stays an error for writes. *)
Definition answer (f : features) (h : handle) (o : op) (r : res Z (list Z)) : res merr out :=
  match o, r with
  | OGet _ _, Ok b => decode_value f h b
  | OGet _ _, Err e => Err (if e =? ENOENT then EKeyNotFound else ESyscall e)
  | OPop _, Ok b => decode_value f h b
  | OPop _, Err e => Err (if e =? ENOENT then EElementNotFound else ESyscall e)
  | OContains _ _, Ok _ => Ok RUnit
  | OContains _ _, Err e => Err (if e =? ENOENT then EElementNotFound else ESyscall e)
  | OKeys _, Ok b => Ok (RKey b)
  | OKeys _, Err e => if e =? ENOENT then Ok REnd else Err (ESyscall e)
  | (OSet _ _ _ | ORemove _ | OPush _ _), Ok _ => Ok RUnit
  | (OSet _ _ _ | ORemove _ | OPush _ _), Err e => Err (ESyscall e)
  end.

(** A method against a kernel with state [S]. *)
Definition call {S} (kernel : req -> S -> res Z (list Z) * S) (f : features) (cpus : nat) (h : handle) (o : op) (s : S) : res merr out * S :=
  match plan f cpus h o with
  | Err e => (Err e, s)
  | Ok q => let (r, s) := kernel q s in (answer f h o r, s)
  end.
Fixpoint calls {S} (kernel : req -> S -> res Z (list Z) * S) (f : features) (cpus : nat) (h : handle) (l : list op) (s : S) : list (res merr out) * S :=
  match l with
  | [] => ([], s)
  | o :: l => let (r, s) := call kernel f cpus h o s in let (rs, s) := calls kernel f cpus h l s in (r :: rs, s)
  end.
