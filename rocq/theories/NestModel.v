(** Maps that hold maps: aya/src/maps/of_maps/*.rs with [MapData::from_id] and
    the conversions of aya/src/maps/mod.rs, and the programs' side,
    ebpf/aya-ebpf/src/btf_maps/of_maps/*.rs.

    The handles for the outer map, the checks of its methods and the values they
    pass are those of [TypedModel]; here is what happens with the number of an
    inner map, which the kernel returns where it was given a descriptor.

    Simplifications: those of [TypedModel]; a handle that owns its map is its
    descriptor, and dropping it closes the descriptor; a reference to an inner
    map that a program gets is whatever the kernel returned. *)
From Verif Require Import Base TypedModel.
Import ListNotations.
Local Open Scope Z_scope.

(** The system calls used: one on a map behind a descriptor, BPF_MAP_GET_FD_BY_ID
    (aya/src/sys/bpf.rs:839-851), BPF_OBJ_GET_INFO_BY_FD (801-821, 853-855),
    close.  An error is its number. *)
Record syscalls (S : Type) := {
  s_map : Z -> req -> S -> res Z (list Z) * S;
  s_open : Z -> S -> res Z Z * S;
  s_info : Z -> S -> res Z shape;
  s_close : Z -> S -> S
}.
Arguments s_map {S}. Arguments s_open {S}. Arguments s_info {S}. Arguments s_close {S}.

(** [V]: [MapData] or a typed handle for it. *)
Inductive vtype := VMapData | VTyped (w : wrapper) (k v : Z).
(** aya/src/maps/mod.rs:701-732: the types with [FromMapData]; they have
    [InnerMap], too (735-739: [MapFd] has only that). *)
Definition inner_type (t : vtype) : bool :=
  match t with
  | VMapData => true
  | VTyped w _ _ =>
      match w with
      | WCpuMap | WDevMap | WDevMapHash | WSockMap | WStackTraceMap | WXskMap
      | WPerfEventArray | WRingBuf
      | WArray | WBloomFilter | WCgrpStorage | WInodeStorage | WPerCpuArray | WQueue | WSockHash | WSkStorage | WStack
      | WHashMap | WLpmTrie | WPerCpuHashMap => true
      | _ => false
      end
  end.

(** An owned handle for an inner map. *)
Record inner := { i_fd : Z; i_shape : shape; i_type : vtype }.
Definition release {S} (K : syscalls S) (i : inner) (s : S) : S := s_close K (i_fd i) s.

(** aya/src/maps/mod.rs:676-680, 722-726 [from_map_data]. *)
Definition convert (f : features) (t : vtype) (info : shape) : res merr unit :=
  match t with
  | VMapData => Ok tt
  | VTyped w k v => bind (from_id f w k v info) (fun _ => Ok tt)
  end.

(** aya/src/maps/of_maps/mod.rs:15-18 [map_from_id], aya/src/maps/mod.rs:951-962
    [from_id] and [from_fd_inner]: when anything fails after the descriptor was
    opened, it is dropped. *)
Definition map_from_id {S} (K : syscalls S) (f : features) (t : vtype) (id : Z) (s : S) : res merr inner * S :=
  match s_open K id s with
  | (Err e, s) => (Err (ESyscall e), s)
  | (Ok fd, s) =>
      match s_info K fd s with
      | Err e => (Err (ESyscall e), s_close K fd s)
      | Ok info =>
          match convert f t info with
          | Ok _ => (Ok {| i_fd := fd; i_shape := from_info info; i_type := t |}, s)
          | Err e => (Err e, s_close K fd s)
          end
      end
  end.

(** A handle for the outer map. *)
Record outer := { o_fd : Z; o_handle : handle }.

(** of_maps/array.rs:75-90, of_maps/hash_map.rs:67-78 [get], up to the number;
    then the rest of it. *)
Definition find {S} (K : syscalls S) (f : features) (h : outer) (k : ukey) (flags : Z) (s : S) : res merr Z * S :=
  match call (s_map K (o_fd h)) f 0 (o_handle h) (OGet k flags) s with
  | (Ok (RId id), s) => (Ok id, s)
  | (Ok _, s) => (Err EUndefined, s)
  | (Err e, s) => (Err e, s)
  end.
Definition get {S} (K : syscalls S) (f : features) (t : vtype) (h : outer) (k : ukey) (flags : Z) (s : S) : res merr inner * S :=
  match find K f h k flags s with
  | (Ok id, s) => map_from_id K f t id s
  | (Err e, s) => (Err e, s)
  end.
(** [get] while [between] happens elsewhere. *)
Definition get_while {S} (K : syscalls S) (f : features) (t : vtype) (h : outer) (k : ukey) (flags : Z) (between : S -> S) (s : S)
  : res merr inner * S :=
  match find K f h k flags s with
  | (Ok id, s) => map_from_id K f t id (between s)
  | (Err e, s) => (Err e, s)
  end.

(** of_maps/array.rs:100-112 [set], of_maps/hash_map.rs:83-90 [insert] with
    hash_map/mod.rs:30-43; of_maps/hash_map.rs:95-97 [remove]. *)
Definition set {S} (K : syscalls S) (f : features) (h : outer) (k : ukey) (i : inner) (flags : Z) (s : S) : res merr out * S :=
  call (s_map K (o_fd h)) f 0 (o_handle h) (OSet k (WFd (i_fd i)) flags) s.
Definition remove {S} (K : syscalls S) (f : features) (h : outer) (k : ukey) (s : S) : res merr out * S :=
  call (s_map K (o_fd h)) f 0 (o_handle h) (ORemove k) s.

(** What programs call: bpf_map_lookup_elem on a map, for a map of maps
    ([P]: references to maps) and for other maps, and a store through the
    result. *)
Record nested (S P : Type) := {
  p_inner : P -> list Z -> S -> option P;
  p_lookup : P -> list Z -> S -> option (list Z);
  p_store : P -> list Z -> list Z -> S -> S
}.
Arguments p_inner {S P}. Arguments p_lookup {S P}. Arguments p_store {S P}.

(** btf_maps/of_maps/array.rs:62-68, hash_map.rs:65-69 [get_value] with
    btf_maps/mod.rs:130-137; [m]: the outer map. *)
Definition get_value {S P} (H : nested S P) (m : P) (outer_key inner_key : list Z) (s : S) : option (list Z) :=
  match p_inner H m outer_key s with
  | None => None
  | Some i => p_lookup H i inner_key s
  end.
(** array.rs:80-83, hash_map.rs:77-86 [get_value_ptr_mut] with mod.rs:141-147,
    and a store of [v] through the pointer if there is one. *)
Definition store_value {S P} (H : nested S P) (m : P) (outer_key inner_key v : list Z) (s : S) : bool * S :=
  match p_inner H m outer_key s with
  | None => (false, s)
  | Some i => match p_lookup H i inner_key s with None => (false, s) | Some _ => (true, p_store H i inner_key v s) end
  end.
