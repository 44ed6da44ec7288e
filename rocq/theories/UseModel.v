(** Maps as eBPF programs use them.

    Sources: ebpf/aya-ebpf/src/lib.rs 181-208; maps/array.rs, per_cpu_array.rs,
    hash_map.rs, lpm_trie.rs, queue.rs, stack.rs, bloom_filter.rs,
    cgroup_array.rs, sock_map.rs, sock_hash.rs, xdp/*.rs, perf/*.rs and the
    same functions of btf_maps/*.rs; programs/tracing.rs 24-27, programs/tc.rs
    218-227, helpers.rs 854-868.

    A key or value is its bytes.  Helpers are functions of a state; the
    [c_long] they return is a number.  Pointers to values of a map are modelled
    by the key that was looked up: null or what is there, and a store through
    them. *)
From Verif Require Import Base.
Import ListNotations.
Local Open Scope Z_scope.

(** bpf_map_lookup_elem and the memory behind its result, a store through that
    result, bpf_map_update_elem, bpf_map_delete_elem, bpf_map_push_elem,
    bpf_map_pop_elem and bpf_map_peek_elem with the buffer afterwards. *)
Record helpers (S : Type) := {
  k_lookup : list Z -> S -> option (list Z);
  k_store : list Z -> list Z -> S -> S;
  k_update : list Z -> list Z -> Z -> S -> Z * S;
  k_delete : list Z -> S -> Z * S;
  k_push : list Z -> Z -> S -> Z * S;
  k_pop : S -> Z * list Z * S;
  k_peek : list Z -> S -> Z * list Z
}.
Arguments k_lookup {S}. Arguments k_store {S}. Arguments k_update {S}. Arguments k_delete {S}. Arguments k_push {S}.
Arguments k_pop {S}. Arguments k_peek {S}.

(** lib.rs 208. *)
Definition ENOENT : Z := 2.

(** [Ok(())] or [Some(())], [Ok(None)] or [None], [Ok(Some(value))] or
    [Some(value)], [Err(e)]. *)
Inductive presult := POk | PNone | PSome (b : list Z) | PErr (e : Z).

(** lib.rs 181-189 [insert], 191-198 [remove]; queue.rs 24-29, stack.rs 24-29,
    bloom_filter.rs 24-39. *)
Definition zero_or_err (ret : Z) : presult := if ret =? 0 then POk else PErr (i32 ret).
(** lib.rs 200-204 [lookup], as used by the functions [get]. *)
Definition found (r : option (list Z)) : presult := match r with Some b => PSome b | None => PNone end.
(** queue.rs 41-50 and 62-71, stack.rs the same. *)
Definition popped (ret : Z) (value : list Z) : presult :=
  let e := i32 ret in if e =? 0 then PSome value else if e =? - ENOENT then PNone else PErr e.

(** A call of a method; [PStore] is a store through [get_ptr_mut]. *)
Inductive pcall :=
| PGet (k : list Z) | PStore (k v : list Z) | PInsert (k v : list Z) (flags : Z) | PRemove (k : list Z)
| PPush (v : list Z) (flags : Z) | PPop | PPeek (buffer : list Z) | PContains (v : list Z).

Definition prog {S} (H : helpers S) (p : pcall) (s : S) : presult * S :=
  match p with
  | PGet k => (found (k_lookup H k s), s)
  | PStore k v => match k_lookup H k s with Some _ => (POk, k_store H k v s) | None => (PNone, s) end
  | PInsert k v flags => let (ret, s) := k_update H k v flags s in (zero_or_err ret, s)
  | PRemove k => let (ret, s) := k_delete H k s in (zero_or_err ret, s)
  | PPush v flags => let (ret, s) := k_push H v flags s in (zero_or_err ret, s)
  | PPop => let '(ret, value, s) := k_pop H s in (popped ret value, s)
  | PPeek buffer => let (ret, value) := k_peek H buffer s in (popped ret value, s)
  | PContains v => let (ret, _) := k_peek H v s in (zero_or_err ret, s)
  end.

(** maps/xdp/mod.rs 19-29 [try_redirect_map], on the result of
    bpf_redirect_map. *)
Definition XDP_REDIRECT : Z := 4.
Definition try_redirect (ret : Z) : res Z Z :=
  let r := u32 (Z.abs ret) in if r =? XDP_REDIRECT then Ok XDP_REDIRECT else Err r.

(** maps/xdp/dev_map.rs 97-108 and dev_map_hash.rs 99-110 [get]: reads
    [bpf_devmap_val], 8 bytes; dev_map.rs 118-125 [get_ifindex] reads 4.  Reading
    past the value is [Err]. *)
Inductive undefined := PastValue.
Definition read (n : nat) (b : list Z) : res undefined (list Z) := if (n <=? length b)%nat then Ok (firstn n b) else Err PastValue.
Definition dev_get (r : option (list Z)) : res undefined (option (Z * option Z)) :=
  match r with
  | None => Ok None
  | Some b => bind (read 8 b) (fun b => let id := le_dec (slice 4 4 b) in Ok (Some (le_dec (firstn 4 b), if id =? 0 then None else Some id)))
  end.
Definition dev_get_ifindex (r : option (list Z)) : res undefined (option Z) :=
  match r with None => Ok None | Some b => bind (read 4 b) (fun b => Ok (Some (le_dec b))) end.

(** perf/perf_event_byte_array.rs 28-43, perf_event_array.rs 32-47: the flags
    and the data given to bpf_perf_event_output; its result is not used. *)
Definition BPF_F_CURRENT_CPU : Z := 2 ^ 32 - 1.
Definition output_at_index (index : Z) (data : list Z) (flags : Z) : Z * list Z := (Z.lor (Z.shiftl flags 32) index, data).
Definition output (data : list Z) (flags : Z) : Z * list Z := output_at_index BPF_F_CURRENT_CPU data flags.

(** sock_map.rs 65-75, sock_hash.rs 64-74 [redirect_sk_lookup]: the calls made
    and the result; [assign]: what bpf_sk_assign returns. *)
Inductive sk_call := SkAssign (sk flags : Z) | SkRelease (sk : Z).
Definition redirect_sk_lookup (found : option Z) (assign : Z -> Z -> Z) (flags : Z) : list sk_call * res Z unit :=
  match found with
  | None => ([], Err (- ENOENT))
  | Some sk => let ret := assign sk flags in ([SkAssign sk flags; SkRelease sk], if ret =? 0 then Ok tt else Err (i32 ret))
  end.

(** cgroup_array.rs 45-52, programs/tc.rs 218-227. *)
Definition under_cgroup (ret : Z) : res Z bool := if ret =? 1 then Ok true else if ret =? 0 then Ok false else Err ret.
(** programs/tracing.rs 24-27. *)
Definition get_stackid (ret : Z) : res Z Z := if ret <? 0 then Err (i32 ret) else Ok ret.
(** helpers.rs 854-868. *)
Definition select_reuseport (ret : Z) : res Z unit := if ret =? 0 then Ok tt else Err ret.

(** btf_maps/sk_storage.rs 28-57, inode_storage.rs 24-52: the value and flags
    passed; BPF_LOCAL_STORAGE_GET_F_CREATE. *)
Definition storage_get : option (list Z) * Z := (None, 0).
Definition storage_get_or_insert (value : option (list Z)) : option (list Z) * Z := (value, 1).

(** maps/lpm_trie.rs 24-33: [Key], packed. *)
Definition lpm_key (prefix : Z) (data : list Z) : list Z := le_enc 4 prefix ++ data.
