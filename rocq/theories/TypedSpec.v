(** What typed map handles are expected to do, and the part of the kernel they
    talk to (kernel/bpf/syscall.c and the map implementations, which are not
    part of /repo; their behaviour is an assumption). *)
From Verif Require Import Base Text MapModel MapSpec TypedModel.
Local Open Scope Z_scope.

(** * Types *)

(** The kernel's names for map types: the [BPF_MAP_TYPE_] each handle documents
    with [#[doc(alias)]], as numbers of enum bpf_map_type. *)
Definition alias_types (w : wrapper) : list Z :=
  match w with
  | WHashMap => [1; 9] | WPerCpuHashMap => [5; 10]
  | WArray => [2] | WProgramArray => [3] | WPerfEventArray => [4] | WPerCpuArray => [6] | WStackTraceMap => [7]
  | WCgroupArray => [8] | WLpmTrie => [11] | WArrayOfMaps => [12] | WHashOfMaps => [13] | WDevMap => [14] | WSockMap => [15]
  | WCpuMap => [16] | WXskMap => [17] | WSockHash => [18] | WCgroupStorage => [19] | WReusePortSockArray => [20]
  | WPerCpuCgroupStorage => [21] | WQueue => [22] | WStack => [23] | WSkStorage => [24] | WDevMapHash => [25]
  | WRingBuf => [27] | WInodeStorage => [28] | WBloomFilter => [30] | WCgrpStorage => [32]
  end.

(** The sizes a handle with plain-data types of [k] and [v] bytes reads and
    writes: of keys and of values ([None]: not used by the handle). *)
Definition sizes (f : features) (w : wrapper) (k v : Z) : option Z * option Z :=
  match w with
  | WHashMap | WPerCpuHashMap => (Some k, Some v)
  | WLpmTrie => (Some (4 + k), Some v)
  | WHashOfMaps | WSockHash => (Some k, Some 4)
  | WArray | WPerCpuArray | WSkStorage | WInodeStorage | WCgrpStorage => (Some 4, Some v)
  | WCgroupStorage | WPerCpuCgroupStorage => (Some 16, Some v)
  | WQueue | WStack => (Some 0, Some v)
  | WBloomFilter => (None, Some v)
  | WCpuMap => (Some 4, Some (if f_cpumap f then 8 else 4))
  | WDevMap | WDevMapHash => (Some 4, Some (if f_devmap f then 8 else 4))
  | WArrayOfMaps | WCgroupArray | WProgramArray | WReusePortSockArray | WSockMap | WXskMap => (Some 4, Some 4)
  | WStackTraceMap => (Some 4, None)
  | WPerfEventArray | WRingBuf => (None, None)
  end.
Definition fits (f : features) (w : wrapper) (k v : Z) (sh : shape) : Prop :=
  (forall n, fst (sizes f w k v) = Some n -> h_key sh = n) /\
  (forall n, snd (sizes f w k v) = Some n -> h_value sh = n) /\
  (w = WStackTraceMap -> h_value sh <> 0 /\ (8 | h_value sh) /\ Z.testbit (h_flags sh) 5 = false).

(** * Memory *)

(** The maps that can exist: sizes are unsigned, and what the kernel insists on
    when it creates a map (array_map_alloc_check, fd_array_map_alloc_check,
    queue_stack_map_alloc_check, bloom_map_alloc). *)
Definition kernel_ok (sh : shape) : Prop :=
  0 <= h_key sh /\ 0 <= h_value sh /\
  (In (h_type sh) [3; 4; 8; 12] -> h_key sh = 4 /\ h_value sh = 4) /\
  (In (h_type sh) [22; 23; 30] -> h_key sh = 0).

(** syscall.c [bpf_map_value_size]: how much is copied between user memory and a
    map. *)
Definition copied (cpus : nat) (sh : shape) : Z :=
  if existsb (Z.eqb (h_type sh)) [5; 6; 10; 21] then 8 * ((h_value sh + 7) / 8) * Z.of_nat cpus
  else if existsb (Z.eqb (h_type sh)) [3; 4; 8; 12; 13] then 4
  else h_value sh.
(** The memory the kernel may touch in a call, and how much of it: [key_size]
    bytes of the key, if there is one and the map has keys; the value, or the
    next key. *)
Definition accesses (cpus : nat) (sh : shape) (q : req) : list (list Z * Z) :=
  match q_key q with Some b => if h_key sh =? 0 then [] else [(b, h_key sh)] | None => [] end ++
  match q_value q with
  | Some b => [(b, match q_cmd q with CNextKey => h_key sh | _ => copied cpus sh end)]
  | None => []
  end.
Definition touches_exactly (cpus : nat) (sh : shape) (q : req) : Prop :=
  forall b n, In (b, n) (accesses cpus sh q) -> n = Z.of_nat (length b).
Definition overruns (cpus : nat) (sh : shape) (q : req) : Prop :=
  exists b n, In (b, n) (accesses cpus sh q) /\ Z.of_nat (length b) < n.

(** What Rust's types say about the arguments. *)
Definition key_ok (h : handle) (k : ukey) : Prop :=
  match hd_wrap h, k with
  | (WHashMap | WPerCpuHashMap | WHashOfMaps | WSockHash), UData b => Z.of_nat (length b) = hd_k h
  | WLpmTrie, ULpm p d => 0 <= p < 2 ^ 32 /\ Z.of_nat (length d) = hd_k h
  | (WSkStorage | WInodeStorage | WCgrpStorage), UFd fd => - 2 ^ 31 <= fd < 2 ^ 31
  | (WCgroupStorage | WPerCpuCgroupStorage), UCgroup i a => 0 <= i < 2 ^ 64 /\ 0 <= a < 2 ^ 32
  | (WArray | WPerCpuArray | WArrayOfMaps | WCgroupArray | WProgramArray | WReusePortSockArray | WSockMap | WXskMap | WCpuMap
     | WDevMap | WDevMapHash | WStackTraceMap | WPerfEventArray), UIndex i => 0 <= i < 2 ^ 32
  | _, _ => False
  end.
Definition val_ok (cpus : nat) (h : handle) (v : uval) : Prop :=
  match hd_wrap h, v with
  | (WArray | WHashMap | WLpmTrie | WSkStorage | WInodeStorage | WCgrpStorage | WCgroupStorage | WQueue | WStack | WBloomFilter),
    WData b => Z.of_nat (length b) = hd_v h
  | (WPerCpuArray | WPerCpuHashMap | WPerCpuCgroupStorage), WPerCpu l =>
      length l = cpus /\ Forall (fun b => Z.of_nat (length b) = hd_v h) l
  | (WCpuMap | WDevMap | WDevMapHash), WXdp t p =>
      0 <= t < 2 ^ 32 /\ match p with Some fd => 0 <= fd < 2 ^ 31 | None => True end
  | (WArrayOfMaps | WCgroupArray | WProgramArray | WReusePortSockArray | WSockMap | WXskMap | WHashOfMaps | WSockHash
     | WPerfEventArray), WFd fd => - 2 ^ 31 <= fd < 2 ^ 31
  | _, _ => False
  end.
Definition op_ok (cpus : nat) (h : handle) (o : op) : Prop :=
  match o with
  | OGet k _ | ORemove k | OKeys (Some k) => key_ok h k
  | OSet k v _ => key_ok h k /\ val_ok cpus h v
  | OPush v _ | OContains v _ => val_ok cpus h v
  | OKeys None | OPop _ => True
  end.

(** * Error numbers *)

Definition EBADF := 9.
Definition E2BIG := 7.
Definition EFAULT := 14.
Definition EEXIST := 17.
Definition EINVAL := 22.
Definition ENOSPC := 28.

(** * Hash maps in the kernel *)

(** htab_map_lookup_elem, htab_map_update_elem, htab_map_delete_elem,
    htab_map_get_next_key and their per-CPU versions on a map of [max] entries
    that is not preallocated; [l]: its entries as bytes. *)
Fixpoint entry (k : list Z) (l : list (list Z * list Z)) : option (list Z) :=
  match l with [] => None | (k', v) :: l => if str_eqb k k' then Some v else entry k l end.
Fixpoint put (k v : list Z) (l : list (list Z * list Z)) : list (list Z * list Z) :=
  match l with [] => [(k, v)] | (k', v') :: l => if str_eqb k k' then (k', v) :: l else (k', v') :: put k v l end.
Definition drop (k : list Z) (l : list (list Z * list Z)) : list (list Z * list Z) := filter (fun e => negb (str_eqb k (fst e))) l.

Definition khash (cpus : nat) (sh : shape) (q : req) (l : list (list Z * list Z)) : res Z (list Z) * list (list Z * list Z) :=
  let kb := Z.to_nat (h_key sh) in
  let vb := Z.to_nat (copied cpus sh) in
  match q_cmd q, q_key q, q_value q with
  | CNextKey, prev, _ =>
      match next_of str_eqb (map fst l) (option_map (firstn kb) prev) with Some k => (Ok k, l) | None => (Err ENOENT, l) end
  | _, None, _ => (Err EFAULT, l)
  | CLookup, Some k, _ =>
      if negb (q_flags q =? 0) then (Err EINVAL, l)
      else match entry (firstn kb k) l with Some v => (Ok v, l) | None => (Err ENOENT, l) end
  | CUpdate, Some k, Some v =>
      let k := firstn kb k in
      let v := firstn vb v in
      if (q_flags q <? 0) || (2 <? q_flags q) then (Err EINVAL, l)
      else match entry k l with
           | Some _ => if q_flags q =? 1 then (Err EEXIST, l) else (Ok [], put k v l)
           | None => if q_flags q =? 2 then (Err ENOENT, l)
                     else if h_entries sh <=? Z.of_nat (length l) then (Err E2BIG, l) else (Ok [], put k v l)
           end
  | CDelete, Some k, _ =>
      let k := firstn kb k in
      match entry k l with Some _ => (Ok [], drop k l) | None => (Err ENOENT, l) end
  | _, _, _ => (Err EFAULT, l)
  end.

(** A hash map from keys to values as the caller sees it. *)
Definition shown (v : uval) : out :=
  match v with WData b => RData b | WPerCpu l => RPerCpu l | WXdp t p => RXdp t p | WFd fd => RId fd end.
Definition dict := list (list Z * uval).
Definition dict_get (k : list Z) (d : dict) : option uval := option_map snd (find (fun e => str_eqb (fst e) k) d).
Definition dict_set (k : list Z) (v : uval) (d : dict) : dict :=
  if existsb (fun e => str_eqb (fst e) k) d then map (fun e => if str_eqb (fst e) k then (fst e, v) else e) d else d ++ [(k, v)].
Definition dict_del (k : list Z) (d : dict) : dict := filter (fun e => negb (str_eqb (fst e) k)) d.

(** 0: in any case, 1: only if new, 2: only if there. *)
Definition hash_step (max : Z) (o : op) (d : dict) : res merr out * dict :=
  match o with
  | OGet (UData k) 0 => match dict_get k d with Some v => (Ok (shown v), d) | None => (Err EKeyNotFound, d) end
  | OGet _ _ => (Err (ESyscall EINVAL), d)
  | OSet (UData k) v flags =>
      match dict_get k d, flags with
      | Some _, 1 => (Err (ESyscall EEXIST), d)
      | None, 2 => (Err (ESyscall ENOENT), d)
      | Some _, (0 | 2) => (Ok RUnit, dict_set k v d)
      | None, (0 | 1) => if Z.of_nat (length d) <? max then (Ok RUnit, dict_set k v d) else (Err (ESyscall E2BIG), d)
      | _, _ => (Err (ESyscall EINVAL), d)
      end
  | ORemove (UData k) =>
      match dict_get k d with Some _ => (Ok RUnit, dict_del k d) | None => (Err (ESyscall ENOENT), d) end
  | OKeys prev =>
      (Ok match next_of str_eqb (map fst d) (match prev with Some (UData k) => Some k | _ => None end) with
          | Some k => RKey k | None => REnd end, d)
  | _ => (Err ENoMethod, d)
  end.
Fixpoint steps {S} (step : op -> S -> res merr out * S) (l : list op) (s : S) : list (res merr out) :=
  match l with [] => [] | o :: l => let (r, s) := step o s in r :: steps step l s end.

(** * Arrays in the kernel *)

(** array_map_lookup_elem, array_map_update_elem, array_map_delete_elem and the
    per-CPU versions; [l]: one value per index. *)
Definition karray (cpus : nat) (sh : shape) (q : req) (l : list (list Z)) : res Z (list Z) * list (list Z) :=
  match q_cmd q, q_key q, q_value q with
  | CLookup, Some k, _ =>
      if negb (q_flags q =? 0) then (Err EINVAL, l)
      else match nth_error l (Z.to_nat (le_dec (firstn 4 k))) with Some v => (Ok v, l) | None => (Err ENOENT, l) end
  | CUpdate, Some k, Some v =>
      if (q_flags q <? 0) || (2 <? q_flags q) then (Err EINVAL, l)
      else if Z.of_nat (length l) <=? le_dec (firstn 4 k) then (Err E2BIG, l)
      else if q_flags q =? 1 then (Err EEXIST, l)
      else (Ok [], upd (Z.to_nat (le_dec (firstn 4 k))) (firstn (Z.to_nat (copied cpus sh)) v) l)
  | CDelete, Some _, _ => (Err EINVAL, l)
  | _, _, _ => (Err EFAULT, l)
  end.
Definition array_step (o : op) (a : list uval) : res merr out * list uval :=
  let n := Z.of_nat (length a) in
  match o with
  | OGet (UIndex i) flags =>
      if i <? n then
        if flags =? 0 then (match nth_error a (Z.to_nat i) with Some v => Ok (shown v) | None => Err EKeyNotFound end, a)
        else (Err (ESyscall EINVAL), a)
      else (Err (EOutOfBounds i n), a)
  | OSet (UIndex i) v flags =>
      if i <? n then
        match flags with
        | 0 | 2 => (Ok RUnit, firstn (Z.to_nat i) a ++ [v] ++ skipn (S (Z.to_nat i)) a)
        | 1 => (Err (ESyscall EEXIST), a)
        | _ => (Err (ESyscall EINVAL), a)
        end
      else (Err (EOutOfBounds i n), a)
  | _ => (Err ENoMethod, a)
  end.

(** * Queues and stacks in the kernel *)

(** queue_stack_map_push_elem, queue_map_pop_elem, stack_map_pop_elem, called
    with no key; [l]: oldest value first. *)
Definition kqueue (stack : bool) (sh : shape) (q : req) (l : list (list Z)) : res Z (list Z) * list (list Z) :=
  match q_cmd q, q_key q, q_value q with
  | _, Some _, _ => (Err EINVAL, l)
  | CUpdate, None, Some v =>
      let v := firstn (Z.to_nat (h_value sh)) v in
      if negb ((q_flags q =? 0) || (q_flags q =? 2)) then (Err EINVAL, l)
      else if Z.of_nat (length l) <? h_entries sh then (Ok [], l ++ [v])
      else if q_flags q =? 2 then (Ok [], tl (l ++ [v]))
      else (Err E2BIG, l)
  | CLookupDelete, None, _ =>
      if negb (q_flags q =? 0) then (Err EINVAL, l)
      else if stack then match rev l with [] => (Err ENOENT, l) | v :: r => (Ok v, rev r) end
      else match l with [] => (Err ENOENT, l) | v :: r => (Ok v, r) end
  | _, _, _ => (Err EINVAL, l)
  end.
(** First in, first out, or last in, first out; [max] values at most, the oldest
    making room when asked to. *)
Definition queue_step (stack : bool) (max : Z) (o : op) (l : list (list Z)) : res merr out * list (list Z) :=
  match o with
  | OPush (WData v) flags =>
      let full := max <=? Z.of_nat (length l) in
      match flags, full with
      | 0, false | 2, false => (Ok RUnit, l ++ [v])
      | 0, true => (Err (ESyscall E2BIG), l)
      | 2, true => (Ok RUnit, tl (l ++ [v]))
      | _, _ => (Err (ESyscall EINVAL), l)
      end
  | OPop 0 =>
      match l with
      | [] => (Err EElementNotFound, [])
      | v :: r => if stack then (Ok (RData (last l [])), removelast l) else (Ok (RData v), r)
      end
  | OPop _ => (Err (ESyscall EINVAL), l)
  | _ => (Err ENoMethod, l)
  end.

(** * Bloom filters in the kernel *)

(** bloom_map_push_elem and bloom_map_peek_elem: [extra] answers for values that
    were not added. *)
Definition kbloom (extra : list (list Z) -> list Z -> bool) (sh : shape) (q : req) (l : list (list Z)) : res Z (list Z) * list (list Z) :=
  match q_cmd q, q_key q, q_value q with
  | _, Some _, _ => (Err EINVAL, l)
  | CUpdate, None, Some v =>
      if negb (q_flags q =? 0) then (Err EINVAL, l) else (Ok [], firstn (Z.to_nat (h_value sh)) v :: l)
  | CLookup, None, Some v =>
      let v := firstn (Z.to_nat (h_value sh)) v in
      if existsb (str_eqb v) l || extra l v then (Ok v, l) else (Err ENOENT, l)
  | _, _, _ => (Err EINVAL, l)
  end.

(** * Longest-prefix tries in the kernel *)

(** The bits of an address, most significant first. *)
Definition byte_bits (b : Z) : list bool := map (fun i => Z.testbit b (7 - Z.of_nat i)) (seq 0 8).
Definition bits (d : list Z) : list bool := flat_map byte_bits d.
(** struct bpf_lpm_trie_key: a length of 32 bits, then the address. *)
Definition trie_len (k : list Z) : Z := le_dec (firstn 4 k).
Definition trie_addr (k : list Z) : list Z := skipn 4 k.
Definition trie_covers (node k : list Z) : bool :=
  (trie_len node <=? trie_len k) &&
  if list_eq_dec bool_dec (firstn (Z.to_nat (trie_len node)) (bits (trie_addr node))) (firstn (Z.to_nat (trie_len node)) (bits (trie_addr k))) then true else false.
Definition trie_same (a b : list Z) : bool := trie_covers a b && trie_covers b a.
(** trie_lookup_elem, trie_update_elem, trie_delete_elem; at most one node per
    prefix; the walk down the trie ends at the longest. *)
Fixpoint trie_best (k : list Z) (l : list (list Z * list Z)) : option (list Z * list Z) :=
  match l with
  | [] => None
  | e :: l =>
      if trie_covers (fst e) k then
        match trie_best k l with
        | Some b => if trie_len (fst e) <? trie_len (fst b) then Some b else Some e
        | None => Some e
        end
      else trie_best k l
  end.
Definition ktrie (sh : shape) (q : req) (l : list (list Z * list Z)) : res Z (list Z) * list (list Z * list Z) :=
  let cut := firstn (Z.to_nat (h_key sh)) in
  let max_prefix := 8 * (h_key sh - 4) in
  match q_cmd q, q_key q, q_value q with
  | CLookup, Some k, _ =>
      let k := cut k in
      if negb (q_flags q =? 0) then (Err EINVAL, l)
      else if max_prefix <? trie_len k then (Err ENOENT, l)
      else match trie_best k l with Some e => (Ok (snd e), l) | None => (Err ENOENT, l) end
  | CUpdate, Some k, Some v =>
      let k := cut k in
      if (q_flags q <? 0) || (2 <? q_flags q) || (max_prefix <? trie_len k) then (Err EINVAL, l)
      else
        let there := existsb (fun e => trie_same (fst e) k) l in
        if there && (q_flags q =? 1) then (Err EEXIST, l)
        else if negb there && (q_flags q =? 2) then (Err ENOENT, l)
        else if negb there && (h_entries sh <=? Z.of_nat (length l)) then (Err ENOSPC, l)
        else (Ok [], (k, firstn (Z.to_nat (h_value sh)) v) :: filter (fun e => negb (trie_same (fst e) k)) l)
  | CDelete, Some k, _ =>
      let k := cut k in
      if max_prefix <? trie_len k then (Err EINVAL, l)
      else if existsb (fun e => trie_same (fst e) k) l then (Ok [], filter (fun e => negb (trie_same (fst e) k)) l)
      else (Err ENOENT, l)
  | _, _, _ => (Err EFAULT, l)
  end.

(** A route: prefix length, address, value. *)
Record route := { r_len : Z; r_addr : list Z; r_val : list Z }.
Definition prefix_of (n : Z) (a : list Z) : list bool := firstn (Z.to_nat n) (bits a).
(** A route covers a query of [n] bits of [a]. *)
Definition covers (r : route) (n : Z) (a : list Z) : Prop := r_len r <= n /\ prefix_of (r_len r) (r_addr r) = prefix_of (r_len r) a.
Definition longest (rs : list route) (n : Z) (a : list Z) (r : route) : Prop :=
  In r rs /\ covers r n a /\ forall r', In r' rs -> covers r' n a -> r_len r' <= r_len r.
Definition node (r : route) : list Z * list Z := (key_bytes (ULpm (r_len r) (r_addr r)), r_val r).

(** * Redirection maps in the kernel *)

(** dev_map_update_elem, cpu_map_update_elem on arrays of [max] entries: a
    target of 0 empties an entry; a program descriptor counts if it is above 0;
    [progs] gives the id of a descriptor, [bad] the error for a target that
    cannot be used.  Read back: the target, then the program's id. *)
Definition kxdp (progs : Z -> option Z) (bad : Z -> option Z) (sh : shape) (q : req) (l : list (option (Z * Z))) : res Z (list Z) * list (option (Z * Z)) :=
  match q_cmd q, q_key q, q_value q with
  | CLookup, Some k, _ =>
      if negb (q_flags q =? 0) then (Err EINVAL, l)
      else match nth_error l (Z.to_nat (le_dec (firstn 4 k))) with
           | Some (Some (t, id)) => (Ok (le_enc 4 t ++ if h_value sh =? 8 then le_enc 4 id else []), l)
           | _ => (Err ENOENT, l)
           end
  | CUpdate, Some k, Some v =>
      let i := le_dec (firstn 4 k) in
      let t := le_dec (firstn 4 v) in
      let fd := if h_value sh =? 8 then i32 (le_dec (slice 4 4 v)) else 0 in
      if (q_flags q <? 0) || (2 <? q_flags q) then (Err EINVAL, l)
      else if Z.of_nat (length l) <=? i then (Err E2BIG, l)
      else if q_flags q =? 1 then (Err EEXIST, l)
      else if t =? 0 then (if 0 <? fd then (Err EINVAL, l) else (Ok [], upd (Z.to_nat i) None l))
      else match bad t with
           | Some e => (Err e, l)
           | None =>
               if 0 <? fd then match progs fd with Some id => (Ok [], upd (Z.to_nat i) (Some (t, id)) l) | None => (Err EBADF, l) end
               else (Ok [], upd (Z.to_nat i) (Some (t, 0)) l)
           end
  | _, _, _ => (Err EFAULT, l)
  end.
(** What such a map holds for its user: targets with the programs to run. *)
Definition xdp_step (supported : bool) (progs : Z -> option Z) (bad : Z -> option Z) (o : op) (a : list (option (Z * option Z)))
    : res merr out * list (option (Z * option Z)) :=
  let n := Z.of_nat (length a) in
  match o with
  | OGet (UIndex i) flags =>
      if n <=? i then (Err (EOutOfBounds i n), a)
      else if negb (flags =? 0) then (Err (ESyscall EINVAL), a)
      else match nth (Z.to_nat i) a None with Some (t, p) => (Ok (RXdp t p), a) | None => (Err EKeyNotFound, a) end
  | OSet (UIndex i) (WXdp t p) flags =>
      let put x := firstn (Z.to_nat i) a ++ [x] ++ skipn (S (Z.to_nat i)) a in
      if n <=? i then (Err (EOutOfBounds i n), a)
      else match p, supported with
      | Some _, false => (Err EChainedProgram, a)
      | _, _ =>
          match flags with
          | 1 => (Err (ESyscall EEXIST), a)
          | 0 | 2 =>
              match t, p with
              | 0, Some _ => (Err (ESyscall EINVAL), a)
              | 0, None => (Ok RUnit, put None)
              | _, _ =>
                  match bad t, p with
                  | Some e, _ => (Err (ESyscall e), a)
                  | None, None => (Ok RUnit, put (Some (t, None)))
                  | None, Some fd => match progs fd with Some id => (Ok RUnit, put (Some (t, Some id))) | None => (Err (ESyscall EBADF), a) end
                  end
              end
          | _ => (Err (ESyscall EINVAL), a)
          end
      end
  | _ => (Err ENoMethod, a)
  end.

(** * Socket hashes in the kernel *)

(** sock_hash_lookup_sys: reading from user space gives socket cookies, and only
    if values are 8 bytes. *)
Definition ksockhash_lookup (sh : shape) (cookie : option (list Z)) : res Z (list Z) :=
  if negb (h_value sh =? 8) then Err ENOSPC else match cookie with Some c => Ok c | None => Err ENOENT end.
