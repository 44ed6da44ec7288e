(** The kernel's maps of maps, and what is expected of the handles for them.
    The kernel (kernel/bpf/syscall.c, map_in_map.c, arraymap.c, hashtab.c) is not
    part of /repo: its behaviour is an assumption. *)
From Verif Require Import Base Text MapModel TypedModel TypedSpec NestModel.
Import ListNotations.
Local Open Scope Z_scope.

Definition EMFILE := 24.
Definition EPERM := 1.

(** * The kernel *)

(** A map: its number, its shape, the shape that the maps in it must have
    ([inner_map_meta]; only maps of maps have one), the maps in it by key, its
    contents otherwise. *)
Record kmap := {
  m_id : Z; m_shape : shape; m_meta : option shape; m_slots : list (list Z * nat); m_data : list (list Z * list Z)
}.
(** Maps are told apart by when they were made, which nobody gets to see.
    [k_fds]: open descriptors; [k_held]: other references (programs, pins,
    descriptors of other processes); [k_limit]: how many descriptors can be
    open; [k_open] and [k_info]: why opening by number (it takes CAP_SYS_ADMIN) and
    asking about maps fail, if they do. *)
Record kern := {
  k_maps : list (nat * kmap); k_fds : list (Z * nat); k_held : list nat; k_next : nat; k_limit : Z;
  k_open : option Z; k_info : option Z
}.
Definition with_maps (l : list (nat * kmap)) (s : kern) : kern :=
  {| k_maps := l; k_fds := k_fds s; k_held := k_held s; k_next := k_next s; k_limit := k_limit s; k_open := k_open s; k_info := k_info s |}.
Definition with_fds (l : list (Z * nat)) (s : kern) : kern :=
  {| k_maps := k_maps s; k_fds := l; k_held := k_held s; k_next := k_next s; k_limit := k_limit s; k_open := k_open s; k_info := k_info s |}.
Definition with_held (l : list nat) (s : kern) : kern :=
  {| k_maps := k_maps s; k_fds := k_fds s; k_held := l; k_next := k_next s; k_limit := k_limit s; k_open := k_open s; k_info := k_info s |}.

Fixpoint at_nat {A} (o : nat) (l : list (nat * A)) : option A :=
  match l with [] => None | (o', x) :: l => if Nat.eqb o o' then Some x else at_nat o l end.
Fixpoint at_fd {A} (fd : Z) (l : list (Z * A)) : option A :=
  match l with [] => None | (fd', x) :: l => if fd =? fd' then Some x else at_fd fd l end.
Definition map_at (o : nat) (s : kern) : option kmap := at_nat o (k_maps s).
Definition behind (fd : Z) (s : kern) : option nat := at_fd fd (k_fds s).
Fixpoint set_nat {A} (o : nat) (x : A) (l : list (nat * A)) : list (nat * A) :=
  match l with [] => [] | (o', y) :: l => if Nat.eqb o o' then (o', x) :: l else (o', y) :: set_nat o x l end.
Fixpoint slot (k : list Z) (l : list (list Z * nat)) : option nat :=
  match l with [] => None | (k', o) :: l => if str_eqb k k' then Some o else slot k l end.
Fixpoint put_slot (k : list Z) (o : nat) (l : list (list Z * nat)) : list (list Z * nat) :=
  match l with [] => [(k, o)] | (k', o') :: l => if str_eqb k k' then (k', o) :: l else (k', o') :: put_slot k o l end.
Definition drop_slot (k : list Z) (l : list (list Z * nat)) : list (list Z * nat) := filter (fun e => negb (str_eqb k (fst e))) l.

(** bpf_map_put: a map nothing refers to goes away. *)
Definition roots (s : kern) : list nat := map snd (k_fds s) ++ k_held s.
Definition held_by (s : kern) (o : nat) : list nat := match map_at o s with Some m => map snd (m_slots m) | None => [] end.
Definition referred (s : kern) (o : nat) : bool :=
  existsb (Nat.eqb o) (roots s) || existsb (fun r => existsb (Nat.eqb o) (held_by s r)) (roots s).
Definition collect (s : kern) : kern := with_maps (filter (fun e => referred s (fst e)) (k_maps s)) s.

(** bpf_map_meta_equal and array_map_meta_equal (BPF_F_INNER_MAP: 4096). *)
Definition meta_equal (meta sh : shape) : bool :=
  (h_type meta =? h_type sh) && (h_key meta =? h_key sh) && (h_value meta =? h_value sh) && (h_flags meta =? h_flags sh) &&
  (if (h_type meta =? 2) && negb (Z.testbit (h_flags meta) 12) then h_entries meta =? h_entries sh else true).

(** map_fd_get_ptr: bpf_map_get on the descriptor in the value, then the
    comparison. *)
Definition get_ptr (meta : shape) (value : list Z) (s : kern) : res Z nat :=
  match behind (le_dec (firstn 4 value)) s with
  | None => Err EBADF
  | Some o =>
      match map_at o s with
      | None => Err EBADF
      | Some m => match m_meta m with Some _ => Err EINVAL | None => if meta_equal meta (m_shape m) then Ok o else Err EINVAL end
      end
  end.
Definition with_slots (o : nat) (m : kmap) (l : list (list Z * nat)) (s : kern) : kern :=
  collect (with_maps (set_nat o {| m_id := m_id m; m_shape := m_shape m; m_meta := m_meta m; m_slots := l; m_data := m_data m |} (k_maps s)) s).
Definition with_data (o : nat) (m : kmap) (l : list (list Z * list Z)) (s : kern) : kern :=
  with_maps (set_nat o {| m_id := m_id m; m_shape := m_shape m; m_meta := m_meta m; m_slots := m_slots m; m_data := l |} (k_maps s)) s.

(** bpf_map_sys_lookup_elem: the number of the map. *)
Definition number (o : option nat) (s : kern) : res Z (list Z) :=
  match o with
  | None => Err ENOENT
  | Some o => match map_at o s with Some m => Ok (le_enc 4 (m_id m)) | None => Err ENOENT end
  end.

(** bpf_fd_array_map_lookup_elem, bpf_fd_array_map_update_elem,
    fd_array_map_delete_elem. *)
Definition karray_of (o : nat) (m : kmap) (meta : shape) (q : req) (s : kern) : res Z (list Z) * kern :=
  let key := firstn 4 in
  let inside (k : list Z) := le_dec (key k) <? h_entries (m_shape m) in
  match q_cmd q, q_key q, q_value q with
  | CLookup, Some k, _ =>
      if negb (q_flags q =? 0) then (Err EINVAL, s)
      else (if inside k then number (slot (key k) (m_slots m)) s else Err ENOENT, s)
  | CUpdate, Some k, Some v =>
      if negb (q_flags q =? 0) then (Err EINVAL, s)
      else if negb (inside k) then (Err E2BIG, s)
      else match get_ptr meta v s with Err e => (Err e, s) | Ok p => (Ok [], with_slots o m (put_slot (key k) p (m_slots m)) s) end
  | CDelete, Some k, _ =>
      if negb (inside k) then (Err E2BIG, s)
      else match slot (key k) (m_slots m) with None => (Err ENOENT, s) | Some _ => (Ok [], with_slots o m (drop_slot (key k) (m_slots m)) s) end
  | _, _, _ => (Err EINVAL, s)
  end.

(** bpf_fd_htab_map_lookup_elem, bpf_fd_htab_map_update_elem,
    htab_map_delete_elem. *)
Definition khash_of (o : nat) (m : kmap) (meta : shape) (q : req) (s : kern) : res Z (list Z) * kern :=
  let key := firstn (Z.to_nat (h_key (m_shape m))) in
  match q_cmd q, q_key q, q_value q with
  | CLookup, Some k, _ =>
      if negb (q_flags q =? 0) then (Err EINVAL, s) else (number (slot (key k) (m_slots m)) s, s)
  | CUpdate, Some k, Some v =>
      match get_ptr meta v s with
      | Err e => (Err e, s)
      | Ok p =>
          if (q_flags q <? 0) || (2 <? q_flags q) then (Err EINVAL, s)
          else match slot (key k) (m_slots m) with
               | Some _ => if q_flags q =? 1 then (Err EEXIST, s) else (Ok [], with_slots o m (put_slot (key k) p (m_slots m)) s)
               | None => if q_flags q =? 2 then (Err ENOENT, s)
                         else if h_entries (m_shape m) <=? Z.of_nat (length (m_slots m)) then (Err E2BIG, s)
                         else (Ok [], with_slots o m (put_slot (key k) p (m_slots m)) s)
               end
      end
  | CDelete, Some k, _ =>
      match slot (key k) (m_slots m) with None => (Err ENOENT, s) | Some _ => (Ok [], with_slots o m (drop_slot (key k) (m_slots m)) s) end
  | _, _, _ => (Err EINVAL, s)
  end.

(** A system call on a map; maps that hold no maps are taken to be hash maps. *)
Definition kcall (fd : Z) (q : req) (s : kern) : res Z (list Z) * kern :=
  match behind fd s with
  | None => (Err EBADF, s)
  | Some o =>
      match map_at o s with
      | None => (Err EBADF, s)
      | Some m =>
          match m_meta m with
          | Some meta => if h_type (m_shape m) =? 12 then karray_of o m meta q s else khash_of o m meta q s
          | None => let (r, l) := khash 1 (m_shape m) q (m_data m) in (r, with_data o m l s)
          end
      end
  end.

(** The lowest descriptor that is free. *)
Fixpoint lowest (n : nat) (fd : Z) (l : list (Z * nat)) : Z :=
  match n with
  | O => fd
  | S n => match at_fd fd l with None => fd | Some _ => lowest n (fd + 1) l end
  end.
Definition free_fd (s : kern) : Z := lowest (length (k_fds s)) 0 (k_fds s).
Definition new_fd (o : nat) (s : kern) : res Z Z * kern :=
  let fd := free_fd s in
  if k_limit s <=? fd then (Err EMFILE, s) else (Ok fd, with_fds ((fd, o) :: k_fds s) s).

(** bpf_map_get_fd_by_id. *)
Fixpoint by_id (id : Z) (l : list (nat * kmap)) : option nat :=
  match l with [] => None | (o, m) :: l => if id =? m_id m then Some o else by_id id l end.
Definition kopen (id : Z) (s : kern) : res Z Z * kern :=
  match k_open s with
  | Some e => (Err e, s)
  | None => match by_id id (k_maps s) with None => (Err ENOENT, s) | Some o => new_fd o s end
  end.
Definition kinfo (fd : Z) (s : kern) : res Z shape :=
  match k_info s with
  | Some e => Err e
  | None => match behind fd s with None => Err EBADF | Some o => match map_at o s with None => Err EBADF | Some m => Ok (m_shape m) end end
  end.
Definition kclose (fd : Z) (s : kern) : kern := collect (with_fds (filter (fun e => negb (fd =? fst e)) (k_fds s)) s).

Definition linux : syscalls kern := {| s_map := kcall; s_open := kopen; s_info := kinfo; s_close := kclose |}.

(** array_of_map_lookup_elem, htab_of_map_lookup_elem; lookups of other maps as
    [khash]; a store into a value. *)
Definition kinner (o : nat) (k : list Z) (s : kern) : option nat :=
  match map_at o s with
  | None => None
  | Some m =>
      if h_type (m_shape m) =? 12
      then if le_dec (firstn 4 k) <? h_entries (m_shape m) then slot (firstn 4 k) (m_slots m) else None
      else slot (firstn (Z.to_nat (h_key (m_shape m))) k) (m_slots m)
  end.
Definition kvalue (o : nat) (k : list Z) (s : kern) : option (list Z) :=
  match map_at o s with None => None | Some m => entry (firstn (Z.to_nat (h_key (m_shape m))) k) (m_data m) end.
Definition kstore (o : nat) (k v : list Z) (s : kern) : kern :=
  match map_at o s with
  | None => s
  | Some m => with_data o m (put (firstn (Z.to_nat (h_key (m_shape m))) k) v (m_data m)) s
  end.
Definition helpers : nested kern nat := {| p_inner := kinner; p_lookup := kvalue; p_store := kstore |}.

(** * What else can happen *)

(** Anybody: makes a map, referred to by a descriptor of ours or by somebody
    else; opens one by its number; closes a descriptor; takes or gives up another
    reference; makes a system call on a map; a program stores something. *)
Inductive event :=
| ECreate (id : Z) (sh : shape) (meta : option shape) (ours : bool)
| EOpen (id : Z) | EClose (fd : Z) | ETake (o : nat) | ERelease (o : nat) | ECall (fd : Z) (q : req) | EStore (o : nat) (k v : list Z).

Definition id_free (id : Z) (s : kern) : bool := (0 <? id) && (id <? 2 ^ 31) && match by_id id (k_maps s) with None => true | Some _ => false end.
(** map_create: numbers in use are not given out again.  array_of_map_alloc and
    htab_of_map_alloc make maps with a meta shape, of types 12 and 13; keys of 12
    have 4 bytes. *)
Definition can_create (sh : shape) (meta : option shape) : bool :=
  match meta with
  | Some _ => ((h_type sh =? 12) && (h_key sh =? 4) || (h_type sh =? 13) && (0 <? h_key sh)) && (h_value sh =? 4)
  | None => negb ((h_type sh =? 12) || (h_type sh =? 13))
  end.
Definition add_map (id : Z) (sh : shape) (meta : option shape) (s : kern) : kern :=
  {| k_maps := k_maps s ++ [(k_next s, {| m_id := id; m_shape := sh; m_meta := meta; m_slots := []; m_data := [] |})];
     k_fds := k_fds s; k_held := k_held s; k_next := S (k_next s); k_limit := k_limit s; k_open := k_open s; k_info := k_info s |}.
Definition remove_one (o : nat) (l : list nat) : list nat :=
  (fix go l := match l with [] => [] | x :: l => if Nat.eqb o x then l else x :: go l end) l.
Definition happen (e : event) (s : kern) : kern :=
  match e with
  | ECreate id sh meta ours =>
      if id_free id s && can_create sh meta then
        if ours then (if k_limit s <=? free_fd s then s else snd (new_fd (k_next s) (add_map id sh meta s)))
        else with_held (k_next s :: k_held s) (add_map id sh meta s)
      else s
  | EOpen id => snd (kopen id s)
  | EClose fd => kclose fd s
  | ETake o => match map_at o s with Some _ => with_held (o :: k_held s) s | None => s end
  | ERelease o => collect (with_held (remove_one o (k_held s)) s)
  | ECall fd q => snd (kcall fd q s)
  | EStore o k v => kstore o k v s
  end.
Fixpoint happened (l : list event) (s : kern) : kern := match l with [] => s | e :: l => happened l (happen e s) end.

Definition start (limit : Z) (open info : option Z) : kern :=
  {| k_maps := []; k_fds := []; k_held := []; k_next := O; k_limit := limit; k_open := open; k_info := info |}.

(** * What is expected *)

(** States that come about; descriptors are ints. *)
Definition reached (s : kern) : Prop := exists limit open info l, limit <= 2 ^ 31 /\ s = happened l (start limit open info).

(** A handle for an outer map, what the map asks of the maps in it, and which
    one it holds under a key. *)
Definition is_for (h : outer) (meta : shape) (s : kern) : Prop :=
  exists o m, behind (o_fd h) s = Some o /\ map_at o s = Some m /\ hd_shape (o_handle h) = m_shape m /\ m_meta m = Some meta /\
    ((hd_wrap (o_handle h) = WArrayOfMaps /\ h_type (m_shape m) = 12 /\ h_key (m_shape m) = 4) \/
     (hd_wrap (o_handle h) = WHashOfMaps /\ h_type (m_shape m) = 13 /\ h_key (m_shape m) = hd_k (o_handle h))).
Definition holds (h : outer) (k : ukey) (s : kern) : option nat :=
  match behind (o_fd h) s with
  | None => None
  | Some o => match map_at o s with Some m => slot (key_bytes k) (m_slots m) | None => None end
  end.
Definition index_in (h : outer) (k : ukey) : Prop :=
  match k with UIndex i => i < h_entries (hd_shape (o_handle h)) | _ => True end.
(** Number of maps in the outer map. *)
Definition count (h : outer) (s : kern) : Z :=
  match behind (o_fd h) s with
  | None => 0
  | Some o => match map_at o s with Some m => Z.of_nat (length (m_slots m)) | None => 0 end
  end.

(** Whether a handle of the type can be made for a map of the shape. *)
Definition suits (f : features) (t : vtype) (sh : shape) : Prop :=
  match t with VMapData => True | VTyped w k v => In (h_type sh) (alias_types w) /\ fits f w k v sh end.

(** The handle for a hash map with keys of [kk] and values of [vv] bytes. *)
Definition as_hash (i : inner) (kk vv : Z) : handle := {| hd_wrap := WHashMap; hd_k := kk; hd_v := vv; hd_shape := i_shape i |}.

(** What opening a map and asking about it needs. *)
Definition can_open (s : kern) : Prop := k_open s = None /\ k_info s = None /\ free_fd s < k_limit s.

(** What a change of the outer map comes to: one key changes, descriptors and
    other references stay; other maps stay, or go away if nothing else referred
    to them. *)
Definition changed (h : outer) (meta : shape) (k : ukey) (now : option nat) (s s' : kern) : Prop :=
  holds h k s' = now /\ (forall k', key_bytes k' <> key_bytes k -> holds h k' s' = holds h k' s) /\
  k_fds s' = k_fds s /\ k_held s' = k_held s /\ is_for h meta s' /\
  (forall q m, map_at q s = Some m -> behind (o_fd h) s <> Some q -> map_at q s' = Some m \/ map_at q s' = None) /\
  (forall q m, map_at q s = Some m -> behind (o_fd h) s <> Some q -> In q (roots s) -> map_at q s' = Some m).

(** Events that do not use the outer map [o], nor close the descriptor. *)
Fixpoint elsewhere (o : nat) (fd : Z) (l : list event) (s : kern) : Prop :=
  match l with
  | [] => True
  | e :: l =>
      match e with ECall fd' _ => behind fd' s <> Some o | EClose fd' => fd' <> fd | EStore o' _ _ => o' <> o | _ => True end /\
      elsewhere o fd l (happen e s)
  end.
(** No new map gets the number. *)
Definition not_reused (id : Z) (l : list event) : Prop :=
  Forall (fun e => match e with ECreate id' _ _ _ => id' <> id | _ => True end) l.

(** The map types with map_meta_equal in the kernel, numbers of enum
    bpf_map_type: all but UNSPEC, PROG_ARRAY, ARRAY_OF_MAPS, HASH_OF_MAPS,
    CGROUP_STORAGE, PERCPU_CGROUP_STORAGE and STRUCT_OPS. *)
Definition kernel_inner (ty : Z) : Prop := 1 <= ty <= 32 /\ ~ In ty [3; 12; 13; 19; 21; 26].
