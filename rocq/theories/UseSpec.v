(** One map, used from programs and from user space at the same time: what the
    helpers do in the kernel, and what both sides should see. *)
From Verif Require Import Base Text MapModel MapSpec TypedModel TypedSpec UseModel.
Import ListNotations.
Local Open Scope Z_scope.

(** * The kernel *)

(** The helpers call the same functions as the system calls, but for values
    kept for each CPU: they see the one of the CPU they run on. *)
Definition for_each_cpu (sh : shape) : bool := (h_type sh =? 5) || (h_type sh =? 6).
Definition here (cpu : nat) (sh : shape) : nat := if for_each_cpu sh then (cpu * Z.to_nat (slot_size (h_value sh)))%nat else 0%nat.
Definition val_len (sh : shape) : nat := Z.to_nat (h_value sh).

Definition refuse {S} (s : S) : Z * S := (- EINVAL, s).

(** htab_map_lookup_elem, htab_map_update_elem, htab_percpu_map_update_elem
    (values of other CPUs are zeroed in a new entry, kept in an old one),
    htab_map_delete_elem. *)
Definition hash_helpers (cpus cpu : nat) (sh : shape) : helpers (list (list Z * list Z)) :=
  let cut := firstn (Z.to_nat (h_key sh)) in
  let write v old := splice (here cpu sh) (firstn (val_len sh) v) old in
  {| k_lookup := fun k l => option_map (slice (here cpu sh) (val_len sh)) (entry (cut k) l);
     k_store := fun k v l => match entry (cut k) l with Some old => put (cut k) (write v old) l | None => l end;
     k_update := fun k v flags l =>
       if (flags <? 0) || (2 <? flags) then (- EINVAL, l)
       else match entry (cut k) l with
            | Some old => if flags =? 1 then (- EEXIST, l) else (0, put (cut k) (write v old) l)
            | None => if flags =? 2 then (- TypedModel.ENOENT, l)
                      else if h_entries sh <=? Z.of_nat (length l) then (- E2BIG, l)
                      else (0, put (cut k) (write v (repeat 0 (Z.to_nat (copied cpus sh)))) l)
            end;
     k_delete := fun k l => match entry (cut k) l with Some _ => (0, drop (cut k) l) | None => (- TypedModel.ENOENT, l) end;
     k_push := fun _ _ => refuse; k_pop := fun l => (- EINVAL, [], l); k_peek := fun b _ => (- EINVAL, b) |}.

(** array_map_lookup_elem, array_map_update_elem, percpu_array_map_lookup_elem,
    array_map_delete_elem. *)
Definition array_helpers (cpu : nat) (sh : shape) : helpers (list (list Z)) :=
  let index (k : list Z) := Z.to_nat (le_dec (firstn 4 k)) in
  let write v old := splice (here cpu sh) (firstn (val_len sh) v) old in
  {| k_lookup := fun k l => option_map (slice (here cpu sh) (val_len sh)) (nth_error l (index k));
     k_store := fun k v l => match nth_error l (index k) with Some old => upd (index k) (write v old) l | None => l end;
     k_update := fun k v flags l =>
       if (flags <? 0) || (2 <? flags) then (- EINVAL, l)
       else match nth_error l (index k) with
            | None => (- E2BIG, l)
            | Some old => if flags =? 1 then (- EEXIST, l) else (0, upd (index k) (write v old) l)
            end;
     k_delete := fun _ => refuse;
     k_push := fun _ _ => refuse; k_pop := fun l => (- EINVAL, [], l); k_peek := fun b _ => (- EINVAL, b) |}.

(** What a system call's answer is for a helper. *)
Definition ret_of (r : res Z (list Z)) : Z := match r with Ok _ => 0 | Err e => - e end.
Definition buffer_of (r : res Z (list Z)) : list Z := match r with Ok b => b | Err _ => [] end.
Definition sys (c : cmd) (k v : option (list Z)) (flags : Z) : req := {| q_cmd := c; q_key := k; q_value := v; q_flags := flags |}.

(** queue_stack_map_push_elem, queue_map_pop_elem, stack_map_pop_elem,
    queue_map_peek_elem, stack_map_peek_elem. *)
Definition queue_helpers (stack : bool) (sh : shape) : helpers (list (list Z)) :=
  {| k_lookup := fun _ _ => None; k_store := fun _ _ l => l; k_update := fun _ _ _ => refuse; k_delete := fun _ => refuse;
     k_push := fun v flags l => let (r, l) := kqueue stack sh (sys CUpdate None (Some v) flags) l in (ret_of r, l);
     k_pop := fun l => let (r, l) := kqueue stack sh (sys CLookupDelete None None 0) l in (ret_of r, buffer_of r, l);
     k_peek := fun b l => let r := fst (kqueue stack sh (sys CLookupDelete None None 0) l) in (ret_of r, buffer_of r) |}.

(** bloom_map_push_elem, bloom_map_peek_elem. *)
Definition bloom_helpers (extra : list (list Z) -> list Z -> bool) (sh : shape) : helpers (list (list Z)) :=
  {| k_lookup := fun _ _ => None; k_store := fun _ _ l => l; k_update := fun _ _ _ => refuse; k_delete := fun _ => refuse;
     k_push := fun v flags l => let (r, l) := kbloom extra sh (sys CUpdate None (Some v) flags) l in (ret_of r, l);
     k_pop := fun l => (- EINVAL, [], l);
     k_peek := fun b l => let r := fst (kbloom extra sh (sys CLookup None (Some b) 0) l) in (ret_of r, b) |}.

(** trie_lookup_elem, trie_update_elem, trie_delete_elem. *)
Definition trie_helpers (sh : shape) : helpers (list (list Z * list Z)) :=
  {| k_lookup := fun k l => match fst (ktrie sh (sys CLookup (Some k) None 0) l) with Ok b => Some b | Err _ => None end;
     k_store := fun _ _ l => l;
     k_update := fun k v flags l => let (r, l) := ktrie sh (sys CUpdate (Some k) (Some v) flags) l in (ret_of r, l);
     k_delete := fun k l => let (r, l) := ktrie sh (sys CDelete (Some k) None 0) l in (ret_of r, l);
     k_push := fun _ _ => refuse; k_pop := fun l => (- EINVAL, [], l); k_peek := fun b _ => (- EINVAL, b) |}.

(** * Both sides *)

(** A call from user space, or one from a program running on a CPU. *)
Inductive side := User (o : op) | Program (cpu : nat) (p : pcall).
Inductive result := RUser (r : res merr out) | RProgram (r : presult).
Definition turn {S} (kernel : req -> S -> res Z (list Z) * S) (H : nat -> helpers S) (f : features) (cpus : nat) (h : handle) (c : side) (s : S)
    : result * S :=
  match c with
  | User o => let (r, s) := call kernel f cpus h o s in (RUser r, s)
  | Program cpu p => let (r, s) := prog (H cpu) p s in (RProgram r, s)
  end.
Fixpoint turns {S} (t : side -> S -> result * S) (l : list side) (s : S) : list result * S :=
  match l with [] => ([], s) | c :: l => let (r, s) := t c s in let (rs, s) := turns t l s in (r :: rs, s) end.

(** What the types say about a program's arguments. *)
Definition pcall_ok (ks vs : Z) (p : pcall) : Prop :=
  let key k := Z.of_nat (length k) = ks in
  let value v := Z.of_nat (length v) = vs in
  match p with
  | PGet k | PRemove k => key k
  | PStore k v | PInsert k v _ => key k /\ value v
  | PPush v _ | PContains v => value v
  | PPop | PPeek _ => True
  end.
Definition keyed (p : pcall) : Prop := match p with PGet _ | PStore _ _ | PInsert _ _ _ | PRemove _ => True | _ => False end.
Definition indexed (p : pcall) : Prop := match p with PGet _ | PStore _ _ | PInsert _ _ _ => True | _ => False end.
Definition pushing (p : pcall) : Prop := match p with PPush _ _ | PPop | PPeek _ => True | _ => False end.
Definition side_ok (cpus : nat) (h : handle) (ks : Z) (methods : pcall -> Prop) (c : side) : Prop :=
  match c with User o => op_ok cpus h o | Program cpu p => (cpu < cpus)%nat /\ methods p /\ pcall_ok ks (hd_v h) p end.

(** * What both sides should see *)

(** The value of a CPU, and a value with that one replaced. *)
Definition on_cpu (cpu : nat) (v : uval) : list Z :=
  match v with WData b => b | WPerCpu l => nth cpu l [] | _ => [] end.
Definition with_cpu (cpu : nat) (b : list Z) (v : uval) : uval :=
  match v with WData _ => WData b | WPerCpu l => WPerCpu (firstn cpu l ++ [b] ++ skipn (S cpu) l) | v => v end.
Definition zeroes (cpus : nat) (h : handle) : uval :=
  let z := repeat 0 (Z.to_nat (hd_v h)) in if per_cpu (hd_wrap h) then WPerCpu (repeat z cpus) else WData z.

(** A finite map. *)
Definition hash_turn (zero : uval) (max : Z) (c : side) (d : dict) : result * dict :=
  match c with
  | User o => let (r, d) := hash_step max o d in (RUser r, d)
  | Program cpu (PGet k) => (RProgram match dict_get k d with Some v => PSome (on_cpu cpu v) | None => PNone end, d)
  | Program cpu (PStore k b) =>
      match dict_get k d with Some v => (RProgram POk, dict_set k (with_cpu cpu b v) d) | None => (RProgram PNone, d) end
  | Program cpu (PInsert k b flags) =>
      match dict_get k d, flags with
      | Some _, 1 => (RProgram (PErr (-17)), d)
      | None, 2 => (RProgram (PErr (-2)), d)
      | Some v, (0 | 2) => (RProgram POk, dict_set k (with_cpu cpu b v) d)
      | None, (0 | 1) => if Z.of_nat (length d) <? max then (RProgram POk, dict_set k (with_cpu cpu b zero) d) else (RProgram (PErr (-7)), d)
      | _, _ => (RProgram (PErr (-22)), d)
      end
  | Program _ (PRemove k) =>
      match dict_get k d with Some _ => (RProgram POk, dict_del k d) | None => (RProgram (PErr (-2)), d) end
  | Program _ _ => (RProgram PNone, d)
  end.

(** An array; an index is a key of 4 bytes. *)
Definition index_of (k : list Z) : nat := Z.to_nat (le_dec k).
Definition set_at {A} (i : nat) (x : A) (l : list A) : list A := firstn i l ++ [x] ++ skipn (S i) l.
Definition array_turn (c : side) (a : list uval) : result * list uval :=
  match c with
  | User o => let (r, a) := array_step o a in (RUser r, a)
  | Program cpu (PGet k) => (RProgram match nth_error a (index_of k) with Some v => PSome (on_cpu cpu v) | None => PNone end, a)
  | Program cpu (PStore k b) =>
      match nth_error a (index_of k) with Some v => (RProgram POk, set_at (index_of k) (with_cpu cpu b v) a) | None => (RProgram PNone, a) end
  | Program cpu (PInsert k b flags) =>
      match flags, nth_error a (index_of k) with
      | (0 | 2), Some v => (RProgram POk, set_at (index_of k) (with_cpu cpu b v) a)
      | 1, Some _ => (RProgram (PErr (-17)), a)
      | (0 | 1 | 2), None => (RProgram (PErr (-7)), a)
      | _, _ => (RProgram (PErr (-22)), a)
      end
  | Program _ _ => (RProgram PNone, a)
  end.

(** First in, first out, or last in, first out. *)
Definition queue_turn (stack : bool) (max : Z) (c : side) (l : list (list Z)) : result * list (list Z) :=
  let next := match l with [] => None | v :: r => Some (if stack then (last l [], removelast l) else (v, r)) end in
  match c with
  | User o => let (r, l) := queue_step stack max o l in (RUser r, l)
  | Program _ (PPush v flags) =>
      match flags, max <=? Z.of_nat (length l) with
      | (0 | 2), false => (RProgram POk, l ++ [v])
      | 0, true => (RProgram (PErr (-7)), l)
      | 2, true => (RProgram POk, tl (l ++ [v]))
      | _, _ => (RProgram (PErr (-22)), l)
      end
  | Program _ PPop => match next with Some (v, r) => (RProgram (PSome v), r) | None => (RProgram PNone, l) end
  | Program _ (PPeek _) => match next with Some (v, _) => (RProgram (PSome v), l) | None => (RProgram PNone, l) end
  | Program _ _ => (RProgram PNone, l)
  end.

(** The values added to a Bloom filter. *)
Definition adding (p : pcall) : Prop := match p with PPush _ _ | PContains _ => True | _ => False end.
Definition added_by (b : list Z) (c : side) : Prop := c = User (OPush (WData b) 0) \/ exists cpu, c = Program cpu (PPush b 0).

(** * Redirection *)

(** __bpf_xdp_redirect_map: [known]: the flags the kind of map has (devmaps
    BPF_F_BROADCAST and BPF_F_EXCLUDE_INGRESS, 8 and 16; others none);
    the lowest two bits are the action if there is no such entry. *)
Definition kredirect (known : Z) (entry : bool) (flags : Z) : Z :=
  if negb (Z.ldiff flags (Z.lor 3 known) =? 0) then 0
  else if negb entry && negb (Z.testbit flags 3) then Z.land flags 3 else 4.
(** dev_map_lookup_elem: what a program finds; values of [h_value] bytes. *)
Definition kdev_lookup (sh : shape) (i : Z) (l : list (option (Z * Z))) : option (list Z) :=
  match nth_error l (Z.to_nat i) with
  | Some (Some (t, id)) => Some (le_enc 4 t ++ if h_value sh =? 8 then le_enc 4 id else [])
  | _ => None
  end.

(** * Perf events *)

(** bpf_skb_event_output and bpf_xdp_event_output: the buffer, how much of the
    packet is added, the data; -EINVAL. *)
Definition koutput (current : Z) (flags : Z) (data : list Z) : option (Z * Z * list Z) :=
  let index := flags mod 2 ^ 32 in
  let len := (flags / 2 ^ 32) in
  if 2 ^ 20 <=? len then None else Some (if index =? 2 ^ 32 - 1 then current else index, len, data).

(** * Sockets *)

(** The references held: one after the lookup, given back by a release. *)
Fixpoint refs (sk : Z) (n : Z) (l : list sk_call) : Z :=
  match l with
  | [] => n
  | SkAssign _ _ :: l => refs sk n l
  | SkRelease s :: l => refs sk (if s =? sk then n - 1 else n) l
  end.

(** * States after calls from user space *)

Fixpoint after {S} (step : op -> S -> res merr out * S) (l : list op) (s : S) : S :=
  match l with [] => s | o :: l => after step l (snd (step o s)) end.
(** The result of a program's call that a user's call corresponds to. *)
Definition as_program (r : res merr out) : presult :=
  match r with
  | Ok (RData b) => PSome b | Ok _ => POk
  | Err EKeyNotFound => PNone | Err (ESyscall e) => PErr (- e) | Err _ => PErr 0
  end.
(** Whether there is an entry. *)
Definition present {A} (x : option A) : bool := match x with Some _ => true | None => false end.
