(** What the library reports about a program or map in the kernel.

    Sources: aya/src/sys/bpf.rs 801-836 ([bpf_obj_get_info_by_fd],
    [bpf_prog_get_info_by_fd]), aya/src/programs/info.rs 32-208,
    aya/src/maps/info.rs 25-101, aya/src/util.rs 430-436
    ([bytes_of_bpf_name]), aya/src/programs/utils.rs 61-95 ([boot_time],
    [get_fdinfo]).  Simplification: little-endian hosts. *)
From Coq Require Import String.
From Verif Require Import Base Text TextParse LogModel LayoutModel LayoutDecls.
Import ListNotations.
Local Open Scope Z_scope.

(** * Reading the structure *)

(** The kernel copies as much of its own structure as the caller has room
    for and leaves the rest: kernel/bpf/syscall.c [bpf_prog_get_info_by_fd]
    and the like. *)
Definition filled (kernel buf : list Z) : list Z := firstn (length buf) kernel ++ skipn (length kernel) buf.
(** The caller's structure is zeroed and as large as the declaration. *)
Definition info_of (t : ty) (kernel : list Z) : list Z := filled kernel (repeat 0 (Z.to_nat (size t))).

Definition bytes_at (t : ty) (f : string) (info : list Z) : list Z :=
  match field [f] t with Some (o, s) => slice (Z.to_nat o) (Z.to_nat s) info | None => [] end.
Definition get (t : ty) (f : string) (info : list Z) : Z := le_dec (bytes_at t f info).
Definition positive (x : Z) : option Z := if 0 <? x then Some x else None.

(** * [ProgramInfo] *)

Definition P := d_bpf_prog_info.
(** [bpf_prog_type::try_from]: the types the bindings know, [__MAX] else. *)
Definition KNOWN_TYPES : Z := 33.
Definition program_type (i : list Z) : Z := let t := get P "type_" i in if t <? KNOWN_TYPES then t else KNOWN_TYPES.
Definition id (i : list Z) : Z := get P "id" i.
(** [u64::from_be_bytes]. *)
Definition tag (i : list Z) : Z := le_dec (rev (bytes_at P "tag" i)).
Definition size_jitted (i : list Z) : Z := get P "jited_prog_len" i.
Definition size_translated (i : list Z) : option Z := positive (get P "xlated_prog_len" i).
(** Nanoseconds since the epoch; [boot] is what [boot_time] returns. *)
Definition loaded_at (boot : Z) (i : list Z) : option Z := if 0 <? get P "load_time" i then Some (boot + get P "load_time" i) else None.
Definition created_by_uid (i : list Z) : option Z := if 0 <? get P "load_time" i then Some (get P "created_by_uid" i) else None.
Definition btf_id (i : list Z) : option Z := positive (get P "btf_id" i).
Definition run_time (i : list Z) : Z := get P "run_time_ns" i.
Definition run_count (i : list Z) : Z := get P "run_cnt" i.
Definition verified_instruction_count (i : list Z) : option Z := positive (get P "verified_insns" i).
(** The first bit of the bit field unit, see C81. *)
Definition gpl_bit (i : list Z) : bool := Z.testbit (nth 0 (bytes_at P "_bitfield_1" i) 0) 0.

(** [boot_time]: the two clocks are read one after the other. *)
Definition boot_time (since_boot since_epoch : Z) : Z := since_epoch - since_boot.

(** The caches are process wide ([static CACHE]).  [probe]: [Some] what the
    kernel supports or [None] if the probe failed. *)
Definition supported (cache probe : option bool) (seen : bool) : bool :=
  match cache with
  | Some b => b
  | None => seen || match probe with Some true => true | _ => false end
  end.
(** The second request: [reply] is an error or the maps the program has
    then.  The kernel writes as many as there is room for and there are; no
    room is given if there is none. *)
Definition ids_written (nr : nat) (maps : list Z) : list Z := firstn nr maps ++ skipn (length maps) (repeat 0 nr).
Definition map_ids (cache probe : option bool) (i : list Z) (reply : res Z (list Z)) : res Z (option (list Z)) * option bool :=
  let nr := get P "nr_map_ids" i in
  let b := supported cache probe (0 <? nr) in
  (if b then match reply with Err e => Err e | Ok maps => Ok (Some (ids_written (Z.to_nat nr) maps)) end else Ok None, Some b).
Definition gpl_compatible (cache probe : option bool) (i : list Z) : option bool * option bool :=
  let b := supported cache probe (gpl_bit i) in
  (if b then Some (gpl_bit i) else None, Some b).
(** Calls one after another in a process. *)
Fixpoint map_ids_calls (cache : option bool) (l : list (option bool * list Z * res Z (list Z))) : list (res Z (option (list Z))) :=
  match l with
  | [] => []
  | (probe, i, reply) :: l => let '(r, cache) := map_ids cache probe i reply in r :: map_ids_calls cache l
  end.
Fixpoint gpl_calls (cache : option bool) (l : list (option bool * list Z)) : list (option bool) :=
  match l with
  | [] => []
  | (probe, i) :: l => let '(r, cache) := gpl_compatible cache probe i in r :: gpl_calls cache l
  end.

(** [bytes_of_bpf_name]: up to the last byte that is not zero. *)
Fixpoint name_len (l : list Z) : nat :=
  match l with
  | [] => 0
  | b :: l => match name_len l with O => if b =? 0 then 0 else 1 | n => S n end
  end.
Definition bytes_of_bpf_name (l : list Z) : list Z := firstn (name_len l) l.
(** [name_as_str]; [named] is [FEATURES.is_supported(BpfName)]. *)
Definition str_of_name (named : bool) (l : list Z) : option (list Z) :=
  if utf8 l then (if negb (match l with [] => true | _ => false end) || named then Some l else None) else None.
Definition prog_name (i : list Z) : list Z := bytes_of_bpf_name (bytes_at P "name" i).
Definition prog_name_as_str (named : bool) (i : list Z) : option (list Z) := str_of_name named (prog_name i).

(** * [MapInfo] *)

Definition M := d_bpf_map_info.
Definition map_id (i : list Z) : Z := get M "id" i.
Definition map_type (i : list Z) : Z := get M "type_" i.
Definition map_key_size (i : list Z) : Z := get M "key_size" i.
Definition map_value_size (i : list Z) : Z := get M "value_size" i.
Definition map_max_entries (i : list Z) : Z := get M "max_entries" i.
Definition map_flags (i : list Z) : Z := get M "map_flags" i.
Definition map_name (i : list Z) : list Z := bytes_of_bpf_name (bytes_at M "name" i).

(** * [get_fdinfo] *)

(** [str::contains]. *)
Fixpoint begins (key s : list Z) : bool :=
  match key, s with
  | [], _ => true
  | k :: key, c :: s => (k =? c) && begins key s
  | _, [] => false
  end.
Fixpoint contains (key s : list Z) : bool := begins key s || match s with [] => false | _ :: s => contains key s end.
(** [rsplit_once('\t')]: what follows the last tab. *)
Fixpoint after_tab (s : list Z) : option (list Z) :=
  match s with
  | [] => None
  | c :: s => match after_tab s with Some r => Some r | None => if c =? 9 then Some s else None end
  end.
(** [None] is a panic: a line without a tab or with no number that fits. *)
Fixpoint fdinfo_value (key : list Z) (ls : list (list Z)) : option Z :=
  match ls with
  | [] => Some 0
  | l :: ls => if contains key l then match after_tab l with Some v => dec_u32 v | None => None end else fdinfo_value key ls
  end.
Definition get_fdinfo (key file : list Z) : option Z := fdinfo_value key (lines file).
Definition memory_locked (file : list Z) : option Z := get_fdinfo (txt "memlock") file.
