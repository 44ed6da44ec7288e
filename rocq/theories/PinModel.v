(** Model of pinned maps and pinned programs: aya/src/maps/mod.rs:824-926, the
    loop over maps in aya/src/bpf.rs:603-672, and aya/src/programs/mod.rs:667-688
    and 1234-1260, over a small model of the bpf file system.

    Simplifications: the kernel's maps have numbers that are not reused and
    are not freed; sizes are adjusted before (see [UtilModel.map_sizes]); paths
    are texts; the order of the maps, which come out of a hash map, is the order
    of the list. *)
From Coq Require Import String.
From Verif Require Import Base Text.
Local Open Scope Z_scope.

(** * The kernel *)

(** Type, key size, value size, number of entries, flags: what a map is created
    with (sys/bpf.rs [bpf_create_map]). *)
Record shape := { h_type : Z; h_key : Z; h_value : Z; h_entries : Z; h_flags : Z }.
(** A map: its number, what is at key 0, and whether the caller may write. *)
Record kmap := { k_id : Z; k_shape : shape; k_data : list Z; k_frozen : bool }.

Inductive event :=
| Created (for_path : option (list Z)) (id : Z)
| CreatedInner (id : Z)
| Pinned (path : list Z) (id : Z)
| Written (id : Z) (data : list Z)
| ReadBeyond (id : Z).        (* the kernel read more than the buffer given *)

(** [w_fail]: which of the next calls fail. *)
Record world := { w_next : Z; w_fail : list bool; w_maps : list kmap; w_pins : list (list Z * Z); w_log : list event }.
Definition log (l : list event) (w : world) : world := {| w_next := w_next w; w_fail := w_fail w; w_maps := w_maps w; w_pins := w_pins w; w_log := w_log w ++ l |}.
Definition set_maps (v : list kmap) (w : world) : world := {| w_next := w_next w; w_fail := w_fail w; w_maps := v; w_pins := w_pins w; w_log := w_log w |}.
Definition set_pins (v : list (list Z * Z)) (w : world) : world := {| w_next := w_next w; w_fail := w_fail w; w_maps := w_maps w; w_pins := v; w_log := w_log w |}.
Definition ask (w : world) : bool * world :=
  match w_fail w with [] => (false, w) | f :: r => (f, {| w_next := w_next w; w_fail := r; w_maps := w_maps w; w_pins := w_pins w; w_log := w_log w |}) end.

Definition pin_at (path : list Z) (w : world) : option Z := option_map snd (find (fun p => str_eqb (fst p) path) (w_pins w)).
Definition map_at (id : Z) (w : world) : option kmap := find (fun k => k_id k =? id) (w_maps w).
Definition change (id : Z) (f : kmap -> kmap) (w : world) : world := set_maps (map (fun k => if k_id k =? id then f k else k) (w_maps w)) w.

(** BPF_MAP_CREATE, BPF_OBJ_GET and BPF_OBJ_PIN, which fails if there is a file. *)
Definition new_map (sh : shape) (e : Z -> event) (w : world) : Z * world :=
  (w_next w, {| w_next := w_next w + 1; w_fail := w_fail w; w_maps := w_maps w ++ [{| k_id := w_next w; k_shape := sh; k_data := []; k_frozen := false |}]; w_pins := w_pins w; w_log := w_log w ++ [e (w_next w)] |}).
Definition create_map (sh : shape) (e : Z -> event) (w : world) : option Z * world :=
  let (f, w) := ask w in if f then (None, w) else let (id, w) := new_map sh e w in (Some id, w).
Definition get_object (path : list Z) (w : world) : option Z * world :=
  let (f, w) := ask w in (if f then None else pin_at path w, w).
Definition pin_object (path : list Z) (id : Z) (w : world) : bool * world :=
  let (f, w) := ask w in
  match pin_at path w with
  | None => if f then (false, w) else (true, log [Pinned path id] (set_pins (w_pins w ++ [(path, id)]) w))
  | Some _ => (false, w)
  end.
(** BPF_MAP_UPDATE_ELEM of key 0 copies as many bytes as the map's values have,
    whatever the caller's buffer is; BPF_MAP_FREEZE fails the second time. *)
Definition update_elem (id : Z) (data : list Z) (w : world) : bool * world :=
  let (f, w) := ask w in
  match map_at id w with
  | Some k =>
      if f || k_frozen k then (false, w)
      else
        let n := Z.to_nat (h_value (k_shape k)) in
        (true, log (Written id (firstn n data) :: if Nat.ltb (length data) n then [ReadBeyond id] else [])
                 (change id (fun k => {| k_id := k_id k; k_shape := k_shape k; k_data := firstn n data; k_frozen := k_frozen k |}) w))
  | None => (false, w)
  end.
Definition freeze (id : Z) (w : world) : bool * world :=
  let (f, w) := ask w in
  match map_at id w with
  | Some k => if f || k_frozen k then (false, w)
              else (true, change id (fun k => {| k_id := k_id k; k_shape := k_shape k; k_data := k_data k; k_frozen := true |}) w)
  | None => (false, w)
  end.

(** * Loading maps *)

(** A map of an object file (aya-obj/src/maps.rs:106-330).  [o_inner]: for maps
    of maps, the definition of the inner map, if there is one. *)
Record omap := { o_name : list Z; o_shape : shape; o_data : list Z; o_rodata : bool; o_pinned : bool; o_inner : option (option shape) }.
(** aya/src/bpf.rs:77-84. *)
Record loader := { l_dir : option (list Z); l_paths : list (list Z * list Z) }.

Inductive merr := EInvalidPath | EInvalidName | ECreate | EPin | EUpdate | EFreeze | EMissingInner.
Definition has_nul (s : list Z) : bool := existsb (Z.eqb 0) s.

(** std [Path::join] on Unix. *)
Definition path_join (dir name : list Z) : list Z :=
  match name with
  | 47 :: _ => name
  | _ => match dir with
         | [] => name
         | _ => if last dir 0 =? 47 then dir ++ name else dir ++ 47 :: name
         end
  end.

(** aya/src/maps/mod.rs:824-860. *)
Definition create (name : list Z) (sh : shape) (e : Z -> event) (w : world) : res merr Z * world :=
  if has_nul name then (Err EInvalidName, w)
  else match create_map sh e w with (Some id, w) => (Ok id, w) | (None, w) => (Err ECreate, w) end.

(** aya/src/maps/mod.rs:889-897, aya/src/bpf.rs:647-655: the inner map of a map
    of maps, then the map. *)
Definition create_with_inner (name : list Z) (sh : shape) (inner : option shape) (e : Z -> event) (w : world) : res merr Z * world :=
  match inner with
  | Some i =>
      match create (name ++ txt ".inner") i CreatedInner w with
      | (Ok _, w) => create name sh e w
      | (Err x, w) => (Err x, w)
      end
  | None => create name sh e w
  end.

(** aya/src/maps/mod.rs:862-905 [create_pinned_by_name]: whatever is there is
    taken as it is. *)
Definition create_pinned (path : list Z) (o : omap) (inner : option shape) (w : world) : res merr Z * world :=
  if has_nul path then (Err EInvalidPath, w)
  else
    match get_object path w with
    | (Some id, w) => (Ok id, w)
    | (None, w) =>
        match create_with_inner (o_name o) (o_shape o) inner (Created (Some path)) w with
        | (Err x, w) => (Err x, w)
        | (Ok id, w) => match pin_object path id w with (true, w) => (Ok id, w) | (false, w) => (Err EPin, w) end
        end
    end.

(** aya/src/maps/mod.rs:907-926 [finalize]. *)
Definition finalize (o : omap) (id : Z) (w : world) : res merr unit * world :=
  match (match o_data o with [] => (true, w) | _ => update_elem id (o_data o) w end) with
  | (false, w) => (Err EUpdate, w)
  | (true, w) =>
      if o_rodata o then match freeze id w with (true, w) => (Ok tt, w) | (false, w) => (Err EFreeze, w) end
      else (Ok tt, w)
  end.

(** aya/src/bpf.rs:642-668: where a map is to be pinned. *)
Definition pin_path (l : loader) (o : omap) : option (list Z) :=
  match find (fun p => str_eqb (fst p) (o_name o)) (l_paths l) with
  | Some (_, path) => Some path
  | None => if o_pinned o then Some (path_join (match l_dir l with Some d => d | None => txt "/sys/fs/bpf" end) (o_name o)) else None
  end.

(** aya/src/bpf.rs:631-671: one map. *)
Definition load_map (l : loader) (o : omap) (w : world) : res merr Z * world :=
  match o_inner o with
  | Some None => (Err EMissingInner, w)
  | _ =>
      let inner := match o_inner o with Some i => i | None => None end in
      match (match pin_path l o with
             | Some path => create_pinned path o inner w
             | None => create_with_inner (o_name o) (o_shape o) inner (Created None) w
             end) with
      | (Err x, w) => (Err x, w)
      | (Ok id, w) => match finalize o id w with (Err x, w) => (Err x, w) | (Ok _, w) => (Ok id, w) end
      end
  end.

(** aya/src/bpf.rs:603-672: all maps; the first error ends the load, and what
    was pinned until then stays. *)
Fixpoint load_maps (l : loader) (os : list omap) (w : world) : res merr (list (omap * Z)) * world :=
  match os with
  | [] => (Ok [], w)
  | o :: os =>
      match load_map l o w with
      | (Err x, w) => (Err x, w)
      | (Ok id, w) => match load_maps l os w with (Err x, w) => (Err x, w) | (Ok r, w) => (Ok ((o, id) :: r), w) end
      end
  end.

(** Several loads one after the other; what each returned. *)
Fixpoint loads (js : list (loader * list omap)) (w : world) : list (loader * res merr (list (omap * Z))) * world :=
  match js with
  | [] => ([], w)
  | (l, os) :: js => let (r, w) := load_maps l os w in let (rs, w) := loads js w in ((l, r) :: rs, w)
  end.

Definition empty_world (fails : list bool) : world := {| w_next := 1; w_fail := fails; w_maps := []; w_pins := []; w_log := [] |}.

(** * Pinned programs *)

(** A file: a pin of this program, by number, or something else. *)
Inductive file := FProg (i : nat) | FOther.
(** [d_loaded], [d_path]: aya/src/programs/mod.rs:549-562. *)
Record pdata := { d_loaded : bool; d_path : option (list Z) }.
Record fs := { f_files : list (list Z * file); f_progs : list pdata; f_fail : list bool }.

Definition file_at (path : list Z) (s : fs) : option file := option_map snd (find (fun p => str_eqb (fst p) path) (f_files s)).
Definition no_data : pdata := {| d_loaded := false; d_path := None |}.
Definition data_at (i : nat) (s : fs) : pdata := nth i (f_progs s) no_data.
Definition replace {A} (i : nat) (v : A) (l : list A) : list A := firstn i l ++ match skipn i l with [] => [] | _ :: r => v :: r end.
Definition set_data (i : nat) (d : pdata) (s : fs) : fs := {| f_files := f_files s; f_progs := replace i d (f_progs s); f_fail := f_fail s |}.
Definition set_files (v : list (list Z * file)) (s : fs) : fs := {| f_files := v; f_progs := f_progs s; f_fail := f_fail s |}.
Definition fs_ask (s : fs) : bool * fs := match f_fail s with [] => (false, s) | f :: r => (f, {| f_files := f_files s; f_progs := f_progs s; f_fail := r |}) end.

Inductive perr := ENoFd | EBadPath | EPinFailed | ERemove | ENoProg.

(** aya/src/programs/mod.rs:1242-1245 [pin], 667-688 [pin_program]: the path is
    kept before anything is tried. *)
Definition pin (i : nat) (path : list Z) (s : fs) : res perr unit * fs :=
  let d := data_at i s in
  let s := set_data i {| d_loaded := d_loaded d; d_path := Some path |} s in
  if negb (d_loaded d) then (Err ENoFd, s)
  else if has_nul path then (Err EBadPath, s)
  else
    let (f, s) := fs_ask s in
    match file_at path s with
    | Some _ => (Err EPinFailed, s)
    | None => if f then (Err EPinFailed, s) else (Ok tt, set_files (f_files s ++ [(path, FProg i)]) s)
    end.

(** aya/src/programs/mod.rs:1247-1253 [unpin]. *)
Definition unpin (i : nat) (s : fs) : res perr unit * fs :=
  match d_path (data_at i s) with
  | None => (Ok tt, s)
  | Some path =>
      let s := set_data i {| d_loaded := d_loaded (data_at i s); d_path := None |} s in
      let (f, s) := fs_ask s in
      match file_at path s with
      | None => (Err ERemove, s)
      | Some _ => if f then (Err ERemove, s) else (Ok tt, set_files (filter (fun p => negb (str_eqb (fst p) path)) (f_files s)) s)
      end
  end.

(** What programs and others do. *)
Inductive fop := FPin (i : nat) (path : list Z) | FUnpin (i : nat) | FLoaded (i : nat) (b : bool) | FMake (path : list Z) | FRemove (path : list Z).
Definition fstep (o : fop) (s : fs) : res perr unit * fs :=
  match o with
  | FPin i path => if Nat.ltb i (length (f_progs s)) then pin i path s else (Err ENoProg, s)
  | FUnpin i => if Nat.ltb i (length (f_progs s)) then unpin i s else (Err ENoProg, s)
  | FLoaded i b => (Ok tt, set_data i {| d_loaded := b; d_path := d_path (data_at i s) |} s)
  | FMake path => match file_at path s with Some _ => (Err EPinFailed, s) | None => (Ok tt, set_files (f_files s ++ [(path, FOther)]) s) end
  | FRemove path => (Ok tt, set_files (filter (fun p => negb (str_eqb (fst p) path)) (f_files s)) s)
  end.
Fixpoint fsteps (l : list fop) (s : fs) : fs := match l with [] => s | o :: l => fsteps l (snd (fstep o s)) end.
