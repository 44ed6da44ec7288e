(** Model of target and symbol resolution for user space probes:
    aya/src/programs/uprobe.rs.

    Text and file contents are lists of byte values.  ELF files are what the
    [object] crate makes of them: tables of symbols and sections. *)
From Coq Require Import String.
From Verif Require Import Base Text TextParse TextSplit LogModel.
Local Open Scope Z_scope.

(** * Addresses *)

Inductive loc_error := AddressNotInSection | FileOffsetOverflow.

(** aya/src/programs/uprobe.rs:176-196 [from_virtual_address]. *)
Definition from_virtual_address (addr sec_addr sec_offset : Z) : res loc_error Z :=
  if addr <? sec_addr then Err AddressNotInSection
  else if 2 ^ 64 <=? addr - sec_addr + sec_offset then Err FileOffsetOverflow
  else Ok (addr - sec_addr + sec_offset).

(** * Object files *)

Inductive obj_kind := KRelocatable | KExecutable | KDynamic | KOther.

(** A symbol: its name unless unreadable, its address, the index of its
    section unless it is undefined, absolute or common. *)
Record usym := { us_name : option (list Z); us_addr : Z; us_section : option nat }.
(** A section: its address, and the file offset of its contents unless it has
    none. *)
Record usec := { uc_addr : Z; uc_offset : option Z }.
(** [uo_debuglink]: the name in .gnu_debuglink; an unreadable one is [Err].
    [uo_build_id]: an unreadable one counts as none (line 1441). *)
Record uobj := { uo_kind : obj_kind; uo_dynamic : list usym; uo_static : list usym; uo_sections : list usec;
                 uo_debuglink : res unit (option (list Z)); uo_build_id : option (list Z) }.

(** [ResolveSymbolError]; [RPanic] stands for an arithmetic overflow panic
    (release builds wrap instead). *)
Inductive rerr :=
  | RIo | RObject | RUnknown (s : list Z) | RNotInSection (s : list Z) | RNoRange (s : list Z)
  | RDebug (path : list Z) | RBuildId (s : list Z) | RPanic.

(** aya/src/programs/uprobe.rs:1468-1492 [symbol_translated_address]; line
    1488 is unchecked. *)
Definition translated (o : uobj) (s : usym) (name : list Z) : res rerr Z :=
  match uo_kind o with
  | KDynamic | KExecutable =>
      match us_section s with
      | None => Err (RNotInSection name)
      | Some i =>
          match nth_error (uo_sections o) i with
          | None => Err RObject
          | Some c =>
              match uc_offset c with
              | None => Err (RNoRange name)
              | Some off =>
                  if us_addr s <? uc_addr c then Err RPanic
                  else if 2 ^ 64 <=? us_addr s - uc_addr c + off then Err RPanic
                  else Ok (us_addr s - uc_addr c + off)
              end
          end
      end
  | KRelocatable | KOther => Ok (us_addr s)
  end.

(** aya/src/programs/uprobe.rs:758-762 [find_symbol_in_object]. *)
Definition named (name : list Z) (s : usym) : bool :=
  match us_name s with Some n => str_eqb n name | None => false end.
Definition find_symbol (o : uobj) (name : list Z) : option usym := find (named name) (uo_dynamic o ++ uo_static o).

(** aya/src/programs/uprobe.rs:1456-1466 [find_debug_path_in_object]; [dbg] is
    [construct_debuglink_path], 1419-1434. *)
Definition find_debug_path (dbg : list Z -> list Z -> list Z) (o : uobj) (path symbol : list Z) : res rerr (list Z) :=
  match uo_debuglink o with
  | Ok (Some f) => Ok (dbg f path)
  | Ok None => Err (RUnknown symbol)
  | Err _ => Err RObject
  end.

(** aya/src/programs/uprobe.rs:1436-1454 [verify_build_ids]. *)
Definition verify_build_ids (main debug : uobj) (symbol : list Z) : res rerr unit :=
  match uo_build_id debug, uo_build_id main with
  | Some d, Some m => if str_eqb d m then Ok tt else Err (RBuildId symbol)
  | _, _ => Ok tt
  end.

(** The files: [None] cannot be mapped, [Some None] is no object file. *)
Definition files := list Z -> option (option uobj).
Definition open_main (fs : files) (path : list Z) : res rerr uobj :=
  match fs path with None => Err RIo | Some None => Err RObject | Some (Some o) => Ok o end.
Definition open_debug (fs : files) (path : list Z) : res rerr uobj :=
  match fs path with None => Err (RDebug path) | Some None => Err RObject | Some (Some o) => Ok o end.

(** aya/src/programs/uprobe.rs:764-783 [resolve_symbol]. *)
Definition resolve_symbol (dbg : list Z -> list Z -> list Z) (fs : files) (path symbol : list Z) : res rerr Z :=
  bind (open_main fs path) (fun o =>
  match find_symbol o symbol with
  | Some s => translated o s symbol
  | None =>
      bind (find_debug_path dbg o path symbol) (fun dpath =>
      bind (open_debug fs dpath) (fun d =>
      bind (verify_build_ids o d symbol) (fun _ =>
      match find_symbol d symbol with
      | Some s => translated d s symbol
      | None => Err (RUnknown symbol)
      end)))
  end).

(** * Many symbols at once *)

Inductive pending := PAbs (off : Z) | PSym (symbol : list Z) (additional : Z).

(** The hash map of symbols: keys without repetition. *)
Definition symmap := list (list Z * option Z).
Fixpoint sm_get (m : symmap) (k : list Z) : option (option Z) :=
  match m with
  | [] => None
  | (k', v) :: m => if str_eqb k' k then Some v else sm_get m k
  end.
Fixpoint sm_set (m : symmap) (k : list Z) (v : Z) : symmap :=
  match m with
  | [] => []
  | (k', w) :: m => if str_eqb k' k then (k', Some v) :: m else (k', w) :: sm_set m k v
  end.
Definition sm_add (m : symmap) (k : list Z) : symmap := match sm_get m k with Some _ => m | None => m ++ [(k, None)] end.
Definition sm_missing (m : symmap) : nat := length (filter (fun e => match snd e with None => true | Some _ => false end) m).

(** aya/src/programs/uprobe.rs:882-912 [resolve_symbols_in_object]: the loop
    over the symbols, with the count of names still missing. *)
Fixpoint scan (o : uobj) (l : list usym) (remaining : nat) (m : symmap) : res rerr symmap :=
  match l with
  | [] => Ok m
  | s :: l =>
      match us_name s with
      | None => scan o l remaining m
      | Some name =>
          match sm_get m name with
          | None => scan o l remaining m
          | Some (Some _) => scan o l remaining m
          | Some None =>
              bind (translated o s name) (fun off =>
              if (remaining =? 1)%nat then Ok (sm_set m name off) else scan o l (remaining - 1) (sm_set m name off))
          end
      end
  end.
Definition resolve_in_object (o : uobj) (m : symmap) : res rerr symmap :=
  match m with
  | [] => Ok m
  | _ => scan o (uo_dynamic o ++ uo_static o) (sm_missing m) m
  end.

Definition pending_symbol (p : pending) : option (list Z) := match p with PAbs _ => None | PSym s _ => Some s end.
Fixpoint first_some {A B} (f : A -> option B) (l : list A) : option B :=
  match l with
  | [] => None
  | x :: l => match f x with Some y => Some y | None => first_some f l end
  end.

(** aya/src/programs/uprobe.rs:804-812: the symbol an error is reported for. *)
Definition blame (fallback : list Z) (e : rerr) : list Z :=
  match e with
  | RUnknown s | RNotInSection s | RNoRange s | RBuildId s => s
  | _ => fallback
  end.
Definition map_err {A} (fallback : list Z) (r : res rerr A) : res (list Z * rerr) A :=
  match r with Ok v => Ok v | Err e => Err (blame fallback e, e) end.

(** Line 876: [offset + additional], unchecked. *)
Definition add_offset (symbol : list Z) (off additional : Z) : res (list Z * rerr) Z :=
  if 2 ^ 64 <=? off + additional then Err (symbol, RPanic) else Ok (off + additional).

(** aya/src/programs/uprobe.rs:785-880 [resolve_pending_offsets]. *)
Definition resolve_pending (dbg : list Z -> list Z -> list Z) (fs : files) (path : list Z) (l : list pending) : res (list Z * rerr) (list Z) :=
  let names := fold_left (fun m p => match pending_symbol p with Some s => sm_add m s | None => m end) l [] in
  bind (match first_some pending_symbol l with
        | None => Ok names
        | Some first =>
            bind (map_err first (open_main fs path)) (fun o =>
            bind (map_err first (resolve_in_object o names)) (fun m =>
            match first_some (fun p => match pending_symbol p with
                                       | Some s => match sm_get m s with Some None => Some s | _ => None end
                                       | None => None
                                       end) l with
            | None => Ok m
            | Some missing =>
                bind (map_err missing (find_debug_path dbg o path missing)) (fun dpath =>
                bind (map_err missing (open_debug fs dpath)) (fun d =>
                bind (map_err missing (verify_build_ids o d missing)) (fun _ =>
                map_err missing (resolve_in_object d m))))
            end))
        end) (fun m =>
  mapM (fun p => match p with
                 | PAbs off => Ok off
                 | PSym s additional =>
                     match sm_get m s with
                     | Some (Some off) => add_offset s off additional
                     | _ => Err (s, RUnknown s)
                     end
                 end) l).

(** * Points *)

(** aya/src/programs/uprobe.rs:80-91, 199-206. *)
Inductive location := LSymbol (s : list Z) | LSymbolOffset (s : list Z) (off : Z) | LAbsolute (off : Z).
Record point := { pt_loc : location; pt_cookie : option Z }.

(** aya/src/programs/uprobe.rs:234-247 [ResolvedPoints]. *)
Inductive resolved := One (off : Z) (cookie : option Z) | Many (offs : list Z) (cookies : option (list Z)).

(** aya/src/programs/uprobe.rs:255-274. *)
Definition r_offsets (r : resolved) : list Z := match r with One o _ => [o] | Many os _ => os end.
Definition r_cookies (r : resolved) : option (list Z) := match r with One _ (Some c) => Some [c] | One _ None => None | Many _ cs => cs end.

(** aya/src/programs/uprobe.rs:292-296, 321-330. *)
Definition pending_of (l : location) : pending :=
  match l with LSymbol s => PSym s 0 | LSymbolOffset s a => PSym s a | LAbsolute o => PAbs o end.

(** aya/src/programs/uprobe.rs:333-343: the cookies collected so far and one
    more point, the [index]th. *)
Definition add_cookie (index : nat) (cookies : option (list Z)) (c : option Z) : option (list Z) :=
  match cookies, c with
  | Some v, Some c => Some (v ++ [c])
  | Some v, None => Some (v ++ [0])
  | None, Some c => Some (repeat 0 index ++ [c])
  | None, None => None
  end.
Fixpoint collect_cookies (index : nat) (cookies : option (list Z)) (l : list point) : option (list Z) :=
  match l with
  | [] => cookies
  | p :: l => collect_cookies (S index) (add_cookie index cookies (pt_cookie p)) l
  end.

(** aya/src/programs/uprobe.rs:277-352 [resolve_points]. *)
Definition resolve_points (dbg : list Z -> list Z -> list Z) (fs : files) (path : list Z) (first : point) (rest : list point) : res (list Z * rerr) resolved :=
  match rest with
  | [] =>
      match pending_of (pt_loc first) with
      | PAbs o => Ok (One o (pt_cookie first))
      | PSym s additional =>
          match resolve_symbol dbg fs path s with
          | Err e => Err (s, e)
          | Ok off => bind (add_offset s off additional) (fun o => Ok (One o (pt_cookie first)))
          end
      end
  | _ =>
      let points := first :: rest in
      bind (resolve_pending dbg fs path (map (fun p => pending_of (pt_loc p)) points)) (fun offs =>
      Ok (Many offs (collect_cookies 0 None points)))
  end.

(** * Requests *)

(** aya/src/sys/bpf.rs:502-522, 536-564 and aya/src/programs/uprobe.rs:612-639:
    the arguments of a native multi link.  A null cookie pointer is [None]. *)
Record multi_request := { mr_offsets : list Z; mr_cnt : Z; mr_cookies : option (list Z); mr_pid : Z; mr_return : bool }.
Definition multi_link (r : resolved) (pid : Z) (is_return : bool) : multi_request :=
  {| mr_offsets := r_offsets r; mr_cnt := Z.of_nat (length (r_offsets r)) mod 2 ^ 32; mr_cookies := r_cookies r; mr_pid := pid; mr_return := is_return |}.

(** aya/src/programs/uprobe.rs:536-610: offset and cookie of each single
    attach, in order. *)
Fixpoint single_from (i : nat) (offs : list Z) (cookies : option (list Z)) : list (Z * option Z) :=
  match offs with
  | [] => []
  | o :: offs => (o, match cookies with Some cs => nth_error cs i | None => None end) :: single_from (S i) offs cookies
  end.
Definition single_points (r : resolved) : list (Z * option Z) :=
  match r with One o c => [(o, c)] | Many os cs => single_from 0 os cs end.

(** aya/src/programs/uprobe.rs:209-217, 442-461: the process whose maps are
    read, the one given to perf_event_open and the one of a multi link, for a
    caller with process id [me]. *)
Inductive scope := AllProcesses | CallingProcess | OneProcess (pid : Z).
Definition scope_pids (me : Z) (s : scope) : option Z * option Z * Z :=
  match s with
  | AllProcesses => (None, None, 0)
  | CallingProcess => (Some me, Some 0, me)
  | OneProcess pid => (Some pid, Some pid, pid)
  end.
(** aya/src/sys/perf_event.rs:157-160, 169-172: process and CPU given to
    perf_event_open. *)
Definition perf_scope (pid : option Z) : Z * Z :=
  match pid with Some pid => (if pid <? 2 ^ 31 then pid else pid - 2 ^ 32, -1) | None => (-1, 0) end.

(** * /proc/pid/maps *)

(** [u8::is_ascii_whitespace] (no vertical tab). *)
Definition is_aws (c : Z) : bool := (c =? 32) || (c =? 9) || (c =? 10) || (c =? 12) || (c =? 13).
(** [trim_ascii_start], [trim_ascii_end], [trim_ascii]. *)
Fixpoint ltrim (s : list Z) : list Z :=
  match s with
  | c :: r => if is_aws c then ltrim r else s
  | [] => []
  end.
Definition rtrim (s : list Z) : list Z := rev (ltrim (rev s)).
Fixpoint position (p : Z -> bool) (s : list Z) : option nat :=
  match s with
  | [] => None
  | c :: s => if p c then Some O else match position p s with Some i => Some (S i) | None => None end
  end.

(** aya/src/programs/uprobe.rs:1112-1134 [split_ascii_whitespace_n]. *)
Fixpoint split_n_go (n : nat) (s : list Z) : list (list Z) :=
  match n with
  | O => []
  | S n =>
      let s := ltrim s in
      match n with
      | O => [s]
      | S _ =>
          match position is_aws s with
          | Some i => firstn i s :: split_n_go n (skipn i s)
          | None => [s]
          end
      end
  end.
Definition split_n (s : list Z) (n : nat) : list (list Z) := split_n_go n (rtrim s).

Record map_entry := { me_start : Z; me_end : Z; me_perms : list Z; me_offset : Z; me_dev : list Z; me_inode : Z; me_path : option (list Z) }.

(** aya/src/programs/uprobe.rs:1137-1205 [ProcMapEntry::parse].  The UTF-8
    checks come before number parsing, which rejects such bytes anyway. *)
Definition parse_entry (line : list Z) : option map_entry :=
  match filter (fun p => match p with [] => false | _ => true end) (split_n line 6) with
  | addr :: perms :: offset :: dev :: inode :: rest =>
      match split_at 45 addr with
      | [a; b] =>
          match parse_uint 16 (2 ^ 64) a, parse_uint 16 (2 ^ 64) b, parse_uint 16 (2 ^ 64) offset, parse_uint 10 (2 ^ 32) inode with
          | Some a, Some b, Some o, Some i =>
              match rest with
              | [] => Some {| me_start := a; me_end := b; me_perms := perms; me_offset := o; me_dev := dev; me_inode := i; me_path := None |}
              | [p] => Some {| me_start := a; me_end := b; me_perms := perms; me_offset := o; me_dev := dev; me_inode := i; me_path := Some p |}
              | _ => None
              end
          | _, _, _, _ => None
          end
      | _ => None
      end
  | _ => None
  end.

(** aya/src/programs/uprobe.rs:1227-1235 [ProcMap::libs]. *)
Definition libs (data : list Z) : list (option map_entry) := map parse_entry (split_at 10 (ltrim (rtrim data))).

(** [Path::file_name]: the last component unless it is [..]; empty and [.]
    components do not count. *)
Definition components (p : list Z) : list (list Z) :=
  filter (fun c => negb (str_eqb c []) && negb (str_eqb c [46])) (split_at 47 p).
Definition file_name (p : list Z) : option (list Z) :=
  match rev (components p) with
  | [] => None
  | c :: _ => if str_eqb c [46; 46] then None else Some c
  end.

Definition strip_prefix (p s : list Z) : option (list Z) := if starts_with p s then Some (skipn (length p) s) else None.
(** [.strip_suffix(".so").unwrap_or(..)], lines 1243, 1383. *)
Definition dot_so : list Z := txt ".so".
Definition stem (lib : list Z) : list Z := match strip_prefix (rev dot_so) (rev lib) with Some r => rev r | None => lib end.

(** aya/src/programs/uprobe.rs:1255-1264. *)
Definition lib_matches (lib path : list Z) : bool :=
  match file_name path with
  | Some f =>
      match strip_prefix lib f with
      | Some suffix => match suffix with [] => true | _ => starts_with dot_so suffix || starts_with [45] suffix end
      | None => false
      end
  | None => false
  end.

(** aya/src/programs/uprobe.rs:1241-1270 [find_library_path_by_name]:
    [None] is an error. *)
Fixpoint find_library_go (lib : list Z) (l : list (option map_entry)) : option (option (list Z)) :=
  match l with
  | [] => Some None
  | None :: _ => None
  | Some e :: l =>
      match me_path e with
      | Some p => if lib_matches lib p then Some (Some p) else find_library_go lib l
      | None => find_library_go lib l
      end
  end.
Definition find_library (data lib : list Z) : option (option (list Z)) := find_library_go (stem lib) (libs data).

(** * ld.so.cache *)

(** [CEof], [CInvalid]: the errors of [LdSoCache::parse]; [CPanic]: a slice
    index out of range; [COob]: [CStr::from_ptr] runs past the end of the
    file's contents (undefined behaviour). *)
Inductive cerr := CEof | CInvalid | CPanic | COob.

(** aya/src/programs/uprobe.rs:46-47. *)
Definition magic_old : list Z := txt "ld.so-1.7.0" ++ [0].
Definition magic_new : list Z := txt "glibc-ld.so.cache1.1".

(** Little-endian words at a cursor; the cursor may be past the end. *)
Definition read_word (data : list Z) (pos : Z) : res cerr Z :=
  if pos + 4 <=? Z.of_nat (length data) then Ok (le_dec (slice (Z.to_nat pos) 4 data)) else Err CEof.

(** aya/src/programs/uprobe.rs:1354-1361. *)
Definition read_str (data : list Z) (pos : Z) : res cerr (list Z) :=
  if Z.of_nat (length data) <? pos then Err CPanic
  else match position (Z.eqb 0) (skipn (Z.to_nat pos) data) with
       | Some n => Ok (firstn n (skipn (Z.to_nat pos) data))
       | None => Err COob
       end.

Record centry := { ce_key : list Z; ce_value : list Z; ce_flags : Z }.

(** aya/src/programs/uprobe.rs:1345-1372: [n] entries from the cursor. *)
Fixpoint read_entries (n : nat) (data : list Z) (is_new : bool) (offset pos : Z) : res cerr (list centry) :=
  match n with
  | O => Ok []
  | S n =>
      bind (read_word data pos) (fun flags =>
      bind (read_word data (pos + 4)) (fun k =>
      bind (read_word data (pos + 8)) (fun v =>
      bind (read_str data (offset + k)) (fun key =>
      bind (read_str data (offset + v)) (fun value =>
      bind (read_entries n data is_new offset (pos + 12 + (if is_new then 12 else 0))) (fun l =>
      Ok ({| ce_key := key; ce_value := value; ce_flags := i32 flags |} :: l)))))))
  end.

(** aya/src/programs/uprobe.rs:1291-1377 [LdSoCache::parse] on a little-endian
    64-bit host. *)
Definition parse_cache (data : list Z) : res cerr (list centry) :=
  if Z.of_nat (length data) <? 20 then Err CEof
  else if negb (utf8 (firstn 20 data)) then Err CInvalid
  else
    let is_new := str_eqb (firstn 20 data) magic_new in
    if negb is_new && negb (str_eqb (firstn 12 data) magic_old) then Err CInvalid
    else
      let pos := if is_new then 20 else 12 in
      bind (read_word data pos) (fun n =>
      let pos := pos + 4 + (if is_new then 24 else 0) in
      read_entries (Z.to_nat n) data is_new (if is_new then 0 else pos + n * 12) pos).

(** aya/src/programs/uprobe.rs:1379-1393 [LdSoCache::resolve]. *)
Definition cache_matches (lib key : list Z) : bool :=
  match strip_prefix lib key with Some suffix => starts_with dot_so suffix | None => false end.
Definition cache_resolve (l : list centry) (lib : list Z) : option (list Z) :=
  match find (fun e => cache_matches (stem lib) (ce_key e)) l with Some e => Some (ce_value e) | None => None end.

(** * Targets *)

Inductive target_error := TProcMap | TCache | TInvalid.

(** aya/src/programs/uprobe.rs:663-699 [is_basename_only],
    [resolve_attach_target_basename]; [maps]: the contents of /proc/pid/maps if
    a process is given; [cache]: the parsed cache. *)
Definition is_basename (target : list Z) : bool := match file_name target with Some f => str_eqb f target | None => false end.
Definition resolve_basename (target : list Z) (maps : option (list Z)) (cache : res cerr (list centry)) : res target_error (list Z) :=
  let from_cache :=
    match cache with
    | Err _ => Err TCache
    | Ok c => match cache_resolve c target with Some p => Ok p | None => Err TInvalid end
    end in
  match maps with
  | None => from_cache
  | Some data =>
      match find_library data target with
      | None => Err TProcMap
      | Some (Some p) => Ok p
      | Some None => from_cache
      end
  end.
Definition resolve_target (target : list Z) (maps : option (list Z)) (cache : res cerr (list centry)) : res target_error (list Z) :=
  if is_basename target then resolve_basename target maps cache else Ok target.
