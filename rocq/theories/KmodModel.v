(** The kernel modules of the test machine: /repo/test-distro/src/depmod.rs,
    modprobe.rs and lib.rs.

    Simplifications: a directory is the list of what is below it, in the order in
    which it is walked; decompression and the reading of ELF files are functions;
    writing modules.alias works; module names contain no characters special in
    glob patterns; standard output is left out. *)
From Coq Require Import String.
From Verif Require Import Base Text TextParse TextSplit LogModel.
Local Open Scope Z_scope.

Notation str := (list Z).
Inductive compression := CNone | CXz | CZstd.
(** [e_path]: the components below the directory; [e_file]: a regular file. *)
Record entry := { e_path : list str; e_file : bool; e_data : str }.
(** [v_unpack]: lib.rs 38-75 after opening; [v_sections]: the names and contents
    of sections as far as they can be read, nothing if the file is no object. *)
Record env := { v_unpack : compression -> str -> option str; v_sections : str -> option (list (option str * option str)) }.
Inductive kerr := ENoName | ENotUtf8 | ERead | EParse | ESectionName | ENoModinfo | ESectionData | EModinfoUtf8
  | EOpenAlias | EAliasUtf8 | ENoModule | EEmptyField | EAliasNotFound | EModuleNotFound | ENotElf | EExists (c : str) | ELoad (c : str) (e : Z)
  | EStat | EUname | ENotDir.

(** * Text *)

Definition strip_prefix (p s : str) : option str := if starts_with p s then Some (skipn (length p) s) else None.
Definition strip_suffix (p s : str) : option str := match strip_prefix (rev p) (rev s) with Some r => Some (rev r) | None => None end.
(** [str::split_once] and [str::rsplit_once] with a character. *)
Fixpoint once (x : Z) (s : str) : option (str * str) :=
  match s with
  | [] => None
  | c :: s => if c =? x then Some ([], s) else match once x s with Some (a, b) => Some (c :: a, b) | None => None end
  end.
Definition ronce (x : Z) (s : str) : option (str * str) := match once x (rev s) with Some (a, b) => Some (rev b, rev a) | None => None end.
(** [BufRead::lines]: the line feed goes, and a carriage return in front of it. *)
Definition strip_cr (cur : str) : str := match cur with c :: r => if c =? 13 then r else cur | [] => [] end.
Fixpoint buf_lines (cur : str) (s : str) : list str :=
  match s with
  | [] => match cur with [] => [] | _ => [rev cur] end
  | c :: s => if c =? 10 then rev (strip_cr cur) :: buf_lines [] s else buf_lines (c :: cur) s
  end.

(** * depmod *)

(** depmod.rs 55-66: the name of the module and how the file is compressed;
    nothing if it is not a module. *)
Definition module_of (name : str) : option (str * compression) :=
  let '(n, c) :=
    match ronce 46 name with
    | Some (a, b) => if str_eqb b (txt "xz") then (a, CXz) else if str_eqb b (txt "zst") then (a, CZstd) else (name, CNone)
    | None => (name, CNone)
    end in
  match strip_suffix (txt ".ko") n with Some m => Some (m, c) | None => None end.

(** depmod.rs 84-96: the first section of that name; names in front must be
    readable. *)
Fixpoint find_modinfo (l : list (option str * option str)) : res kerr (option str) :=
  match l with
  | [] => Err ENoModinfo
  | (None, _) :: _ => Err ESectionName
  | (Some n, d) :: l => if str_eqb n (txt ".modinfo") then Ok d else find_modinfo l
  end.
(** depmod.rs 104-109. *)
Definition modinfo_entries (data : str) : option (list str) :=
  let l := filter (fun e => match e with [] => false | _ => true end) (split_at 0 data) in
  if forallb utf8 l then Some l else None.
(** depmod.rs 111-122. *)
Definition write_aliases (data name : str) : option str :=
  match modinfo_entries data with
  | None => None
  | Some l => Some (flat_map (fun e => match strip_prefix (txt "alias=") e with Some a => txt "alias " ++ a ++ [32] ++ name ++ [10] | None => [] end) l)
  end.
(** depmod.rs 78-102. *)
Definition read_aliases (V : env) (contents name : str) : res kerr str :=
  match v_sections V contents with
  | None => Err EParse
  | Some l =>
      bind (find_modinfo l) (fun d =>
        match d with None => Err ESectionData | Some d => match write_aliases d name with Some o => Ok o | None => Err EModinfoUtf8 end end)
  end.
(** depmod.rs 41-75: what modules.alias then contains, and an error. *)
Fixpoint depmod (V : env) (tree : list entry) : str * option kerr :=
  match tree with
  | [] => ([], None)
  | e :: tree =>
      if negb (e_file e) then depmod V tree
      else
        match rev (e_path e) with
        | [] => ([], Some ENoName)
        | name :: _ =>
            if negb (utf8 name) then ([], Some ENotUtf8)
            else
              match module_of name with
              | None => depmod V tree
              | Some (m, c) =>
                  match v_unpack V c (e_data e) with
                  | None => ([], Some ERead)
                  | Some contents =>
                      match read_aliases V contents m with
                      | Err x => ([], Some x)
                      | Ok o => let '(rest, r) := depmod V tree in (o ++ rest, r)
                      end
                  end
              end
        end
  end.

(** * modprobe *)

(** modprobe.rs 114-127. *)
Definition parse_alias_line (line : str) : res kerr (option (str * str)) :=
  match strip_prefix (txt "alias ") line with
  | None => Ok None
  | Some l =>
      match ronce 32 l with
      | None => Err ENoModule
      | Some (a, m) => match a, m with [], _ | _, [] => Err EEmptyField | _, _ => Ok (Some (a, m)) end
      end
  end.
(** modprobe.rs 91-112. *)
Fixpoint resolve_lines (l : list str) (name : str) : res kerr str :=
  match l with
  | [] => Err EAliasNotFound
  | line :: l =>
      if negb (utf8 line) then Err EAliasUtf8
      else
        match parse_alias_line line with
        | Err e => Err e
        | Ok None => resolve_lines l name
        | Ok (Some (a, m)) => if str_eqb a name then Ok m else resolve_lines l name
        end
  end.
Definition resolve_alias (file : option str) (name : str) : res kerr str :=
  match file with None => Err EOpenAlias | Some f => resolve_lines (buf_lines [] f) name end.

(** modprobe.rs 46-57, "kernel/**/m.ko*": the matches of the pattern. *)
Definition matches (m : str) (e : entry) : bool :=
  match e_path e with
  | k :: rest => str_eqb k (txt "kernel") && match rev rest with n :: _ => starts_with (m ++ txt ".ko") n | [] => false end
  | [] => false
  end.
(** modprobe.rs 61-69: by the extension of the file name. *)
Definition compression_of (n : str) : compression :=
  match ronce 46 n with
  | Some ([], _) | None => CNone
  | Some (_, x) => if str_eqb x (txt "xz") then CXz else if str_eqb x (txt "zst") then CZstd else CNone
  end.
(** modprobe.rs 40-89; [sorted]: what is in the directory in the order of glob;
    [init_module]: 0 or an error number. *)
Definition try_main (V : env) (init_module : str -> Z) (file : option str) (sorted : list entry) (name : str) : res kerr str :=
  bind (resolve_alias file name) (fun m =>
    match find (matches m) sorted with
    | None => Err EModuleNotFound
    | Some e =>
        match (if e_file e then v_unpack V (compression_of (last (e_path e) [])) (e_data e) else None) with
        | None => Err ERead
        | Some c =>
            if negb (starts_with [127; 69; 76; 70] c) then Err ENotElf
            else let r := init_module c in if r =? 0 then Ok c else if r =? 17 then Err (EExists c) else Err (ELoad c r)
        end
    end).
(** modprobe.rs 34-38: whether the exit status is that of success. *)
Definition modprobe (V : env) (init_module : str -> Z) (file : option str) (sorted : list entry) (quiet : bool) (name : str) : bool :=
  if quiet then true else match try_main V init_module file sorted name with Ok _ => true | Err _ => false end.

(** lib.rs 16-36: [stat]: whether a path is a directory, nothing if there is no
    such path. *)
Definition resolve_modules_dir (stat : list str -> option bool) (release : option str) : res kerr (list str) :=
  let d := [txt "lib"; txt "modules"] in
  match stat d with
  | None => Err EStat
  | Some true => Ok d
  | Some false =>
      match release with
      | None => Err EUname
      | Some r => match stat (d ++ [r]) with None => Err EStat | Some true => Ok (d ++ [r]) | Some false => Err ENotDir end
      end
  end.
