(** The initial file system of the test machine: [CpioArchiveBuilder] and its use,
    /repo/xtask/src/run.rs 146-325 and 520-640.

    Simplifications: writing to the archive works; a file is what [fs::metadata] says
    of its length and what is read from it; the list of a directory has been read;
    names given to [Path::join] are relative. *)
From Coq Require Import String.
From Verif Require Import Base Text TextParse LogModel TextSplit.
Local Open Scope Z_scope.

Notation str := (list Z).
Record source := { s_meta : option Z; s_data : option str }.
Inductive cerr := ENameTooLong | EMetadata | EFileTooLong | EOpen | EMismatch | ETooMany | EClock | ECopy.

(** [{:08x}]. *)
Definition hex8 (x : Z) : str := let s := show_hex false x in repeat 48 (8 - length s) ++ s.
(** run.rs 208-214. *)
Definition padding (len : Z) : str := repeat 0 (Z.to_nat ((4 - len mod 4) mod 4)).

(** run.rs 150, 162. *)
Definition newc_magic : str := txt "070701".
Definition newc_header_len : Z := 6 + 13 * 8.

(** The arguments of [append] but the time. *)
Record call := { c_name : str; c_type : Z; c_mode : Z; c_source : option source; c_nlink : Z }.
Record builder := { b_inode : Z; b_out : str }.
(** run.rs 191-196. *)
Definition new_builder : builder := {| b_inode := 0; b_out := [] |}.

(** run.rs 233-242. *)
Definition file_size (s : option source) : res cerr Z :=
  match s with
  | None => Ok 0
  | Some s => match s_meta s with None => Err EMetadata | Some n => if n <? 2 ^ 32 then Ok n else Err EFileTooLong end
  end.
(** run.rs 266-279. *)
Definition body (s : option source) (size : Z) : res cerr str :=
  match s with
  | None => Ok []
  | Some s =>
      match s_data s with
      | None => Err EOpen
      | Some d => let copied := Z.of_nat (length d) in if copied =? size then Ok (d ++ padding copied) else Err EMismatch
      end
  end.
(** run.rs 243-265. *)
Definition header (ino mode nlink mtime size name_len : Z) : str :=
  newc_magic ++ hex8 ino ++ hex8 mode ++ hex8 0 ++ hex8 0 ++ hex8 nlink ++ hex8 mtime ++ hex8 size ++ hex8 0 ++ hex8 0 ++ hex8 0 ++ hex8 0
    ++ hex8 name_len ++ hex8 0.
(** run.rs 201-290. *)
Definition append (b : builder) (c : call) (mtime : Z) : res cerr builder :=
  let name_len := Z.of_nat (length (c_name c)) + 1 in
  if negb (name_len <? 2 ^ 32) then Err ENameTooLong
  else
    bind (file_size (c_source c)) (fun size =>
      bind (body (c_source c) size) (fun data =>
        if b_inode b + 1 <? 2 ^ 32 then
          Ok {| b_inode := b_inode b + 1;
                b_out := b_out b ++ header (b_inode b) (Z.lor (c_type c) (c_mode c)) (c_nlink c) mtime size name_len
                  ++ c_name c ++ [0] ++ padding (newc_header_len + name_len) ++ data |}
        else Err ETooMany)).

(** run.rs 292-325. *)
Definition s_ifdir : Z := 16384.
Definition s_ifreg : Z := 32768.
Definition dir_call (name : str) (mode : Z) : call := {| c_name := name; c_type := s_ifdir; c_mode := mode; c_source := None; c_nlink := 2 |}.
Definition file_call (name : str) (s : source) (mode : Z) : call := {| c_name := name; c_type := s_ifreg; c_mode := mode; c_source := Some s; c_nlink := 1 |}.
Definition trailer_call : call := {| c_name := txt "TRAILER!!!"; c_type := 0; c_mode := 0; c_source := None; c_nlink := 1 |}.

Fixpoint append_all (b : builder) (l : list call) (mtime : Z) : res cerr builder :=
  match l with [] => Ok b | c :: l => bind (append b c mtime) (fun b => append_all b l mtime) end.

(** * The contents *)

Inductive wkind := KDir | KFile | KOther.
(** What [WalkDir] gives: the components below the directory walked. *)
Record wentry := { w_rel : list str; w_kind : wkind; w_source : source }.
Record input := {
  i_config_name : option str; i_config : source;
  i_map_name : option str; i_map : source;
  i_distro : list (str * source);
  i_modules : list wentry;
  i_binaries : list (str * list (str * source))
}.

(** run.rs 545-549. *)
Definition regular_mode : Z := Z.lor (Z.lor (Z.lor 256 128) 32) 4.
Definition executable_mode : Z := Z.lor (Z.lor (Z.lor (Z.lor 448 32) 8) 4) 1.
(** [Path::join] with a name that may be empty. *)
Definition path_join (a b : str) : str := a ++ [47] ++ b.
(** run.rs 550-582. *)
Definition first_calls (i : input) : list call :=
  [dir_call (txt "bin") executable_mode; dir_call (txt "boot") executable_mode;
   file_call (txt "boot/config") (i_config i) regular_mode; file_call (txt "boot/System.map") (i_map i) regular_mode;
   dir_call (txt "lib") executable_mode; dir_call (txt "sbin") executable_mode]
  ++ match i_config_name i with Some n => [file_call (path_join (txt "boot") n) (i_config i) regular_mode] | None => [] end
  ++ match i_map_name i with Some n => [file_call (path_join (txt "boot") n) (i_map i) regular_mode] | None => [] end
  ++ map (fun '(n, s) => file_call (if str_eqb n (txt "init") then txt "init" else path_join (txt "sbin") n) s executable_mode) (i_distro i).
(** run.rs 601-626; the directory is walked after depmod. *)
Definition module_calls (i : input) : list call :=
  flat_map (fun w =>
    let out := path_join (txt "lib/modules") (join 47 (w_rel w)) in
    match w_kind w with
    | KDir => [dir_call out executable_mode]
    | KFile => [file_call out (w_source w) regular_mode]
    | KOther => []
    end) (i_modules i).
(** run.rs 628-638: each is copied first. *)
Definition copied (s : source) : res cerr source :=
  match s_data s with None => Err ECopy | Some d => Ok {| s_meta := Some (Z.of_nat (length d)); s_data := Some d |} end.
Fixpoint append_binaries (b : builder) (l : list (str * source)) (mtime : Z) : res cerr builder :=
  match l with
  | [] => Ok b
  | (n, s) :: l => bind (copied s) (fun s => bind (append b (file_call (path_join (txt "bin") n) s executable_mode) mtime) (fun b => append_binaries b l mtime))
  end.
Definition binary_names (i : input) : list (str * source) :=
  flat_map (fun '(profile, l) => map (fun '(n, s) => (profile ++ [45] ++ n, s)) l) (i_binaries i).
(** run.rs 540-643; [now]: seconds since 1970. *)
Definition initramfs (i : input) (now : Z) : res cerr str :=
  if negb (now <? 2 ^ 32) then Err EClock
  else
    bind (append_all new_builder (first_calls i ++ module_calls i) now) (fun b =>
      bind (append_binaries b (binary_names i) now) (fun b =>
        bind (append b trailer_call 0) (fun b => Ok (b_out b)))).
