(** The check of the public interfaces: /repo/xtask/src/public_api.rs.

    Simplifications: texts are lists of UTF-8 bytes and every file holds UTF-8;
    names of packages have no slash, so joining one to a directory appends it;
    the workspace is at the empty path, so paths are relative to it; errors keep
    the step at which they arose and not their text.  rustdoc, the crate
    public_api and the crate diff are not part of the repository: what the first
    two give for a package and a target is [m_api], how the third aligns two
    lists of lines is [m_align]. *)
From Coq Require Import String.
From Verif Require Import Base Text.
Local Open Scope Z_scope.

Notation str := (list Z).

(** [str::lines]: the pieces ended by a newline, without it and without one
    carriage return before it, and what is left after the last newline unless it
    is empty.  [cur] is the piece read so far, last byte first. *)
Definition drop_cr (cur : str) : str :=
  match cur with c :: r => if c =? 13 then r else cur | [] => [] end.
Fixpoint lines_from (cur s : str) : list str :=
  match s with
  | [] => match cur with [] => [] | _ => [rev cur] end
  | c :: s => if c =? 10 then rev (drop_cr cur) :: lines_from [] s else lines_from (c :: cur) s
  end.
Definition str_lines (s : str) : list str := lines_from [] s.

(** [s.as_bytes().last() == Some(b'\n')]. *)
Definition ends_nl (s : str) : bool :=
  match rev s with c :: _ => c =? 10 | [] => false end.

(** [diff::Result]. *)
Inductive change := Both (l r : str) | LeftOnly (l : str) | RightOnly (r : str).

(** [Package] of cargo_metadata: the name, the registries it may be published
    to, and for each target whether it is a procedural macro. *)
Record package := { p_name : str; p_publish : option (list str); p_macro : list bool }.

(** The files by path. *)
Definition disk := str -> option str.
Definition store (d : disk) (p t : str) : disk := fun q => if list_eq_dec Z.eq_dec q p then Some t else d q.

(** What the world answers.  A failed write leaves a part of the text. *)
Inductive asked := Unknown | Yes | No.
Record machine := {
  m_installed : asked;
  m_confirm : asked;
  m_install : bool;
  m_api : str -> option str -> option str;
  m_creates : str -> bool;
  m_writes : str -> option str;
  m_align : list str -> list str -> list change
}.

(** [diff::lines]: the alignment of the lines, and one more piece for a newline
    at the end. *)
Definition diff_lines (M : machine) (l r : str) : list change :=
  m_align M (str_lines l) (str_lines r) ++
  match ends_nl l, ends_nl r with
  | true, true => [Both [] []]
  | true, false => [LeftOnly []]
  | false, true => [RightOnly []]
  | false, false => []
  end.

(** public_api.rs 143-152. *)
Fixpoint show (cs : list change) : str :=
  match cs with
  | [] => []
  | Both _ _ :: cs => show cs
  | RightOnly l :: cs => (45 :: l ++ [10]) ++ show cs
  | LeftOnly l :: cs => (43 :: l ++ [10]) ++ show cs
  end.

(** [Path::with_extension] on a file name: what follows the last dot is
    replaced, unless there is no dot or only one at the start.  [split_dot]
    takes the name reversed. *)
Fixpoint split_dot (s : str) : option str :=
  match s with
  | [] => None
  | c :: s => if c =? 46 then Some s else split_dot s
  end.
Definition file_stem (name : str) : str :=
  match split_dot (rev name) with
  | Some (c :: s) => rev (c :: s)
  | _ => name
  end.
(** public_api.rs 105-109. *)
Definition api_path (name : str) : str := txt "xtask/public-api/" ++ file_stem name ++ txt ".txt".

Inductive step := SApi | SCreate | SWrite | SRead.
Inductive error := Failed (name : str) (s : step) | Changed (name diff : str).
Inductive outcome := Diff (d : str) | Stopped (s : step).

(** public_api.rs 98-153. *)
Definition read_and_compare (M : machine) (d : disk) (name api : str) : outcome :=
  match d (api_path name) with
  | None => Stopped SRead
  | Some cur => Diff (show (diff_lines M api cur))
  end.
Definition check_package (M : machine) (d : disk) (name : str) (target : option str) (bless : bool) : disk * outcome :=
  match m_api M name target with
  | None => (d, Stopped SApi)
  | Some api =>
      if bless then
        if m_creates M (api_path name) then
          match m_writes M (api_path name) with
          | Some part => (store d (api_path name) part, Stopped SWrite)
          | None =>
              let d := store d (api_path name) api in
              (d, read_and_compare M d name api)
          end
        else (d, Stopped SCreate)
      else (d, read_and_compare M d name api)
  end.

(** public_api.rs 56. *)
Definition skipped (p : package) : bool :=
  match p_publish p with Some [] => true | _ => false end.
(** public_api.rs 59-61. *)
Definition target_for (p : package) (target : option str) : option str :=
  if existsb (fun b => b) (p_macro p) then None else target.

(** public_api.rs 47-89: the errors in the order of the packages. *)
Definition one (M : machine) (bless : bool) (target : option str) (d : disk) (p : package) : disk * list error :=
  if skipped p then (d, [])
  else
    let '(d, o) := check_package M d (p_name p) (target_for p target) bless in
    (d, match o with
        | Stopped s => [Failed (p_name p) s]
        | Diff [] => []
        | Diff t => [Changed (p_name p) t]
        end).
Fixpoint each (M : machine) (bless : bool) (target : option str) (d : disk) (ps : list package) : disk * list error :=
  match ps with
  | [] => (d, [])
  | p :: ps =>
      let '(d, e) := one M bless target d p in
      let '(d, es) := each M bless target d ps in
      (d, e ++ es)
  end.

(** public_api.rs 26-96. *)
Inductive verdict := Fine | NoToolchain | Wrong (es : list error).
Definition toolchain (M : machine) : bool :=
  match m_installed M with
  | Unknown => false
  | Yes => true
  | No => match m_confirm M with Yes => m_install M | _ => false end
  end.
Definition public_api (M : machine) (bless : bool) (target : option str) (d : disk) (ps : list package) : disk * verdict :=
  if toolchain M then
    let '(d, es) := each M bless target d ps in
    (d, match es with [] => Fine | _ => Wrong es end)
  else (d, NoToolchain).

(** The members of the workspace, /repo/Cargo.toml 2-26, with the [publish] and
    [proc-macro] lines of their manifests. *)
Definition member (n : string) (pub mac : bool) : package :=
  {| p_name := bytes_of_string n; p_publish := if pub then None else Some []; p_macro := [mac] |}.
Definition workspace : list package :=
  [member "aya" true false; member "aya-build" true false; member "aya-log" true false;
   member "aya-log-common" true false; member "aya-log-parser" true false; member "aya-obj" true false;
   member "aya-tool" false false; member "ebpf-panic" false false; member "test-distro" false false;
   member "integration-common" false false; member "integration-test" false false; member "xtask" false false;
   member "aya-ebpf-macros" true true; member "aya-log-ebpf-macros" true true;
   member "aya-ebpf" true false; member "aya-ebpf-bindings" true false; member "aya-ebpf-cty" true false;
   member "aya-log-ebpf" true false; member "integration-ebpf" false false].
