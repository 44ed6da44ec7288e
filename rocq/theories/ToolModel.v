(** The binding generator for users: /repo/aya-tool/src.

    Simplifications: the temporary directory is a new path with nothing in it;
    what a run of a program does is a function of its arguments and the files;
    writing to the temporary file and to standard output works. *)
From Coq Require Import String.
From Verif Require Import Base Text TextSplit LogModel.
Local Open Scope Z_scope.

Notation str := (list Z).

(** * Arguments (generate.rs 103-140) *)

Fixpoint position (x : str) (l : list str) : option nat :=
  match l with [] => None | y :: l => if str_eqb y x then Some 0%nat else match position x l with Some n => Some (S n) | None => None end end.

(** generate.rs 103-116. *)
Definition extract_ctypes_prefix (s : list str) : list str * option str :=
  match position (txt "--ctypes-prefix") s with
  | Some i => if (i <? length s - 1)%nat then (firstn i s ++ skipn (i + 2) s, nth_error s (i + 1)) else (s, None)
  | None => (s, None)
  end.

(** [splitn(2, ..)]: what is before the first "--", and what is after it. *)
Fixpoint split2 (l : list str) : list str * option (list str) :=
  match l with
  | [] => ([], None)
  | x :: l => if str_eqb x (txt "--") then ([], Some l) else let '(a, b) := split2 l in (x :: a, b)
  end.
(** generate.rs 118-140. *)
Definition combine_flags (s1 s2 : list str) : list str :=
  let '(f1, e1) := split2 s1 in
  let '(f2, e2) := split2 s2 in
  let extra := (match e1 with Some e => e | None => [] end) ++ (match e2 with Some e => e | None => [] end) in
  f1 ++ f2 ++ match extra with [] => [] | _ => txt "--" :: extra end.

(** * The builder (bindgen.rs) *)

Record builder := { b_core : bool; b_layout_tests : bool; b_comments : bool; b_enum_names : bool; b_macro_fallback : bool; b_ctypes : option str;
  b_clang : list str; b_enums : str; b_types : list str }.
(** bindgen.rs 3-10, over bindgen's defaults. *)
Definition common_builder : builder :=
  {| b_core := true; b_layout_tests := false; b_comments := false; b_enum_names := false; b_macro_fallback := true; b_ctypes := None; b_clang := []; b_enums := txt "consts"; b_types := [] |}.
(** bindgen.rs 18-23. *)
Definition bpf_builder : builder :=
  {| b_core := true; b_layout_tests := false; b_comments := false; b_enum_names := false; b_macro_fallback := true; b_ctypes := Some (txt "::aya_ebpf::cty");
     b_clang := [txt "-Wno-unknown-attributes"]; b_enums := txt "moduleconsts"; b_types := [] |}.
Definition with_prefix (p : str) (b : builder) : builder :=
  {| b_core := b_core b; b_layout_tests := b_layout_tests b; b_comments := b_comments b; b_enum_names := b_enum_names b; b_macro_fallback := b_macro_fallback b; b_ctypes := Some p;
     b_clang := b_clang b; b_enums := b_enums b; b_types := b_types b |}.
Definition with_type (t : str) (b : builder) : builder :=
  {| b_core := b_core b; b_layout_tests := b_layout_tests b; b_comments := b_comments b; b_enum_names := b_enum_names b; b_macro_fallback := b_macro_fallback b; b_ctypes := b_ctypes b;
     b_clang := b_clang b; b_enums := b_enums b; b_types := b_types b ++ [t] |}.

(** bindgen's command_line_flags (an assumption: the options that differ from
    the defaults, then "--" and the arguments for clang if there are any; the
    order among the options is of no consequence). *)
Definition command_line_flags (b : builder) : list str :=
  (if str_eqb (b_enums b) (txt "consts") then [] else [txt "--default-enum-style"; b_enums b]) ++
  (if b_layout_tests b then [] else [txt "--no-layout-tests"]) ++ (if b_comments b then [] else [txt "--no-doc-comments"]) ++
  (if b_core b then [txt "--use-core"] else []) ++ (if b_enum_names b then [] else [txt "--no-prepend-enum-name"]) ++
  (match b_ctypes b with Some p => [txt "--ctypes-prefix"; p] | None => [] end) ++ (if b_macro_fallback b then [txt "--clang-macro-fallback"] else []) ++
  flat_map (fun t => [txt "--allowlist-type"; t]) (b_types b) ++
  (match b_clang b with [] => [] | l => txt "--" :: l end).

(** * Running (generate.rs 29-101) *)

Definition files := str -> option str.
Record output := { o_success : bool; o_stdout : str }.
(** [m_run]: a program, its arguments and the files there are; none when it
    cannot be started. [m_temp]: the temporary directory. *)
Record machine := { m_files : files; m_run : str -> list str -> files -> option output; m_temp : str }.

Inductive input := Btf (path : str) | Header (path : str).
Inductive terr := EBpfTool | EBpfToolExit (o : output) | EBindgen | EBindgenExit (o : output) | EReadHeader | EPanic.

(** generate.rs 85-101. *)
Definition c_header_from_btf (M : machine) (path : str) : res terr str :=
  match m_run M (txt "bpftool") [txt "btf"; txt "dump"; txt "file"; path; txt "format"; txt "c"] (m_files M) with
  | None => Err EBpfTool
  | Some o => if negb (o_success o) then Err (EBpfToolExit o) else if utf8 (o_stdout o) then Ok (o_stdout o) else Err EPanic
  end.

(** [Path::file_name] (of paths without trailing slashes): what follows the last
    slash, unless it is "..". *)
Definition file_name (p : str) : option str :=
  match rev (split_at 47 p) with n :: _ => if str_eqb n (txt "..") || str_eqb n [] then None else Some n | [] => None end.

(** generate.rs 29-83. *)
Definition generate (M : machine) (i : input) (types flags : list str) : res terr str :=
  let '(flags, prefix) := extract_ctypes_prefix flags in
  let b := match prefix with Some p => with_prefix p bpf_builder | None => bpf_builder end in
  let b := fold_left (fun b t => with_type t b) types b in
  bind (match i with
        | Btf path => bind (c_header_from_btf M path) (fun h => Ok (h, txt "kernel_types.h"))
        | Header h =>
            match m_files M h with
            | None => Err EReadHeader
            | Some c => if negb (utf8 c) then Err EReadHeader else match file_name h with Some n => if utf8 n then Ok (c, n) else Err EPanic | None => Err EPanic end
            end
        end)
  (fun hn =>
    let file_path := m_temp M ++ 47 :: snd hn in
    let f : files := fun p => if str_eqb p file_path then Some (fst hn) else m_files M p in
    match m_run M (txt "bindgen") (file_path :: combine_flags (command_line_flags b) flags) f with
    | None => Err EBindgen
    | Some o => if negb (o_success o) then Err (EBindgenExit o) else if utf8 (o_stdout o) then Ok (o_stdout o) else Err EPanic
    end).

(** bin/aya-tool.rs 35-55: what is written to standard output. *)
Definition tool (M : machine) (btf : option str) (header : option str) (names args : list str) : res terr str :=
  match header with
  | Some h => generate M (Header h) names args
  | None => generate M (Btf (match btf with Some b => b | None => txt "/sys/kernel/btf/vmlinux" end)) names args
  end.
