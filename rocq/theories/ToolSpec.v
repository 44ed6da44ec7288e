(** What is expected of aya-tool. *)
From Coq Require Import String.
From Verif Require Import Base Text TextSplit LogModel ToolModel.
Local Open Scope Z_scope.

(** * bindgen's command line, as documented (an assumption) *)

(** What is for bindgen and what is for clang. *)
Definition splits (l before after : list str) : Prop :=
  ~ In (txt "--") before /\ (l = before ++ txt "--" :: after \/ (l = before /\ after = [])).

(** Options, those with a value apart. *)
Inductive opt := OFlag (name : str) | OValue (name value : str) | OPlain (arg : str).
Definition with_value (o : str) : bool := existsb (str_eqb o) [txt "--default-enum-style"; txt "--ctypes-prefix"; txt "--allowlist-type"; txt "--raw-line"; txt "--blocklist-type"].
Fixpoint opts (l : list str) : option (list opt) :=
  match l with
  | [] => Some []
  | o :: l =>
      if with_value o then match l with v :: l => option_map (cons (OValue o v)) (opts l) | [] => None end
      else option_map (cons (if starts_with (txt "--") o then OFlag o else OPlain o)) (opts l)
  end.
(** The values given to an option, as the next argument or after an equals sign. *)
Definition given (o : str) (l : list opt) : list str :=
  flat_map (fun x => match x with
    | OValue n v => if str_eqb n o then [v] else []
    | OFlag n => if starts_with (o ++ txt "=") n then [skipn (length o + 1) n] else []
    | OPlain _ => [] end) l.

(** What bindgen is to be asked for, whatever the user adds. *)
Definition wanted_flags : list opt := [OFlag (txt "--no-layout-tests"); OFlag (txt "--no-doc-comments"); OFlag (txt "--use-core"); OFlag (txt "--no-prepend-enum-name"); OFlag (txt "--clang-macro-fallback");
  OValue (txt "--default-enum-style") (txt "moduleconsts")].
Definition the_prefix : str := txt "::aya_ebpf::cty".

(** * The header *)

(** The C text meant: what bpftool dumps, or the file. *)
Definition header_of (M : machine) (i : input) (h : str) : Prop :=
  match i with
  | Btf p => exists o, m_run M (txt "bpftool") [txt "btf"; txt "dump"; txt "file"; p; txt "format"; txt "c"] (m_files M) = Some o /\ o_success o = true /\ o_stdout o = h
  | Header p => m_files M p = Some h
  end.
(** A path in a directory. *)
Definition in_dir (dir p : str) : Prop := exists n, p = dir ++ 47 :: n /\ ~ In 47 n.
(** Nothing is in the temporary directory. *)
Definition fresh_temp (M : machine) : Prop := forall p, in_dir (m_temp M) p -> m_files M p = None.

(** The command for bindgen, the file it reads and the files there are. *)
Definition asked (M : machine) (name h : str) (args : list str) : option output :=
  m_run M (txt "bindgen") ((m_temp M ++ 47 :: name) :: args) (fun p => if str_eqb p (m_temp M ++ 47 :: name) then Some h else m_files M p).

(** * What the user says *)

(** The prefix given as two arguments, the first such, and the rest. *)
Inductive prefix_given (flags : list str) : list str -> option str -> Prop :=
| PG_some a v b : flags = a ++ txt "--ctypes-prefix" :: v :: b -> ~ In (txt "--ctypes-prefix") a -> prefix_given flags (a ++ b) (Some v)
| PG_none : ~ In (txt "--ctypes-prefix") flags -> prefix_given flags flags None.

(** Whether bindgen was run, with the header in the file named first. *)
Definition ran_bindgen (M : machine) (i : input) (args : list str) (o : output) : Prop :=
  exists h name, header_of M i h /\ ~ In 47 name /\ (match i with Btf _ => name = txt "kernel_types.h" | Header p => p = name \/ exists d, p = d ++ 47 :: name end) /\
    asked M name h args = Some o.
Definition fails_as (M : machine) (i : input) (e : terr) : Prop :=
  match e with
  | EBpfTool => exists p, i = Btf p /\ m_run M (txt "bpftool") [txt "btf"; txt "dump"; txt "file"; p; txt "format"; txt "c"] (m_files M) = None
  | EBpfToolExit o => exists p, i = Btf p /\ m_run M (txt "bpftool") [txt "btf"; txt "dump"; txt "file"; p; txt "format"; txt "c"] (m_files M) = Some o /\ o_success o = false
  | EReadHeader => exists p, i = Header p /\ forall c, m_files M p = Some c -> utf8 c = false
  | EBindgen => exists h name args, header_of M i h /\ asked M name h args = None
  | EBindgenExit o => exists args, ran_bindgen M i args o /\ o_success o = false
  | EPanic => (exists h, header_of M i h /\ utf8 h = false) \/ (exists args o, ran_bindgen M i args o /\ utf8 (o_stdout o) = false) \/
      (exists p, i = Header p /\ forall d n, p = d ++ 47 :: n \/ p = n -> ~ In 47 n -> n = [] \/ n = txt ".." \/ utf8 n = false)
  end.
