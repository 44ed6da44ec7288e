(** The relocation of a whole object, as [EbpfLoader::load] does it once the
    maps exist: aya/src/bpf.rs:674-702, with [Object::relocate_maps],
    [relocate_externs] and [relocate_calls] of aya-obj/src/relocation.rs:134-234
    and [sanitize_functions] of aya-obj/src/obj.rs:859-871.

    The functions of an object are a list with distinct keys (a [BTreeMap]); the
    relocations of a section, the maps and the programs, which come out of hash
    maps, are lists in the order of iteration.  Names in errors are left out. *)
From Verif Require Import Base Insn PatchModel LinkModel BtfTypes ObjModel.
Local Open Scope Z_scope.

(** [Object], obj.rs:36-66, the parts relocation reads.  [ob_externs]: the
    kernel symbols after resolution, if the object has BTF. *)
Record object := {
  ob_funs : list func; ob_progs : list program; ob_relocs : nat -> list reloc; ob_syms : symtab;
  ob_externs : option (name -> option extern) }.

Inductive werr := WPatch (e : perr) | WLink (e : lerr) | WPanic.
Definition patching {A} (r : res perr A) : res werr A := match r with Ok a => Ok a | Err e => Err (WPatch e) end.
Definition linking {A} (r : res lerr A) : res werr A := match r with Ok a => Ok a | Err e => Err (WLink e) end.

(** bpf.rs:674-678: the sections that have functions. *)
Definition text_sections (fs : list func) (s : nat) : bool := existsb (fun f => Nat.eqb (f_sec f) s) fs.

Definition with_code (f : func) (ins : list insn) : func :=
  {| f_sec := f_sec f; f_addr := f_addr f; f_secoff := f_secoff f; f_ins := ins; f_finfo := f_finfo f; f_linfo := f_linfo f |}.

(** The loops over [functions.values_mut()], relocation.rs:148-163 and 182-195;
    a section without relocations has the empty list. *)
Definition each (stp : func -> res perr (list insn)) (fs : list func) : res perr (list func) :=
  mapM (fun f => bind (stp f) (fun ins => Ok (with_code f ins))) fs.
Definition maps_phase (o : object) (maps : list mapinfo) (text : nat -> bool) (fs : list func) : res perr (list func) :=
  each (fun f => relocate_maps (f_secoff f) maps (ob_syms o) text (ob_relocs o (f_sec f)) (f_ins f)) fs.
(** relocation.rs:169-172: nothing is done without BTF. *)
Definition externs_phase (o : object) (fs : list func) : res perr (list func) :=
  match ob_externs o with
  | None => Ok fs
  | Some xs => each (fun f => patch_externs (f_secoff f) xs (ob_syms o) (ob_relocs o (f_sec f)) (f_ins f)) fs
  end.

(** The nested hash map of relocations. *)
Definition reloc_at (o : object) (sec : nat) (off : Z) : option reloc := find (fun r => r_offset r =? off) (ob_relocs o sec).
Definition linkable (o : object) (text : nat -> bool) (fs : list func) : obj :=
  {| o_funs := fs; o_relocs := reloc_at o; o_syms := ob_syms o; o_text := text |}.
Definition prog_key (p : program) : nat * Z := (pg_index p, pg_addr p).

(** bpf.rs:674-691. *)
Definition relocate_object (o : object) (maps : list mapinfo) (probe : bool) : res werr (list func) :=
  let text := text_sections (ob_funs o) in
  bind (patching (maps_phase o maps text (ob_funs o))) (fun fs =>
  bind (patching (externs_phase o fs)) (fun fs =>
  bind (linking (relocate_calls (linkable o text fs) (map prog_key (ob_progs o)))) (fun fs =>
  Ok (fst (sanitize_functions probe fs))))).

(** bpf.rs:693-700: each program with its function; indexing the map of
    functions panics when there is none. *)
Definition pair_programs (ps : list program) (fs : list func) : res werr (list (program * func)) :=
  mapM (fun p => match lookup_fun fs (pg_index p) (pg_addr p) with Some f => Ok (p, f) | None => Err WPanic end) ps.
Definition finish (o : object) (maps : list mapinfo) (probe : bool) : res werr (list (program * func)) :=
  bind (relocate_object o maps probe) (pair_programs (ob_progs o)).
