(** What parsing an ELF file should yield. *)
From Coq Require Import String Permutation.
From Verif Require Import Base Text Insn LinkModel BtfTypes BtfModel BtfExt ExternModel ObjModel ObjSpec WholeModel WholeSpec LoaderModel LoaderSpec ParseModel.
Local Open Scope Z_scope.

(** The first section of a name. *)
Definition first_named (e : elf) (n : list Z) (s : osec) : Prop :=
  exists a b, el_secs e = a ++ s :: b /\ os_name s = n /\ Forall (fun x => os_name x <> n) a.
Definition none_named (e : elf) (n : list Z) : Prop := Forall (fun x => os_name x <> n) (el_secs e).

Definition license_is (e : elf) (l : list Z) : Prop :=
  (exists s, first_named e (txt "license") s /\ parse_license (os_data s) = Ok l) \/ (none_named e (txt "license") /\ l = txt "GPL").
Definition version_is (e : elf) (v : option Z) : Prop :=
  (exists s, first_named e (txt "version") s /\ parse_version (el_big e) (os_data s) = Ok v) \/ (none_named e (txt "version") /\ v = None).
Definition symbols_named (e : elf) : Prop := forall s, In s (el_syms e) -> s_name (es_sym s) <> None.

(** Symbol number [i], and that it lies in section [sec]. *)
Definition symbol_is (e : elf) (i : nat) (s : symbol) : Prop := exists x, nth_error (el_syms e) i = Some x /\ es_sym x = s.
Definition lies_in (e : elf) (sec : osec) (i : nat) (s : symbol) : Prop := symbol_is e i s /\ s_section s = Some (os_index sec).

(** What a section is. *)
Definition kind_is (sec : osec) (k : skind) : Prop := section_kind (os_name sec) (os_exec sec) (os_size sec) = k.
Definition of_object (e : elf) (sec : osec) : Prop := In sec (el_secs e) /\ os_name sec <> txt ".BTF" /\ os_name sec <> txt ".BTF.ext".

(** * BTF *)
(** The BTF [b] as it is in the file, with the records [x]. *)
Definition btf_read (e : elf) (b : btf) (x : option ext) : Prop :=
  (exists s, first_named e (txt ".BTF") s /\ btf_parse (os_data s) = Ok b) /\
  ((exists s y, first_named e (txt ".BTF.ext") s /\ ext_parse b (el_big e) (os_data s) = Ok y /\ x = Some y) \/
   (none_named e (txt ".BTF.ext") /\ x = None)).
Definition ext_is (e : elf) (x : option ext) : Prop := (none_named e (txt ".BTF") /\ x = None) \/ exists b, btf_read e b x.
(** * Tables: the last entry of a key counts *)
Definition last_of {K V} (l : list (K * V)) (k : K) (v : V) : Prop := exists a b, l = a ++ (k, v) :: b /\ ~ In k (map fst b).

(** Data section number [i] of [b] is the first called .ksyms. *)
Definition ksyms_at (b : btf) (i : nat) (es : list dsentry) : Prop :=
  (exists h, nth_error (b_types b) i = Some (TDataSec h es) /\ string_at b (h_name h) = Ok (txt ".ksyms")) /\
  forall j h es', (j < i)%nat -> nth_error (b_types b) j = Some (TDataSec h es') -> exists n, string_at b (h_name h) = Ok n /\ n <> txt ".ksyms".
Definition no_ksyms (b : btf) : Prop :=
  forall h es, In (TDataSec h es) (b_types b) -> exists n, string_at b (h_name h) = Ok n /\ n <> txt ".ksyms".
(** Some of the entries are functions. *)
Definition functions_in (b : btf) (es : list dsentry) : Prop := exists x h, In x es /\ type_by_id (b_types b) (de_type x) = Ok (TFunc h).
(** [b'] is [b] with a variable, number [id], that stands for functions: an int
    of four bytes. *)
Definition with_placeholder (b b' : btf) (id : Z) : Prop :=
  exists s m h hi w, b_strings b' = b_strings b ++ s /\ b_types b' = b_types b ++ m /\
    type_by_id (b_types b') id = Ok (TVar h 1) /\ Z.of_nat (length (b_types b)) <= id /\
    firstn 22 (skipn (Z.to_nat (h_name h)) (b_strings b')) = txt "ksym_func_placeholder" ++ [0] /\
    type_by_id (b_types b') (h_third h) = Ok (TInt hi w) /\ h_third hi = 4.
(** The kernel symbol an entry stands for: a variable or function with the
    weakness of its symbol; variables of type void have no type. *)
Definition symbol_called (e : elf) (n : name) (s : symbol) : Prop := exists i, symbol_is e i s /\ s_name s = Some n.
Definition extern_entry (e : elf) (b : btf) (x : dsentry) (n : name) (d : xdesc) : Prop :=
  exists h f s r, (type_by_id (b_types b) (de_type x) = Ok (TFunc h) /\ f = true \/ exists l, type_by_id (b_types b) (de_type x) = Ok (TVar h l) /\ f = false) /\
    string_at b (h_name h) = Ok n /\ symbol_called e n s /\ resolve_type (b_types b) (h_third h) = Ok r /\
    d = new_desc n (de_type x) (s_weak s) (if f then Some r else if r =? 0 then None else Some r).
Definition file_small (b : btf) : Prop := Z.of_nat (length (b_strings b)) < 2 ^ 31 /\ Z.of_nat (length (b_types b)) < 2 ^ 31.

(** The BTF of the object, its kernel symbols, their section and placeholder. *)
Inductive types_are (e : elf) (o : pobj) : Prop :=
| types_none : none_named e (txt ".BTF") -> p_btf o = None -> p_externs o = [] -> p_ksyms o = None -> p_relos o = [] -> types_are e o
| types_plain b x : btf_read e b x -> no_ksyms b -> p_btf o = Some b -> p_externs o = [] -> p_ksyms o = None ->
    p_relos o = match x with Some x => x_relos x | None => [] end -> types_are e o
| types_ksyms b x i es b' place l : btf_read e b x -> ksyms_at b i es ->
    (~ functions_in b es /\ b' = b /\ place = None \/ functions_in b es /\ exists id, place = Some id /\ (file_small b -> with_placeholder b b' id)) ->
    Forall2 (fun y nd => extern_entry e b' y (fst nd) (snd nd)) es l ->
    p_btf o = Some b' -> NoDup (map fst (p_externs o)) -> (forall n d, In (n, d) (p_externs o) <-> last_of l n d) ->
    p_ksyms o = (match es with [] => None | _ => Some (Z.of_nat i, place) end) ->
    p_relos o = match x with Some x => x_relos x | None => [] end -> types_are e o.

(** * Programs and functions *)
(** The program symbols of a file: named function symbols of its program
    sections. *)
Definition program_symbol (e : elf) (sec : osec) (p : psec) (i : nat) (s : symbol) : Prop :=
  of_object e sec /\ kind_is sec KProgram /\ parse_psec (os_name sec) = Ok p /\ lies_in e sec i s /\ is_prog_sym s = true.
(** ... and their programs. *)
Definition the_program (sec : osec) (k : psec) (s : symbol) (n : name) : program :=
  {| pg_name := n; pg_sec := k; pg_index := os_index sec; pg_addr := s_address s |}.
(** Function [f] holds the [size] bytes of [sec] at [off]. *)
Definition code_at (sec : osec) (off size : Z) (f : func) : Prop :=
  0 <= off /\ off + size <= Z.of_nat (length (os_data sec)) /\ size = 8 * Z.of_nat (length (f_ins f)) /\
  copy_instructions (slice (Z.to_nat off) (Z.to_nat size) (os_data sec)) = Ok (f_ins f) /\
  f_sec f = os_index sec /\ f_secoff f = off.
(** The records .BTF.ext has for the section: of several entries the last. *)
Definition records_for {A} (l : list (list Z * (Z * list A))) (n : list Z) : list A :=
  match find (fun x => str_eqb (fst x) n) (rev l) with Some x => snd (snd x) | None => [] end.
Definition func_records (x : option ext) (n : list Z) : list (Z * Z) :=
  match x with Some x => map (fun f => (fi_insn f, fi_type f)) (records_for (x_funcs x) n) | None => [] end.
Definition line_records (x : option ext) (n : list Z) : list (Z * Z) :=
  match x with Some x => map (fun l => (li_insn l, li_line l)) (records_for (x_lines x) n) | None => [] end.
(** The function of symbol [s].  [start]: records are relative to it. *)
Definition function_of (x : option ext) (sec : osec) (s : symbol) (start : bool) (f : func) : Prop :=
  code_at sec (s_address s) (s_size s) f /\ f_addr f = s_address s /\
  f_finfo f = pick_finfo (func_records x (os_name sec)) (s_address s) start /\
  f_linfo f = pick_linfo (line_records x (os_name sec)) (s_address s) (s_size s) start.
(** Functions of .text come from symbols. *)
Definition text_symbol (e : elf) (sec : osec) (i : nat) (s : symbol) : Prop :=
  of_object e sec /\ kind_is sec KTextS /\ lies_in e sec i s /\ s_def s = true /\ s_kind s = KText.

(** Relocatable ELF files: sections have numbers and no address, addresses and
    sizes of symbols are 64-bit words, program symbols do not share a name or an
    address. *)
Record regular (e : elf) : Prop := {
  rg_index : NoDup (map os_index (el_secs e));
  rg_zero : forall sec, In sec (el_secs e) -> os_address sec = 0;
  rg_words : forall s, In s (el_syms e) -> sym_ok (es_sym s);
  rg_size : forall sec, In sec (el_secs e) -> Z.of_nat (length (os_data sec)) < 2 ^ 64;
  rg_names : forall sec p i s sec' p' j s', program_symbol e sec p i s -> program_symbol e sec' p' j s' -> s_name s = s_name s' -> i = j;
  rg_addrs : forall sec p i s j s', program_symbol e sec p i s -> program_symbol e sec p j s' -> s_address s = s_address s' -> i = j }.

(** * Maps *)
(** The map [m] called [n] is defined by section [sec]. *)
Inductive defines (e : elf) (b : option btf) (sec : osec) (n : name) (m : omap) : Prop :=
(* variables *)
| def_data k : kind_is sec k -> k = KDataS \/ k = KRodata \/ k = KBss -> data_map sec k = Ok m -> n = os_name sec -> defines e b sec n m
(* a structure in the section maps *)
| def_legacy i s d : kind_is sec KMaps -> lies_in e sec i s -> s_name s = Some n ->
    0 <= s_address s -> s_address s + s_size s <= Z.of_nat (length (os_data sec)) ->
    parse_map_def (slice (Z.to_nat (s_address s)) (Z.to_nat (s_size s)) (os_data sec)) = Ok d ->
    m = {| om_btf := false; om_kind := KMaps; om_section := os_index sec; om_symbol := Some i; om_def := d; om_inner := None; om_data := [] |} ->
    defines e b sec n m
(* a variable of the BTF data section of the same name *)
| def_btf t h es x i s d : kind_is sec KBtfMaps -> b = Some t -> In (TDataSec h es) (b_types t) -> string_at t (h_name h) = Ok (os_name sec) -> In x es ->
    btf_map_def t x = Ok (n, d) -> lies_in e sec i s -> s_name s = Some n ->
    (forall j s', lies_in e sec j s' -> s_name s' = Some n -> (j <= i)%nat) ->
    m = {| om_btf := true; om_kind := KBtfMaps; om_section := os_index sec; om_symbol := Some i; om_def := fst d; om_inner := snd d; om_data := [] |} ->
    defines e b sec n m.
Definition maps_distinct (e : elf) (b : option btf) : Prop :=
  forall sec n m sec' m', of_object e sec -> of_object e sec' -> defines e b sec n m -> defines e b sec' n m' -> m = m'.

(** * Variables *)
(** Global symbols and data symbols have an offset. *)
Definition variable_at (e : elf) (n : name) (a : Z) : Prop :=
  exists s, In s (el_syms e) /\ s_name (es_sym s) = Some n /\ (es_global s = true \/ s_kind (es_sym s) = KData) /\ a = s_address (es_sym s).

(** * The order of sections *)
Definition same_members {A} (l l' : list A) : Prop := forall x, In x l <-> In x l'.
Record same_object (o o' : pobj) : Prop := {
  so_big : p_big o' = p_big o; so_btf : p_btf o' = p_btf o; so_relos : p_relos o' = p_relos o; so_externs : p_externs o' = p_externs o;
  so_ksyms : p_ksyms o' = p_ksyms o; so_progs : same_members (p_progs o) (p_progs o'); so_funs : same_members (p_funs o) (p_funs o');
  so_maps : same_members (p_maps o) (p_maps o'); so_relocs : forall i, p_relocs o' i = p_relocs o i; so_syms : p_syms o' = p_syms o;
  so_infos : same_members (p_infos o) (p_infos o'); so_offsets : p_offsets o' = p_offsets o }.

(** * What is accepted *)
Definition any_symbol (e : elf) (sec : osec) : Prop := exists i s, lies_in e sec i s.
Inductive section_ok (e : elf) (b : option btf) (sec : osec) : Prop :=
| ok_other k : kind_is sec k -> k = KUndefined \/ k = KLicense \/ k = KVersion \/ k = KBtf \/ k = KBtfExt -> section_ok e b sec
| ok_data k : kind_is sec k -> k = KDataS \/ k = KRodata \/ k = KBss -> section_ok e b sec
(* functions one after the other up to the end, at different addresses *)
| ok_text l : kind_is sec KTextS -> (forall s, In s l <-> exists i, text_symbol e sec i s) ->
    (forall i s j s', text_symbol e sec i s -> text_symbol e sec j s' -> s_address s = s_address s' -> i = j) ->
    chain sec l 0 (Z.of_nat (length (os_data sec))) -> section_ok e b sec
(* a known name and programs of whole instructions *)
| ok_program p : kind_is sec KProgram -> parse_psec (os_name sec) = Ok p -> any_symbol e sec ->
    (forall i s, program_symbol e sec p i s -> s_address s + s_size s <= Z.of_nat (length (os_data sec)) /\ s_size s mod 8 = 0) -> section_ok e b sec
(* a definition for each symbol *)
| ok_maps : kind_is sec KMaps -> any_symbol e sec ->
    (forall i s, lies_in e sec i s -> s_name s <> None /\ s_address s + s_size s <= Z.of_nat (length (os_data sec)) /\
       exists d, parse_map_def (slice (Z.to_nat (s_address s)) (Z.to_nat (s_size s)) (os_data sec)) = Ok d) -> section_ok e b sec
(* a symbol for each definition *)
| ok_btf t : kind_is sec KBtfMaps -> b = Some t -> any_symbol e sec ->
    (forall h es, In (TDataSec h es) (b_types t) -> exists n, string_at t (h_name h) = Ok n /\
       (n = os_name sec -> forall x, In x es -> exists m d i s, btf_map_def t x = Ok (m, d) /\ lies_in e sec i s /\ s_name s = Some m)) -> section_ok e b sec.

(** The same file with its sections in another order. *)
Definition reordered (e e' : elf) : Prop := el_big e' = el_big e /\ el_syms e' = el_syms e /\ Permutation (el_secs e) (el_secs e').

(** * Loading a file *)
(** What has to be known of the instructions to be sure of the code of a
    program, see [WholeSpec.well_formed]. *)
Record compiled (o : WholeModel.object) : Prop := {
  cm_funs : forall r sym sec f k, In f (ob_funs o) -> attached o f k r -> data_ref o r sym sec -> s_kind sym <> KText;
  cm_loads : forall f k x r sym sec, In f (ob_funs o) -> attached o f k r -> data_ref o r sym sec -> nth_error (f_ins f) k = Some x -> Insn.code x = 24;
  cm_pairs : forall f k x, In f (ob_funs o) -> nth_error (f_ins f) k = Some x -> Insn.code x = 24 ->
    exists z, nth_error (f_ins f) (S k) = Some z /\ Insn.code z = 0 /\ forall r, ~ attached o f (S k) r;
  cm_next : forall sec r r' sym s, In r (ob_relocs o sec) -> In r' (ob_relocs o sec) -> data_ref o r sym s -> r_offset r' <> r_offset r + 8;
  cm_few : forall sec r, In r (ob_relocs o sec) -> Z.of_nat (r_sym r) < 145483648 }.
(** The programs of the loaded object are the functions of the object [o2] and
    what they need, whole. *)
Definition programs_complete (k : kernel) (o2 : pobj) (a : ebpf) : Prop :=
  let o := code_of_object o2 in
  compiled o -> kernel_known o -> separate o (is_code o) ->
  forall x, In x (e_progs a) -> Z.of_nat (length (f_ins (ld_fun x))) < 2 ^ 31 ->
    exists f, entry_of o (ld_prog x) f /\ complete o (is_code o) (map told (map fst (e_maps a))) (k_probe k) f (f_ins (ld_fun x)).
(** CO-RE relocation changes instructions only. *)
Definition framed (f g : func) : Prop :=
  f_sec g = f_sec f /\ f_addr g = f_addr f /\ f_secoff g = f_secoff f /\ f_finfo g = f_finfo f /\ f_linfo g = f_linfo f /\ length (f_ins g) = length (f_ins f).
