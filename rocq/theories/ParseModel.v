(** [Object::parse]: aya-obj/src/obj.rs:408-500 and [parse_section] 805-857,
    from the sections and symbols of an ELF file to the parsed object.

    The parsers of the sections are those of [ObjModel], [BtfModel] and [BtfExt].

    Simplifications: the ELF reader (crate [object]) is not modelled; reading the
    names and the data of sections does not fail and relocations are against
    symbols; the list of symbols starts with the null symbol, number 0; hash maps
    are lists in the order of insertion; the payload of a line record is its line
    word.  A section's parser reads only what was there before the loop over the
    sections, so it is a function of that and what it inserts is its result. *)
From Coq Require Import String.
From Verif Require Import Base Text Insn LinkModel BtfTypes BtfModel BtfExt BtfSanitize ExternModel ObjModel LoaderModel.
Local Open Scope Z_scope.

(** A symbol and [is_global].  A name that is not UTF-8 is [None]. *)
Record esym := { es_sym : symbol; es_global : bool }.
Record elf := { el_big : bool; el_secs : list osec; el_syms : list esym }.
Definition syms (e : elf) : list symbol := map es_sym (el_syms e).
Definition numbered (e : elf) : list (nat * symbol) := combine (seq 0 (length (syms e))) (syms e).

(** [HashMap::insert]: replaces the value of a key. *)
Fixpoint put {K V} (eqb : K -> K -> bool) (k : K) (v : V) (l : list (K * V)) : list (K * V) :=
  match l with
  | [] => [(k, v)]
  | (k', v') :: l => if eqb k k' then (k, v) :: l else (k', v') :: put eqb k v l
  end.
Fixpoint puts {K V} (eqb : K -> K -> bool) (new l : list (K * V)) : list (K * V) :=
  match new with
  | [] => l
  | (k, v) :: new => puts eqb new (put eqb k v l)
  end.

(** [section_by_name]: the first of that name. *)
Definition section_named (n : list Z) (e : elf) : option osec := find (fun s => str_eqb (os_name s) n) (el_secs e).

(** obj.rs:414-424. *)
Definition the_license (e : elf) : res oerr (list Z) :=
  match section_named (txt "license") e with Some s => parse_license (os_data s) | None => Ok (txt "GPL") end.
Definition the_version (e : elf) : res oerr (option Z) :=
  match section_named (txt "version") e with Some s => parse_version (el_big e) (os_data s) | None => Ok None end.

(** obj.rs:428-460: every symbol has a name; [symbol_offset_by_name] and
    [symbols_by_section]. *)
Definition all_named (e : elf) : res oerr unit :=
  if forallb (fun s => match s_name s with Some _ => true | None => false end) (syms e) then Ok tt else Err (OBtf BInvalidSymbolName).
Definition offsets (e : elf) : list (list Z * Z) :=
  puts str_eqb (flat_map (fun s => match s_name (es_sym s) with
                                   | Some n => if es_global s || symkind_eqb (s_kind (es_sym s)) KData then [(n, s_address (es_sym s))] else []
                                   | None => [] end) (el_syms e)) [].
Definition in_section (i : nat) (s : symbol) : bool := match s_section s with Some j => Nat.eqb j i | None => false end.
Definition by_section (e : elf) (i : nat) : list (nat * symbol) := filter (fun x => in_section i (snd x)) (numbered e).

(** * BTF *)
(** [find_ksyms_datasec], btf/extern_types.rs:48-59, and
    [datasec_has_functions], 62-70. *)
Fixpoint find_ksyms (b : btf) (ts : list btype) (i : Z) : res berr (option (Z * list dsentry)) :=
  match ts with
  | [] => Ok None
  | TDataSec h es :: ts =>
      bind (string_at b (h_name h)) (fun n => if str_eqb n (txt ".ksyms") then Ok (Some (i, es)) else find_ksyms b ts (i + 1))
  | _ :: ts => find_ksyms b ts (i + 1)
  end.
Fixpoint has_functions (b : btf) (es : list dsentry) : res berr bool :=
  match es with
  | [] => Ok false
  | e :: es => bind (type_by_id (b_types b) (de_type e)) (fun t => match t with TFunc _ => Ok true | _ => has_functions b es end)
  end.
(** [create_ksym_func_placeholder], 16-45. *)
Definition add_placeholder (b : btf) : btf * Z :=
  let '(b, int_id) := match find_int4 (b_types b) 0 with
                      | Some id => (b, id)
                      | None => let (b1, n) := add_string b (txt "int") in add_type b1 (new_int n 4 1 0)
                      end in
  let (b, n) := add_string b (txt "ksym_func_placeholder") in
  add_type b (new_var n int_id 1).
(** [find_symbol_by_name], 129-136: the first in the order of the table. *)
Definition weak_of (e : elf) (n : list Z) : option bool :=
  option_map s_weak (find (fun s => match s_name s with Some m => str_eqb m n | None => false end) (syms e)).
(** [collect_ksyms_from_btf], 138-165: the BTF, the externs, and the section
    with the placeholder if there are externs. *)
Definition collect_ksyms (e : elf) (b : btf) : res berr (btf * xmap * option (Z * option Z)) :=
  bind (find_ksyms b (b_types b) 0) (fun k =>
  match k with
  | None => Ok (b, [], None)
  | Some (ds, es) =>
      bind (has_functions b es) (fun f =>
      let '(b, place) := if f then let (b, id) := add_placeholder b in (b, Some id) else (b, None) in
      bind (mapM (fun x => process_entry b (weak_of e) (de_type x)) es) (fun l =>
      Ok (b, puts str_eqb l [], match l with [] => None | _ => Some (ds, place) end)))
  end).

(** What the sections .BTF and .BTF.ext hold, obj.rs:465-472. *)
Record types := { ty_btf : option btf; ty_ext : option ext; ty_externs : xmap; ty_ksyms : option (Z * option Z) }.
Definition the_types (e : elf) : res oerr types :=
  match section_named (txt ".BTF") e with
  | None => Ok {| ty_btf := None; ty_ext := None; ty_externs := []; ty_ksyms := None |}
  | Some s =>
      bind (liftb (btf_parse (os_data s))) (fun b =>
      bind (match section_named (txt ".BTF.ext") e with
            | Some s => bind (liftb (ext_parse b (el_big e) (os_data s))) (fun x => Ok (Some x))
            | None => Ok None
            end) (fun x =>
      bind (liftb (collect_ksyms e b)) (fun '(b, xs, k) =>
      Ok {| ty_btf := Some b; ty_ext := x; ty_externs := xs; ty_ksyms := k |})))
  end.
(** The function and line records of a section. *)
Definition tables_of (x : option ext) : tables :=
  match x with
  | None => {| tb_func := fun _ => []; tb_line := fun _ => [] |}
  | Some x => {| tb_func := fun n => map (fun f => (fi_insn f, fi_type f)) (snd (info_get n (x_funcs x)));
                 tb_line := fun n => map (fun l => (li_insn l, li_line l)) (snd (info_get n (x_lines x))) |}
  end.

(** * Sections *)
(** What a section puts into the tables of the object. *)
Record part := { pt_progs : list (name * program); pt_funs : list (nat * Z * func); pt_maps : list (name * omap); pt_relocs : list (nat * list reloc) }.
Definition nothing : part := {| pt_progs := []; pt_funs := []; pt_maps := []; pt_relocs := [] |}.
Definition only_maps (l : list (name * omap)) : part := {| pt_progs := []; pt_funs := []; pt_maps := l; pt_relocs := [] |}.
Definition key_of (f : func) : nat * Z := (f_sec f, f_addr f).
(** [relocations.into_iter().map(|rel| (rel.offset, rel)).collect()], only if
    there are any. *)
Definition relocs_of (sec : osec) : list (nat * list reloc) :=
  match os_relocs sec with
  | [] => []
  | l => [(os_index sec, map snd (puts Z.eqb (map (fun r => (r_offset r, r)) l) []))]
  end.
(** [parse_section], 805-857. *)
Definition parse_section (e : elf) (t : types) (sec : osec) : res oerr part :=
  let tabs := tables_of (ty_ext t) in
  let here := by_section e (os_index sec) in
  match section_kind (os_name sec) (os_exec sec) (os_size sec) with
  | (KDataS | KRodata | KBss) as k => bind (data_map sec k) (fun m => Ok (only_maps [(os_name sec, m)]))
  | KTextS =>
      bind (parse_text tabs (numbered e) sec) (fun r =>
      Ok {| pt_progs := []; pt_funs := map (fun x => (key_of (snd x), snd x)) r; pt_maps := []; pt_relocs := relocs_of sec |})
  | KBtfMaps =>
      match ty_btf t with
      | None => Err ONoBtf
      | Some b =>
          match here with
          | [] => Err ONoSymbols
          | _ => bind (btf_secs b sec (rev (flat_map (fun x => match s_name (snd x) with Some n => [(n, fst x)] | None => [] end) here)) (b_types b)) (fun l => Ok (only_maps l))
          end
      end
  | KMaps as k => bind (parse_maps sec k here) (fun l => Ok (only_maps l))
  | KProgram =>
      bind (parse_programs tabs (match here with [] => None | _ => Some (map snd here) end) sec) (fun r =>
      Ok {| pt_progs := map (fun x => (pg_name (fst x), fst x)) r; pt_funs := map (fun x => (pg_index (fst x), pg_addr (fst x), snd x)) r;
            pt_maps := []; pt_relocs := relocs_of sec |})
  | KUndefined | KLicense | KVersion => Ok nothing
  | KBtf | KBtfExt => Ok nothing
  end.
(** obj.rs:475-483: the other sections. *)
Definition is_btf_name (n : list Z) : bool := str_eqb n (txt ".BTF") || str_eqb n (txt ".BTF.ext").
Definition others (e : elf) : list osec := filter (fun s => negb (is_btf_name (os_name s))) (el_secs e).

(** [section_infos]: also of .BTF and .BTF.ext, as far as they are parsed. *)
Definition infos (e : elf) : list (list Z * (nat * Z)) :=
  let info s := (os_name s, (os_index s, os_size s)) in
  puts str_eqb
    (match section_named (txt ".BTF") e with
     | None => []
     | Some s => info s :: match section_named (txt ".BTF.ext") e with Some x => [info x] | None => [] end
     end ++ map info (others e)) [].

Definition nat_z_eqb (a b : nat * Z) : bool := Nat.eqb (fst a) (fst b) && (snd a =? snd b).

(** [Object], obj.rs:36-66, with the license and the version, which are copied
    into each program. *)
Record parsed := { q_license : list Z; q_version : option Z; q_obj : pobj }.
Definition assemble (e : elf) (t : types) (l : list part) : pobj :=
  {| p_big := el_big e; p_btf := ty_btf t; p_relos := match ty_ext t with Some x => x_relos x | None => [] end;
     p_externs := ty_externs t; p_ksyms := ty_ksyms t;
     p_progs := map snd (puts str_eqb (flat_map pt_progs l) []);
     p_funs := map snd (puts nat_z_eqb (flat_map pt_funs l) []);
     p_maps := puts str_eqb (flat_map pt_maps l) [];
     p_relocs := fun i => match assoc Nat.eqb i (puts Nat.eqb (flat_map pt_relocs l) []) with Some r => r | None => [] end;
     p_syms := syms e; p_infos := infos e; p_offsets := offsets e |}.
Definition parse (e : elf) : res oerr parsed :=
  bind (the_license e) (fun lic =>
  bind (the_version e) (fun ver =>
  bind (all_named e) (fun _ =>
  bind (the_types e) (fun t =>
  bind (mapM (parse_section e t) (others e)) (fun l =>
  Ok {| q_license := lic; q_version := ver; q_obj := assemble e t l |}))))).

(** [EbpfLoader::load] for an ELF file, bpf.rs:450-460. *)
Inductive lerror := LParse (x : oerr) | LLoad (x : ferr).
Definition load_elf (c : config) (k : kernel) (e : elf) (t : target) (u : outside) : res lerror ebpf * target * outside :=
  match parse e with
  | Err x => (Err (LParse x), t, u)
  | Ok q => let '(r, t, u) := load c k (q_obj q) t u in (match r with Ok a => Ok a | Err x => Err (LLoad x) end, t, u)
  end.
