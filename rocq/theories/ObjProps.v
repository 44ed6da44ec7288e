(** Property theorems C24 to C29 and C60 to C62: object parsing. *)
From Coq Require Import String Permutation.
From Verif Require Import Base Text Insn LinkModel BtfTypes BtfModel ObjModel ObjSpec MacroModel
  ObjProofs ObjProofs2 ObjProofs3 ObjProofs4 ObjProofs5 ObjProofs6.
Local Open Scope Z_scope.

(** Inputs of the examples. *)
Definition esym (n : list Z) (sec : nat) (a z : Z) (k : symkind) : symbol :=
  {| s_section := Some sec; s_name := Some n; s_address := a; s_size := z; s_def := true; s_kind := k; s_weak := false |}.
Definition esec (n : list Z) (data : list Z) : osec :=
  {| os_index := 3; os_name := n; os_exec := true; os_address := 0; os_data := data; os_size := Z.of_nat (length data); os_relocs := [] |}.
Definition no_tables : tables := {| tb_func := fun _ => []; tb_line := fun _ => [] |}.
Definition xmov (v : Z) : insn := {| code := 183; dst := 1; src := 0; off := 0; imm := v |}.
Definition xexit : insn := {| code := 149; dst := 0; src := 0; off := -1; imm := 0 |}.
Definition code3 : list Z := flat_map enc_insn [xmov 5; xexit; xmov (-2); xexit].

(** * C24 *)
(** Functions found in a text section tile it: they start at offset 0, each
    starts where the one before ended and has at least one instruction, the last
    ends with the section.  Each comes from the symbol at its address. *)
Theorem C24_tiles :
  forall t syms sec r, sizes_ok (fun_syms (os_index sec) syms) -> parse_text t syms sec = Ok r ->
    NoDup (map s_address (fun_syms (os_index sec) syms)) /\ tiles sec 0 r /\
    Forall (from_sym t sec (fun_syms (os_index sec) syms)) r /\
    chain sec (fun_syms (os_index sec) syms) 0 (Z.of_nat (length (os_data sec))).
Proof. exact text_parsed. Qed.
Print Assumptions C24_tiles.

(** Their instructions, one after the other, are those of the section. *)
Theorem C24_bytes :
  forall t syms sec r, sizes_ok (fun_syms (os_index sec) syms) -> parse_text t syms sec = Ok r ->
    copy_instructions (os_data sec) = Ok (flat_map (fun x => f_ins (snd x)) r).
Proof. exact text_all. Qed.
Print Assumptions C24_bytes.

(** Instructions are read back as they were encoded. *)
Theorem C24_instructions : forall l, Forall insn_ok l -> copy_instructions (flat_map enc_insn l) = Ok l.
Proof. exact copy_enc. Qed.
Print Assumptions C24_instructions.

(** A section is accepted exactly when its symbols have different addresses and
    lead from its start to its end. *)
Theorem C24_accepts :
  forall t syms sec, sizes_ok (fun_syms (os_index sec) syms) ->
    ((exists r, parse_text t syms sec = Ok r) <->
     NoDup (map s_address (fun_syms (os_index sec) syms)) /\
     chain sec (fun_syms (os_index sec) syms) 0 (Z.of_nat (length (os_data sec)))).
Proof. exact text_accepts. Qed.
Print Assumptions C24_accepts.

(** Anything else is refused, with the error of the first offset the symbols
    lead to that has none, an empty, too long, unnamed or misaligned one. *)
Theorem C24_rejects :
  forall t syms sec x, sizes_ok (fun_syms (os_index sec) syms) ->
    (parse_text t syms sec = Err x <->
     (x = OConflict /\ ~ NoDup (map s_address (fun_syms (os_index sec) syms))) \/
     (NoDup (map s_address (fun_syms (os_index sec) syms)) /\
      exists o, chain sec (fun_syms (os_index sec) syms) 0 o /\ o < Z.of_nat (length (os_data sec)) /\
                fault sec (fun_syms (os_index sec) syms) o x)).
Proof. exact text_rejects. Qed.
Print Assumptions C24_rejects.

Definition tsyms : list (nat * symbol) :=
  [(7%nat, esym (txt "g") 3 16 16 KText); (8%nat, esym (txt "f") 3 0 16 KText); (9%nat, esym (txt "v") 3 0 16 KData)].
Example C24_example :
  sizes_ok (fun_syms 3 tsyms) /\
  bind (parse_text no_tables tsyms (esec (txt ".text") code3)) (fun r => Ok (map (fun x => (fst x, f_secoff (snd x), f_ins (snd x))) r)) =
    Ok [(txt "f", 0, [xmov 5; xexit]); (txt "g", 16, [xmov (-2); xexit])] /\
  parse_text no_tables [(8%nat, esym (txt "f") 3 0 16 KText)] (esec (txt ".text") code3) = Err OUnknownSymbol /\
  parse_text no_tables ((4%nat, esym (txt "h") 3 16 8 KText) :: tsyms) (esec (txt ".text") code3) = Err OConflict /\
  parse_text no_tables [(8%nat, esym (txt "f") 3 0 0 KText)] (esec (txt ".text") code3) = Err OInvalidSymbol /\
  parse_text no_tables [(8%nat, esym (txt "f") 3 0 12 KText)] (esec (txt ".text") code3) = Err OCode.
Proof. split; [repeat constructor; cbn; lia|]. vm_compute. auto. Qed.

(** A function symbol that reaches past the end of the section aborts the
    parser instead of being reported. *)
Theorem C24_past_end_refuted :
  exists syms sec, sizes_ok (fun_syms (os_index sec) syms) /\ parse_text no_tables syms sec = Err OPanic.
Proof.
  exists [(8%nat, esym (txt "f") 3 0 40 KText)], (esec (txt ".text") code3). split; [repeat constructor; cbn; lia|vm_compute; reflexivity].
Qed.
Print Assumptions C24_past_end_refuted.

(** * C25 *)
(** Overrides are accepted exactly when each names a symbol of the same size
    inside the data of a map, or is optional and names none; the effect is then
    one write per override. *)
Theorem C25_accepted :
  forall syms gs maps maps', Forall sym_ok syms -> maps_small maps ->
    (patch_map_data syms maps gs = Ok maps' <->
     Forall (global_ok syms maps) gs /\ maps' = fold_left (do_global syms) gs maps).
Proof. exact patch_all. Qed.
Print Assumptions C25_accepted.

(** Afterwards each variable holds the given bytes, every other byte of every
    map is as before, and so is everything else about the maps. *)
Theorem C25_bytes :
  forall syms gs maps, Forall sym_ok syms -> Forall (global_ok syms maps) gs -> apart_globals syms maps gs ->
    let maps' := fold_left (do_global syms) gs maps in
    map frame_of maps' = map frame_of maps /\
    (forall i, length (data_of maps' i) = length (data_of maps i)) /\
    (forall g i a z, In g gs -> place_of syms maps (fst (fst g)) = Some (i, a, z) ->
       slice (Z.to_nat a) (Z.to_nat z) (data_of maps' i) = snd (fst g)) /\
    (forall i k, (forall g p, In g gs -> place_of syms maps (fst (fst g)) = Some p -> ~ covers p i k) ->
       nth_error (data_of maps' i) k = nth_error (data_of maps i) k).
Proof. exact patch_bytes. Qed.
Print Assumptions C25_bytes.

(** The order of overrides of variables that do not overlap does not matter. *)
Theorem C25_order :
  forall syms maps gs gs', Forall sym_ok syms -> maps_small maps -> apart_globals syms maps gs -> Permutation gs gs' ->
    forall maps', patch_map_data syms maps gs = Ok maps' <-> patch_map_data syms maps gs' = Ok maps'.
Proof. exact patch_perm. Qed.
Print Assumptions C25_order.

(** Refusals are reported, never an abort. *)
Theorem C25_errors :
  forall syms gs maps e, patch_map_data syms maps gs = Err e -> e = OSymbolNotFound \/ e = OGlobal \/ e = OMapNotFound.
Proof. exact patch_errors. Qed.
Print Assumptions C25_errors.

Definition gmap (sec : nat) (d : list Z) : omap :=
  {| om_btf := false; om_kind := KDataS; om_section := sec; om_symbol := None; om_def := mapdef0; om_inner := None; om_data := d |}.
Definition gsyms : list symbol := [esym (txt "a") 5 0 2 KData; esym (txt "b") 5 4 4 KData; esym (txt "c") 6 1 1 KData].
Definition gmaps : list (name * omap) := [(txt ".data", gmap 5 [1; 2; 3; 4; 5; 6; 7; 8]); (txt ".bss", gmap 6 [0; 0; 0])].
Definition gglobals : list global := [(txt "b", [10; 11; 12; 13], true); (txt "c", [9], true); (txt "zz", [1], false)].
Example C25_example :
  Forall sym_ok gsyms /\ maps_small gmaps /\ apart_globals gsyms gmaps gglobals /\
  patch_map_data gsyms gmaps gglobals =
    Ok [(txt ".data", gmap 5 [1; 2; 3; 4; 10; 11; 12; 13]); (txt ".bss", gmap 6 [0; 9; 0])] /\
  patch_map_data gsyms gmaps [(txt "b", [1; 2], true)] = Err OGlobal /\
  patch_map_data gsyms gmaps [(txt "zz", [1; 2], true)] = Err OSymbolNotFound.
Proof.
  split; [repeat constructor; cbn; lia|].
  split; [intros [|[|i]]; [vm_compute; reflexivity|vm_compute; reflexivity|unfold data_of, gmaps; cbn [nth_error]; destruct i; vm_compute; reflexivity]|].
  split; [|vm_compute; auto].
  unfold apart_globals, gglobals. repeat constructor; intros p q Hp Hq; vm_compute in Hp, Hq; try discriminate.
  apply some_inj in Hp, Hq. subst. cbn. left. discriminate.
Qed.

(** Two symbols may carry the same name; which of them an override reaches is
    decided by the iteration order of a hash map. *)
Theorem C25_same_name_refuted :
  exists syms syms' maps gs r r', Permutation syms syms' /\ Forall sym_ok syms /\
    patch_map_data syms maps gs = Ok r /\ patch_map_data syms' maps gs = Ok r' /\ r <> r'.
Proof.
  exists [esym (txt "a") 5 0 1 KData; esym (txt "a") 5 1 1 KData], [esym (txt "a") 5 1 1 KData; esym (txt "a") 5 0 1 KData],
    [(txt ".data", gmap 5 [1; 2])], [(txt "a", [7], true)], [(txt ".data", gmap 5 [1; 7])], [(txt ".data", gmap 5 [7; 2])].
  split; [apply perm_swap|]. split; [repeat constructor; cbn; lia|]. split; [vm_compute; reflexivity|]. split; [vm_compute; reflexivity|]. discriminate.
Qed.
Print Assumptions C25_same_name_refuted.

(** * C26 *)
(** Without the helpers every call of one of the four becomes the call of its
    predecessor, all else stays. *)
Theorem C26_legacy :
  forall fs, fst (sanitize_functions false fs) = map (fun f => with_insns f (map legacy_call (f_ins f))) fs.
Proof. exact (sanitize_spec false). Qed.
Print Assumptions C26_legacy.

(** What becomes of an instruction: only the helper number of those calls. *)
Theorem C26_instruction :
  forall x, (is_probe_call x = false -> legacy_call x = x) /\
    (is_probe_call x = true -> imm (legacy_call x) = if (imm x =? 112) || (imm x =? 113) then 4 else 45) /\
    code (legacy_call x) = code x /\ dst (legacy_call x) = dst x /\ src (legacy_call x) = src x /\ off (legacy_call x) = off x.
Proof.
  intros x. split; [apply legacy_other|]. split; [intros H; unfold legacy_call; rewrite H; destruct ((imm x =? 112) || (imm x =? 113)); reflexivity|].
  apply legacy_fields.
Qed.
Print Assumptions C26_instruction.

(** With the helpers nothing changes. *)
Theorem C26_supported : forall fs, fst (sanitize_functions true fs) = fs.
Proof. exact sanitize_supported. Qed.
Print Assumptions C26_supported.

(** The kernel is asked once if a call needs the answer, else not at all. *)
Theorem C26_probes :
  forall probe fs, snd (snd (sanitize_functions probe fs)) =
    (if existsb (fun f => existsb is_probe_call (f_ins f)) fs then 1 else 0)%nat.
Proof. exact sanitize_probes. Qed.
Print Assumptions C26_probes.

(** Doing it twice is doing it once. *)
Theorem C26_again :
  forall fs, sanitize_functions false (fst (sanitize_functions false fs)) = (fst (sanitize_functions false fs), (None, O)).
Proof. exact sanitize_again. Qed.
Print Assumptions C26_again.

Definition xcall (h s : Z) : insn := {| code := 133; dst := 0; src := s; off := 0; imm := h |}.
Definition xfun (l : list insn) : func := {| f_sec := 0; f_addr := 0; f_secoff := 0; f_ins := l; f_finfo := []; f_linfo := [] |}.
Example C26_example :
  sanitize_functions false [xfun [xcall 112 0; xcall 113 0; xmov 113]; xfun [xcall 114 0; xcall 115 1; xcall 6 0; xcall 115 0]] =
    ([xfun [xcall 4 0; xcall 4 0; xmov 113]; xfun [xcall 45 0; xcall 115 1; xcall 6 0; xcall 45 0]], (Some false, 1%nat)).
Proof. vm_compute. reflexivity. Qed.

(** * C27 *)
(** The kinds with a name prefix. *)
Theorem C27_prefix : forall n k p, prefix_of k = Some p -> (from_name n = k <-> begins p n).
Proof. exact from_name_prefix. Qed.
Print Assumptions C27_prefix.
(** The kinds with a fixed name. *)
Theorem C27_btf : forall n, (from_name n = KBtf <-> n = txt ".BTF") /\ (from_name n = KBtfExt <-> n = txt ".BTF.ext").
Proof. exact from_name_btf. Qed.
Print Assumptions C27_btf.
(** Everything else, and what is done with it. *)
Theorem C27_other :
  forall n, from_name n = KUndefined <->
    ((forall k p, prefix_of k = Some p -> ~ begins p n) /\ n <> txt ".BTF" /\ n <> txt ".BTF.ext").
Proof. exact from_name_undefined. Qed.
Print Assumptions C27_other.
Theorem C27_program :
  forall n exec size, section_kind n exec size =
    match from_name n with KUndefined => if exec && (0 <? size) then KProgram else KUndefined | k => k end.
Proof. exact section_kind_spec. Qed.
Print Assumptions C27_program.
(** A licence is a non-empty string without NUL followed by one NUL. *)
Theorem C27_license : forall d s, parse_license d = Ok s <-> d = s ++ [0] /\ s <> [] /\ ~ In 0 s.
Proof. exact license_spec. Qed.
Print Assumptions C27_license.
(** A version is four bytes in the byte order of the object; the magic value
    stands for none. *)
Theorem C27_version :
  forall be v, 0 <= v < 2 ^ 32 -> parse_version be (be_enc be v) = Ok (if v =? 2 ^ 32 - 2 then None else Some v).
Proof. exact version_spec. Qed.
Print Assumptions C27_version.
Theorem C27_version_length : forall be d r, parse_version be d = Ok r -> length d = 4%nat.
Proof. exact version_length. Qed.
Print Assumptions C27_version_length.

Example C27_example :
  from_name (txt "license") = KLicense /\ from_name (txt ".rodata.str1.1") = KRodata /\ from_name (txt ".BTF.ext") = KBtfExt /\
  section_kind (txt "xdp") true 8 = KProgram /\ section_kind (txt "xdp") false 8 = KUndefined /\
  parse_license (txt "GPL" ++ [0]) = Ok (txt "GPL") /\ parse_license [0] = Err OLicense /\ parse_license (txt "GPL") = Err OLicenseNul /\
  parse_version true [0; 0; 4; 5] = Ok (Some 1029) /\ parse_version false [254; 255; 255; 255] = Ok None.
Proof. vm_compute. auto 20. Qed.

(** Names are matched by prefix, so an executable section such as
    "version_check/x" that only begins like a special one is not a program. *)
Theorem C27_prefix_shadows :
  exists n, n <> txt "version" /\ section_kind n true 8 = KVersion.
Proof. exists (txt "version_check"). split; [discriminate|vm_compute; reflexivity]. Qed.
Print Assumptions C27_prefix_shadows.

(** * C28 *)
(** Definitions are read as if continued with zero bytes. *)
Theorem C28_padded : forall d, (20 <= length d)%nat -> parse_map_def d = read_map_def (d ++ repeat 0 (28 - length d)).
Proof. exact map_def_padded. Qed.
Print Assumptions C28_padded.
(** Each word is its field; absent words are zero, bytes past the seventh word
    are ignored. *)
Theorem C28_words :
  forall l r, (5 <= length l)%nat -> Forall (fun x => 0 <= x < 2 ^ 32) l -> nth 6 l 0 = 0 \/ nth 6 l 0 = 1 ->
    r = [] \/ (7 <= length l)%nat -> parse_map_def (enc_words l ++ r) = Ok (legacy_def l).
Proof. exact map_def_spec. Qed.
Print Assumptions C28_words.
Theorem C28_short : forall d, (length d < 20)%nat -> parse_map_def d = Err OMapDef.
Proof. exact map_def_short. Qed.
Print Assumptions C28_short.
(** A section gives one map per symbol, of the symbol's name and bytes. *)
Theorem C28_section :
  forall sec k syms r, Forall (fun x => sym_ok (snd x)) syms -> parse_maps sec k syms = Ok r ->
    syms <> [] /\ Forall2 (map_of sec k) syms r.
Proof. exact maps_parsed. Qed.
Print Assumptions C28_section.

Example C28_example :
  parse_map_def (enc_words [1; 2; 3; 4; 5]) = Ok (legacy_def [1; 2; 3; 4; 5]) /\
  parse_map_def (enc_words [1; 2; 3; 4; 5; 6; 1; 9] ++ [3]) = Ok (legacy_def [1; 2; 3; 4; 5; 6; 1]) /\
  legacy_def [1; 2; 3; 4; 5; 6; 1] = {| md_type := 1; md_key := 2; md_value := 3; md_entries := 4; md_flags := 5; md_extra := 0;
     md_pin := 1; md_key_id := 0; md_value_id := 0; md_id := 6 |} /\
  bind (parse_maps (esec (txt "maps") (enc_words [1; 2; 3; 4; 5; 6; 0; 7; 8; 9; 10; 11])) KMaps
         [(1%nat, esym (txt "m") 3 0 28 KData); (2%nat, esym (txt "n") 3 28 20 KData)]) (fun r => Ok (map (fun x => (fst x, om_def (snd x))) r)) =
    Ok [(txt "m", legacy_def [1; 2; 3; 4; 5; 6]); (txt "n", legacy_def [7; 8; 9; 10; 11])].
Proof. vm_compute. auto. Qed.

(** A pinning word other than 0 and 1 is copied into an enum that has no such
    value: undefined behaviour. *)
Theorem C28_pinning_refuted : exists d, length d = 28%nat /\ bytes_ok d = true /\ parse_map_def d = Err OUndefined.
Proof. exists (enc_words [1; 2; 3; 4; 5; 6; 2]). split; [reflexivity|]. split; [reflexivity|vm_compute; reflexivity]. Qed.
Print Assumptions C28_pinning_refuted.
(** A map symbol that reaches past the section aborts the parser. *)
Theorem C28_past_end_refuted :
  exists sec syms, Forall (fun x => sym_ok (snd x)) syms /\ parse_maps sec KMaps syms = Err OPanic.
Proof.
  exists (esec (txt "maps") (enc_words [1; 2; 3; 4; 5])), [(1%nat, esym (txt "m") 3 4 20 KData)]. split; [repeat constructor; cbn; lia|vm_compute; reflexivity].
Qed.
Print Assumptions C28_past_end_refuted.

(** * C29 *)
(** Permuting members that set different things changes nothing. *)
Theorem C29_order_partial :
  forall b ms ms', clash_free b ms -> Permutation ms ms' -> forall r, map_struct b ms = Ok r <-> map_struct b ms' = Ok r.
Proof. exact struct_perm. Qed.
Print Assumptions C29_order_partial.
Theorem C29_inner_order_partial :
  forall b ms ms', clash_free b ms -> Permutation ms ms' -> forall r, inner_def b ms = Ok r <-> inner_def b ms' = Ok r.
Proof. exact inner_perm. Qed.
Print Assumptions C29_inner_order_partial.
(** Each field alone decides its part of the definition. *)
Theorem C29_fields :
  forall inner b ms st r m f g, clash_free b ms -> map_members inner b ms st = Ok r -> In m ms ->
    field_of_member b m = Some f -> field_effect inner b f (m_type m) = Ok g -> seen f r = seen f (g st).
Proof. exact members_field. Qed.
Print Assumptions C29_fields.
(** What no member sets keeps its default. *)
Theorem C29_defaults :
  forall inner b ms st r f, map_members inner b ms st = Ok r ->
    (forall m f', In m ms -> field_of_member b m = Some f' -> clash f f' = false) -> seen f r = seen f st.
Proof. exact members_default. Qed.
Print Assumptions C29_defaults.
(** Members of other names play no part. *)
Theorem C29_unknown :
  forall inner b ms, (forall m, In m ms -> exists n, string_at b (m_name m) = Ok n) ->
    forall st, map_members inner b (filter (known b) ms) st = map_members inner b ms st.
Proof. exact members_unknown. Qed.
Print Assumptions C29_unknown.
(** A key or value size given by a type is that type's size, one given by a
    number is that number. *)
Theorem C29_sizes :
  forall inner b ms st r m, clash_free b ms -> map_members inner b ms st = Ok r -> In m ms ->
    (forall n id, field_of_member b m = Some FKey -> pointee b (m_type m) = Ok (n, id) -> md_key (fst r) = n /\ md_key_id (fst r) = id) /\
    (forall n, field_of_member b m = Some FKeySize -> get_map_field b (m_type m) = Ok n -> md_key (fst r) = n) /\
    (forall n id, field_of_member b m = Some FValue -> pointee b (m_type m) = Ok (n, id) -> md_value (fst r) = n /\ md_value_id (fst r) = id) /\
    (forall n, field_of_member b m = Some FValueSize -> get_map_field b (m_type m) = Ok n -> md_value (fst r) = n).
Proof.
  intros inner b ms st r m C H I. pose proof (members_field inner b ms st r m) as X.
  split; [|split; [|split]]; intros; (eassert (seen _ r = _) as E by (eapply X; eauto; unfold field_effect; rewrite H1; reflexivity));
    cbn in E; injection E; auto.
Qed.
Print Assumptions C29_sizes.

Definition BN : list (list Z) := [txt "type"; txt "key"; txt "key_size"; txt "value"; txt "max_entries"; txt "values"; txt "other"; txt "m"; txt ".maps"; txt "pinning"].
Fixpoint noff (names : list (list Z)) (n : list Z) (o : Z) : Z :=
  match names with
  | [] => 0
  | m :: r => if str_eqb m n then o else noff r n (o + Z.of_nat (length m) + 1)
  end.
Definition bn (n : list Z) : Z := noff BN n 1.
Definition bm (n : list Z) (t : Z) : member := {| m_name := bn n; m_type := t; m_off := 0 |}.
Definition new_array (e i n : Z) : btype := TArray {| h_name := 0; h_info := kind_info KArray; h_third := 0 |} e i n.
(** Types: 1 int of 4 bytes, 2 pointer to it, 3 and 5 arrays of 1 and 8
    elements, 4 and 6 pointers to them, 7 array of no elements of pointers 9 to
    the struct 8. *)
Definition mbtf (ms : list member) : btf :=
  fold_left (fun b t => fst (add_type b t))
    [new_int 0 4 0 0; new_ptr 0 1; new_array 1 1 1; new_ptr 0 3; new_array 1 1 8; new_ptr 0 5; new_array 9 1 0;
     new_struct 0 [bm (txt "type") 6; bm (txt "key") 2] 16; new_ptr 0 8; new_struct 0 ms 64; new_var (bn (txt "m")) 10 1;
     new_datasec (bn (txt ".maps")) [{| de_type := 11; de_off := 0; de_size := 64 |}] 64]
    (fold_left (fun b n => fst (add_string b n)) BN btf_new).
Definition ms1 : list member := [bm (txt "type") 4; bm (txt "key") 2; bm (txt "other") 99; bm (txt "max_entries") 6; bm (txt "pinning") 4; bm (txt "values") 7].
Lemma clash_free_dec b ms : (fix go (l : list member) : bool := match l with
   | [] => true
   | m :: r => forallb (fun m' => match field_of_member b m, field_of_member b m' with Some f, Some g => negb (clash f g) | _, _ => true end) r && go r
   end) ms = true -> clash_free b ms.
Proof.
  induction ms as [|m ms IH]; intros H; [constructor|]. apply andb_true_iff in H. destruct H as [H1 H2]. constructor; [|now apply IH].
  apply Forall_forall. intros m' I f g F G. rewrite forallb_forall in H1. specialize (H1 m' I). rewrite F, G in H1. now apply negb_true_iff.
Qed.
Example C29_example :
  clash_free (mbtf ms1) ms1 /\ clash_free (mbtf ms1) [bm (txt "type") 6; bm (txt "key") 2] /\
  map_struct (mbtf ms1) ms1 =
    Ok ({| md_type := 1; md_key := 4; md_value := 4; md_entries := 8; md_flags := 0; md_extra := 0; md_pin := 1; md_key_id := 1; md_value_id := 0; md_id := 0 |},
        Some {| md_type := 8; md_key := 4; md_value := 0; md_entries := 0; md_flags := 0; md_extra := 0; md_pin := 0; md_key_id := 1; md_value_id := 0; md_id := 0 |}) /\
  bind (btf_secs (mbtf ms1) (esec (txt ".maps") []) [(txt "m", 4%nat)] (b_types (mbtf ms1))) (fun r => Ok (map (fun x => (fst x, md_entries (om_def (snd x)))) r)) =
    Ok [(txt "m", 8)].
Proof. split; [apply clash_free_dec; vm_compute; reflexivity|]. split; [apply clash_free_dec; vm_compute; reflexivity|]. vm_compute. auto. Qed.

(** With both a key type and a key size given, the later of the two wins. *)
Theorem C29_order_refuted :
  exists b ms ms' r r', Permutation ms ms' /\ map_struct b ms = Ok r /\ map_struct b ms' = Ok r' /\ md_key (fst r) <> md_key (fst r').
Proof.
  exists (mbtf []), [bm (txt "key") 2; bm (txt "key_size") 6], [bm (txt "key_size") 6; bm (txt "key") 2],
    (set_key 8 (set_key_id 1 mapdef0), None), (set_key_id 1 (set_key 4 mapdef0), None).
  split; [apply perm_swap|]. split; [vm_compute; reflexivity|]. split; [vm_compute; reflexivity|]. cbn. discriminate.
Qed.
Print Assumptions C29_order_refuted.

(** * C60 *)
(** A program section gives one program per function symbol of it, with the
    section's kind and the symbol's name, address and bytes; it is accepted
    exactly when its name is that of a kind and each symbol is a whole number of
    instructions inside the section. *)
Theorem C60_programs :
  forall t sec syms, Forall sym_ok syms -> Z.of_nat (length (os_data sec)) < 2 ^ 64 ->
    (forall r, parse_programs t (Some syms) sec = Ok r ->
       exists p, parse_psec (os_name sec) = Ok p /\ Forall2 (prog_of t sec p) (filter is_prog_sym syms) r) /\
    ((exists r, parse_programs t (Some syms) sec = Ok r) <->
     (exists p, parse_psec (os_name sec) = Ok p) /\ Forall (prog_fits sec) (filter is_prog_sym syms)).
Proof. exact programs_spec. Qed.
Print Assumptions C60_programs.
Example C60_example :
  bind (parse_programs no_tables (Some [esym (txt "p") 3 16 16 KText; esym (txt "L1") 3 0 0 KData; esym (txt "q") 3 0 16 KText]) (esec (txt "kprobe/x") code3))
    (fun r => Ok (map (fun x => (pg_name (fst x), pg_sec (fst x), f_ins (snd x))) r)) =
    Ok [(txt "p", PKProbe, [xmov (-2); xexit]); (txt "q", PKProbe, [xmov 5; xexit])] /\
  parse_programs no_tables (Some []) (esec (txt "nonsense") code3) = Err OProgramSection.
Proof. vm_compute. auto. Qed.
(** A program symbol that reaches past the section aborts the parser. *)
Theorem C60_past_end_refuted :
  exists sec syms, Forall sym_ok syms /\ parse_programs no_tables (Some syms) sec = Err OPanic.
Proof.
  exists (esec (txt "xdp") code3), [esym (txt "p") 3 16 32 KText]. split; [repeat constructor; cbn; lia|vm_compute; reflexivity].
Qed.
Print Assumptions C60_past_end_refuted.
(** Overlapping symbols are accepted: two programs share instructions. *)
Theorem C60_overlap_refuted :
  exists sec syms p q, Forall sym_ok syms /\ bind (parse_programs no_tables (Some syms) sec) (fun r => Ok (map (fun x => length (f_ins (snd x))) r)) = Ok [p; q] /\
    (length (os_data sec) < 8 * (p + q))%nat.
Proof.
  exists (esec (txt "xdp") code3), [esym (txt "p") 3 0 32 KText; esym (txt "q") 3 8 24 KText], 4%nat, 3%nat.
  split; [repeat constructor; cbn; lia|]. split; [vm_compute; reflexivity|]. vm_compute. lia.
Qed.
Print Assumptions C60_overlap_refuted.

(** * C61 *)
(** A section name denotes a program kind exactly when it is a spelling of the
    kind, followed by any further components where the kind allows them. *)
Theorem C61_names :
  forall s p, parse_psec s = Ok p <->
    psec_ok p /\ exists names rest, spelled p names /\ (takes_name p = true \/ rest = []) /\
      s = join_slash (names ++ rest) /\ Forall no_slash rest.
Proof. exact psec_spec. Qed.
Print Assumptions C61_names.
Example C61_example :
  parse_psec (txt "sk_skb/stream_verdict/program_name") = Ok (PSkSkb true) /\ parse_psec (txt "tp/sched/sched_switch") = Ok PTracePoint /\
  parse_psec (txt "uprobe.multi.s/bin/sh:f") = Ok (PUProbe true true) /\ parse_psec (txt "cgroup/sendmsg6") = Ok (PCgroupSockAddr 9) /\
  parse_psec (txt "xdp/devmap") = Ok (PXdp false 2) /\ parse_psec (txt "uprobe.s.multi/x") = Err OProgramSection.
Proof. vm_compute. auto 10. Qed.
(** The name the parser's own comment gives as the common case is refused. *)
Theorem C61_common_case_refuted : parse_psec (txt "xdp/program_name") = Err OProgramSection.
Proof. vm_compute. reflexivity. Qed.
Print Assumptions C61_common_case_refuted.

(** * C62 *)
(** Every section name the program macros emit is read as the kind of program
    the macro is for. *)
Theorem C62_macros : forall m, macro_ok m -> parse_psec (macro_section m) = Ok (macro_kind m).
Proof. exact macro_parse. Qed.
Print Assumptions C62_macros.
(** None is mistaken for a special section. *)
Theorem C62_program : forall m size, macro_ok m -> 0 < size -> section_kind (macro_section m) true size = KProgram.
Proof. exact macro_program. Qed.
Print Assumptions C62_program.
(** Probe programs get the context of their kind. *)
Theorem C62_context :
  forall m, match m with MKProbe ret _ _ | MUProbe ret _ _ _ _ => entry_context m = negb ret | _ => True end.
Proof. exact macro_context. Qed.
Print Assumptions C62_context.
Example C62_example :
  macro_section (MUProbe true true false (Some (txt "/bin/sh", txt "main")) (Some 12)) = txt "uretprobe.multi/bin/sh:main+12" /\
  macro_section (MTracePoint (Some (txt "sched_switch", txt "sched"))) = txt "tracepoint/sched/sched_switch" /\
  macro_ok (MCgroupSock 2) /\ macro_section (MCgroupSock 2) = txt "cgroup/sock_create" /\ macro_kind (MCgroupSock 2) = PCgroupSock 0.
Proof. split; [vm_compute; reflexivity|]. split; [vm_compute; reflexivity|]. split; [cbn; lia|]. split; vm_compute; reflexivity. Qed.
