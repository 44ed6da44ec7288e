(** Property theorems C89: maps declared by eBPF programs. *)
From Coq Require Import String.
From Verif Require Import Base Text BtfTypes BtfModel BtfProofs2 ObjModel ObjProofs4 UtilModel MapModel TypedModel DeclModel DeclSpec DeclProofs.
Local Open Scope Z_scope.

(** The words of a legacy declaration are read as the map it declares; every map
    type with a legacy form has words. *)
Theorem C89_legacy :
  forall d a l r, params_ok a -> (d = DStackTrace -> a_depth a = 127) -> legacy d a = Some l ->
  exists def, parse_map_def (enc_words l ++ r) = Ok def /\ is_declared false d a def /\ md_key_id def = 0 /\ md_value_id def = 0.
Proof. exact legacy_declared. Qed.
Print Assumptions C89_legacy.
Theorem C89_legacy_forms : forall d a, has_legacy d = true <-> exists l, legacy d a = Some l.
Proof. exact legacy_iff. Qed.
Print Assumptions C89_legacy_forms.

(** Any BTF in which the struct of a declaration is written as its fields say is
    read as the map it declares, the type ids being those of key and value;
    for types without arrays of arrays. *)
Theorem C89_btf_partial :
  forall b d a ms, of_maps d = false -> params_ok a -> plain_struct 1 b d a ms ->
  exists def, map_struct b ms = Ok (def, None) /\ is_declared true d a def /\ ids_ok b d a def.
Proof. exact plain_declared. Qed.
Print Assumptions C89_btf_partial.
(** The same for maps of maps, with the inner map. *)
Theorem C89_btf_inner_partial :
  forall b d a d' a' ms, of_maps d = true -> params_ok a -> params_ok a' -> outer_struct 1 b d a d' a' ms ->
  exists def def', map_struct b ms = Ok (def, Some def') /\ is_declared true d a def /\ ids_ok b d a def /\
    is_declared true d' a' def' /\ ids_ok b d' a' def'.
Proof. exact outer_declared. Qed.
Print Assumptions C89_btf_inner_partial.

(** The sections the macros name are those the maps are read from. *)
Theorem C89_section : section_kind (map_section false) false 28 = KMaps /\ section_kind (map_section true) false 28 = KBtfMaps.
Proof. exact sections. Qed.
Print Assumptions C89_section.

(** Both forms of a declaration give the same map; a trie in the BTF form must
    be given the flag the legacy form adds. *)
Theorem C89_agree :
  forall d a def def', is_declared false d a def -> is_declared true d a def' ->
  (d = DLpmTrie -> Z.testbit (a_flags a) 0 = true) -> (d = DBloomFilter -> a_hash_funcs a = 0) ->
  md_type def = md_type def' /\ md_key def = md_key def' /\ md_value def = md_value def' /\ md_entries def = md_entries def' /\
  md_flags def = md_flags def' /\ md_extra def = md_extra def'.
Proof. exact forms_agree. Qed.
Print Assumptions C89_agree.

(** The request to the kernel carries the definition. *)
Theorem C89_request :
  forall btf def e v fd ifd, let t := create_attr btf (settled e v def) fd ifd in
  t_type t = md_type def /\ t_key t = md_key def /\ t_value t = v /\ t_entries t = e /\ t_flags t = md_flags def /\ t_extra t = md_extra def /\
  t_inner_fd t = match ifd with Some n => n | None => 0 end.
Proof. exact attr_fields. Qed.
Print Assumptions C89_request.

(** A sensible declaration, its sizes settled, is taken by the kernel: sizes,
    flags and type ids. *)
Theorem C89_kernel :
  forall btf d a def b user cpus page stack cp dp e v fd ifd,
  is_declared btf d a def -> params_ok a -> sized stack d a -> flagged btf d a -> asked_ok d user -> 0 < page -> 0 < cpus ->
  (if btf then ids_ok b d a def /\ type_by_id (b_types b) 0 = Ok TUnknown else has_legacy d = true) ->
  map_sizes (md_type def) user (md_entries def) (md_value def) (Some cpus) page cp dp = Ok (e, v) ->
  kernel_takes page stack b (create_attr btf (settled e v def) fd ifd).
Proof. exact attr_taken. Qed.
Print Assumptions C89_kernel.

(** The checks made while compiling are right: what passes has sensible sizes
    and aligned values, ... *)
Theorem C89_check :
  forall d a stack, params_ok a -> check d a = Some true -> (d = DStackTrace -> a_depth a <= stack) -> sized stack d a /\ aligned d a.
Proof. exact check_sized. Qed.
Print Assumptions C89_check.
(** ... and nothing sensible is refused. *)
Theorem C89_check_only :
  forall d a stack, params_ok a -> sized stack d a -> aligned d a -> flagged true d a -> check d a = Some true \/ check d a = None.
Proof. exact check_complete. Qed.
Print Assumptions C89_check_only.

(** The handle of that kind opens the map, with the types of the declaration, ... *)
Theorem C89_handle :
  forall btf d a def user cpus page stack cp dp e v,
  is_declared btf d a def -> params_ok a -> sized stack d a -> flagged btf d a -> asked_ok d user -> 0 < page -> 0 < cpus ->
  map_sizes (md_type def) user (md_entries def) (md_value def) (Some cpus) page cp dp = Ok (e, v) ->
  exists h, from_id {| f_cpumap := cp; f_devmap := dp |} (same_kind d) (a_key a) (a_value a) (reported (settled e v def)) = Ok h.
Proof. exact opened. Qed.
Print Assumptions C89_handle.
(** ... and no other kind of handle does. *)
Theorem C89_handle_only :
  forall d a w f k v btf def e v' h, is_declared btf d a def -> from_id f w k v (reported (settled e v' def)) = Ok h -> w = same_kind d.
Proof. exact opened_only. Qed.
Print Assumptions C89_handle_only.

(** * Examples and what does not hold *)

Definition enames : list (list Z) :=
  [txt "type"; txt "key"; txt "value"; txt "max_entries"; txt "map_flags"; txt "values"; txt "value_size"].
Fixpoint eoff (names : list (list Z)) (n : list Z) (o : Z) : Z :=
  match names with
  | [] => 0
  | m :: r => if str_eqb m n then o else eoff r n (o + Z.of_nat (length m) + 1)
  end.
Definition em (n : list Z) (t : Z) : member := {| m_name := eoff enames n 1; m_type := t; m_off := 0 |}.
Definition earr (e n : Z) : btype := TArray {| h_name := 0; h_info := kind_info KArray; h_third := 0 |} e 1 n.
(** Types: 1 a u32, 3 an array of 2, 5 an array of 3 arrays of 2, 7 of 8 and 9 of
    none, 12 of 12; even numbers up to 10 and 13 pointers to the type before;
    11 the unit type; 14 the struct of an array of 8 u32. *)
Definition einner : list member :=
  [em (txt "type") 4; em (txt "key") 2; em (txt "value") 2; em (txt "max_entries") 8; em (txt "map_flags") 10].
Definition ebtf : btf :=
  fold_left (fun b t => fst (add_type b t))
    [new_int 0 4 0 0; new_ptr 0 1; earr 1 2; new_ptr 0 3; earr 3 3; new_ptr 0 5; earr 1 8; new_ptr 0 7; earr 1 0; new_ptr 0 9;
     new_int 0 0 0 0; earr 1 12; new_ptr 0 12; new_struct 0 einner 40; new_ptr 0 14; earr 15 0]
    (fold_left (fun b n => fst (add_string b n)) enames btf_new).
Definition eouter : list member :=
  [em (txt "type") 13; em (txt "key") 2; em (txt "value") 2; em (txt "max_entries") 8; em (txt "map_flags") 10; em (txt "values") 16].
Definition ep (value entries : Z) : params :=
  {| a_key := 4; a_value := value; a_align := 4; a_entries := entries; a_flags := 0; a_hash_funcs := 0; a_depth := 127; a_pinned := false |}.

Lemma ep_ok v e : 0 <= v < 2 ^ 32 -> 0 <= e < 2 ^ 32 -> params_ok (ep v e).
Proof. intros V E. unfold params_ok, u32_ok, ep. cbn [a_key a_value a_align a_entries a_flags a_hash_funcs a_depth]. lia. Qed.
Lemma enum b P m nm n h h' e i : string_at b (m_name m) = Ok nm -> type_by_id (b_types b) (m_type m) = Ok (TPtr h) ->
  type_by_id (b_types b) (h_third h) = Ok (TArray h' e i n) -> field_is 1 b P m (nm, PtrArray n).
Proof. intros A B C. split; [exact A|]. exists h, h', e, i. auto. Qed.
Lemma etype b P m nm n h t dims : string_at b (m_name m) = Ok nm -> type_by_id (b_types b) (m_type m) = Ok (TPtr h) ->
  type_by_id (b_types b) (h_third h) = Ok t -> size_of t = Some n -> field_is dims b P m (nm, PtrType n).
Proof. intros A B C S. split; [exact A|]. exists h, 0%nat, 0%nat. split; [exact B|]. split; [eapply csize_leaf; eauto|]. split; lia. Qed.

Lemma einner_is : plain_struct 1 ebtf DArray (ep 4 8) einner.
Proof.
  unfold plain_struct, einner. cbn [btf_decl btf_map app].
  repeat (apply Forall2_cons; [first [eapply enum; vm_compute; reflexivity|eapply etype; vm_compute; reflexivity]|]). constructor.
Qed.
Example C89_example_btf :
  of_maps DArray = false /\ params_ok (ep 4 8) /\ plain_struct 1 ebtf DArray (ep 4 8) einner /\
  map_struct ebtf einner = Ok (base_def 2 8 0 4 4 1 1, None).
Proof. split; [reflexivity|]. split; [apply ep_ok; lia|]. split; [exact einner_is|]. vm_compute. reflexivity. Qed.
Example C89_example_inner :
  of_maps DArrayOfMaps = true /\ outer_struct 1 ebtf DArrayOfMaps (ep 4 8) DArray (ep 4 8) eouter /\
  map_struct ebtf eouter = Ok (base_def 12 8 0 4 4 1 1, Some (base_def 2 8 0 4 4 1 1)).
Proof.
  split; [reflexivity|]. split; [|vm_compute; reflexivity]. unfold outer_struct, eouter. cbn [btf_decl btf_map app].
  do 5 (apply Forall2_cons; [first [eapply enum; vm_compute; reflexivity|eapply etype; vm_compute; reflexivity]|]).
  apply Forall2_cons; [|constructor]. split; [vm_compute; reflexivity|]. cbn [snd].
  do 5 eexists. exists einner. split; [vm_compute; reflexivity|]. split; [vm_compute; reflexivity|]. split; [vm_compute; reflexivity|]. exact einner_is.
Qed.

Lemma no_flags ty : flags_known ty 0.
Proof. intros i _ H. rewrite Z.bits_0 in H. discriminate H. Qed.
(** Hypotheses of the other theorems: a hash map of either form, a trie with its
    flag, a ring buffer whose size is rounded, and a perf event array. *)
Example C89_example_legacy :
  exists l, legacy DHashMap (ep 8 16) = Some l /\ l = [1; 4; 8; 16; 0; 0; 0] /\
  parse_map_def (enc_words l) = Ok (base_def 1 16 0 4 8 0 0) /\ is_declared false DHashMap (ep 8 16) (base_def 1 16 0 4 8 0 0) /\
  sized 127 DHashMap (ep 8 16) /\ flagged false DHashMap (ep 8 16) /\ aligned DHashMap (ep 8 16) /\ check DHashMap (ep 8 16) = Some true /\
  map_sizes 1 None 16 8 (Some 4) 4096 true true = Ok (16, 8).
Proof.
  eexists. split; [reflexivity|]. split; [reflexivity|]. split; [vm_compute; reflexivity|]. split; [repeat split|].
  split; [unfold sized; cbn; repeat split; intros; try discriminate; lia|].
  split; [split; [apply no_flags|split; intros; discriminate]|]. split; [split; intros; [cbn; lia|discriminate]|]. split; vm_compute; reflexivity.
Qed.
Example C89_example_others :
  map_sizes 27 None 5000 0 (Some 4) 4096 true true = Ok (8192, 0) /\ map_sizes 4 None 0 4 (Some 6) 4096 true true = Ok (6, 4) /\
  legacy DRingBuf (ep 8 5000) = Some [27; 0; 0; 5000; 0; 0; 0] /\ legacy DLpmTrie (ep 8 16) = Some [11; 8; 8; 16; 1; 0; 0] /\
  check DLpmTrie (ep 8 16) = Some true /\ check DQueue (ep 0 16) = Some false /\ check DArray (ep 4 0) = None.
Proof. repeat split; vm_compute; reflexivity. Qed.

(** Arrays have no check: one without entries compiles and the kernel does not
    take it. *)
Theorem C89_check_refuted :
  exists d a, params_ok a /\ check d a = None /\
    forall b page stack fd, exists def, parse_map_def (enc_words (map_def 2 4 4 0 0 false)) = Ok def /\ is_declared false d a def /\
      ~ kernel_takes page stack b (create_attr false def fd None).
Proof.
  exists DArray, (ep 4 0). split; [apply ep_ok; lia|]. split; [reflexivity|]. intros b page stack fd.
  exists (base_def 2 0 0 4 4 0 0). split; [vm_compute; reflexivity|]. split; [repeat split|]. intros ((_ & _ & H) & _). cbn in H. lia.
Qed.
Print Assumptions C89_check_refuted.

(** A value that is an array of arrays gets the wrong size, and the kernel does
    not take the map. *)
Theorem C89_nested_refuted :
  exists b a ms def, params_ok a /\ sized 127 DArray a /\ flagged true DArray a /\
    plain_struct 2 b DArray a ms /\ a_value a = 24 /\ map_struct b ms = Ok (def, None) /\ md_value def = 8 /\
    forall page stack fd, ~ kernel_takes page stack b (create_attr true def (Some fd) None).
Proof.
  exists ebtf, (ep 24 8), [em (txt "type") 4; em (txt "key") 2; em (txt "value") 6; em (txt "max_entries") 8; em (txt "map_flags") 10],
    (base_def 2 8 0 4 8 1 5).
  split; [apply ep_ok; lia|]. split; [unfold sized; cbn; repeat split; intros; try discriminate; lia|].
  split; [split; [apply no_flags|split; intros; discriminate]|]. split.
  { unfold plain_struct. cbn [btf_decl btf_map app].
    apply Forall2_cons; [split; [vm_compute; reflexivity|]; do 4 eexists; split; vm_compute; reflexivity|].
    apply Forall2_cons; [eapply etype; vm_compute; reflexivity|].
    apply Forall2_cons.
    { split; [vm_compute; reflexivity|]. cbn [snd]. eexists. exists 2%nat, 2%nat. split; [vm_compute; reflexivity|]. split; [|split; lia].
      change (a_value (ep 24 8)) with (3 * (2 * 4)). eapply csize_array; [vm_compute; reflexivity|]. eapply csize_array; [vm_compute; reflexivity|].
      eapply csize_leaf; vm_compute; reflexivity. }
    apply Forall2_cons; [split; [vm_compute; reflexivity|]; do 4 eexists; split; vm_compute; reflexivity|].
    apply Forall2_cons; [split; [vm_compute; reflexivity|]; do 4 eexists; split; vm_compute; reflexivity|]. constructor. }
  split; [reflexivity|]. split; [vm_compute; reflexivity|]. split; [reflexivity|].
  intros page stack fd (_ & _ & _ & H). cbn in H. destruct H as [[H _]|(_ & _ & d & k & C)]; [discriminate H|].
  inversion C as [? t ? T S|? ? ? t ? ? T S|? ? ? h el ix len s T C1]; subst; vm_compute in T; apply ok_inj in T; subst; try discriminate S.
  injection T as <- <- <- <-.
  lia.
Qed.
Print Assumptions C89_nested_refuted.
