(** Property theorems C13, C14, C15, C17, C18 and C19: BTF. *)
From Verif Require Import Base BtfTypes BtfTypesProofs BtfModel BtfProofs BtfProofs2.
Local Open Scope Z_scope.

(** * C13 *)
(** Every representable type is read back from its own bytes, whatever
    follows, and takes exactly the bytes it reports. *)
Theorem C13_read_back :
  forall t rest, btype_ok t ->
    read (to_bytes t ++ rest) = Ok t /\ length (to_bytes t) = type_info_size t.
Proof. intros t rest H. split; [exact (read_to_bytes t rest H)|exact (to_bytes_length t (btype_ok_known t H))]. Qed.
Print Assumptions C13_read_back.

(** Conversely the bytes read are reproduced, except for the third word of
    forward declarations and arrays, which the format does not use. *)
Theorem C13_bytes_survive :
  forall d t, bytes_ok d = true -> read d = Ok t -> t <> TUnknown ->
    btype_ok t /\ (type_info_size t <= length d)%nat /\
    (used_third t = true -> to_bytes t = firstn (type_info_size t) d) /\
    firstn 8 (to_bytes t) = firstn 8 d /\ skipn 12 (to_bytes t) = skipn 12 (firstn (type_info_size t) d).
Proof. exact read_ok. Qed.
Print Assumptions C13_bytes_survive.

(** The loader's own constructors build representable types, for fewer than
    65536 elements. *)
Theorem C13_constructors :
  (forall name ms size, word_ok name -> Forall word_ok (member_words ms) -> word_ok size ->
     Z.of_nat (length ms) < 2 ^ 16 -> btype_ok (new_struct name ms size)) /\
  (forall name size ms, word_ok name -> Forall word_ok (member_words ms) -> word_ok size ->
     Z.of_nat (length ms) < 2 ^ 16 -> btype_ok (new_union name size ms None)) /\
  (forall name es size, word_ok name -> Forall word_ok (entry_words es) -> word_ok size ->
     Z.of_nat (length es) < 2 ^ 16 -> btype_ok (new_datasec name es size)) /\
  (forall ps ret, Forall word_ok (pair_words ps) -> word_ok ret ->
     Z.of_nat (length ps) < 2 ^ 16 -> btype_ok (new_func_proto ps ret)) /\
  (forall name signed vs, word_ok name -> Forall word_ok (pair_words vs) ->
     Z.of_nat (length vs) < 2 ^ 16 -> btype_ok (new_enum name signed vs)) /\
  (forall name signed vs, word_ok name -> Forall word_ok (triple_words vs) ->
     Z.of_nat (length vs) < 2 ^ 16 -> btype_ok (new_enum64 name signed vs)) /\
  (forall name size enc off, word_ok name -> word_ok size -> btype_ok (new_int name size enc off)).
Proof.
  exact (conj new_struct_ok (conj new_union_ok (conj new_datasec_ok (conj new_func_proto_ok
    (conj new_enum_ok (conj new_enum64_ok new_int_ok)))))).
Qed.
Print Assumptions C13_constructors.

(** A struct with 65536 members or more is not read back: the count is stored
    in 16 bits. *)
Theorem C13_too_many_members_refuted :
  forall name ms size, 2 ^ 16 <= Z.of_nat (length ms) ->
    read (to_bytes (new_struct name ms size)) <> Ok (new_struct name ms size).
Proof. intros name ms size H E. apply read_struct_short in E. lia. Qed.
Print Assumptions C13_too_many_members_refuted.

(** The unknown kind reports 12 bytes and writes none. *)
Theorem C13_unknown_refuted :
  exists d, read d = Ok TUnknown /\ type_info_size TUnknown = 12%nat /\ to_bytes TUnknown = [].
Proof. exists (repeat 0 12). vm_compute. auto. Qed.
Print Assumptions C13_unknown_refuted.

(** A variable whose linkage is none of the declared ones is read into an enum
    without checking. *)
Theorem C13_var_linkage_refuted :
  exists d, bytes_ok d = true /\ length d = 16%nat /\ read d = Err BUndefined.
Proof. exists (words [0; 14 * 2 ^ 24; 1; 4]). vm_compute. auto. Qed.
Print Assumptions C13_var_linkage_refuted.

Example C13_example :
  read (to_bytes (new_struct 5 [{| m_name := 1; m_type := 2; m_off := 64 |}] 16) ++ [1; 2; 3]) =
  Ok (new_struct 5 [{| m_name := 1; m_type := 2; m_off := 64 |}] 16).
Proof. vm_compute. reflexivity. Qed.

(** * C14 *)
(** Any history of additions from an empty BTF, with at least one string: the
    bytes parse back to the same BTF. *)
Theorem C14_history_round_trip :
  forall ops, Forall op_ok ops -> (exists s, In (AddString s) ops) -> 25 + cost ops < 2 ^ 32 ->
    btf_parse (btf_to_bytes (build btf_new ops)) = Ok (build btf_new ops).
Proof. exact build_round_trip. Qed.
Print Assumptions C14_history_round_trip.

(** Every handle returned during the history resolves in the finished BTF to
    what was added. *)
Theorem C14_handles_stay_valid :
  forall p o q,
    Forall op_ok (p ++ o :: q) -> (exists s, In (AddString s) (p ++ o :: q)) -> 25 + cost (p ++ o :: q) < 2 ^ 32 ->
    match o with
    | AddString s => string_at (build btf_new (p ++ o :: q)) (handle (build btf_new p) o) = Ok s
    | AddType t => type_by_id (b_types (build btf_new (p ++ o :: q))) (handle (build btf_new p) o) = Ok t
    end.
Proof. exact build_handles. Qed.
Print Assumptions C14_handles_stay_valid.

(** One addition to any well formed BTF, also one parsed from a file. *)
Theorem C14_one_addition :
  forall b o, btf_ok b -> op_ok o -> blob_size b + op_cost o < 2 ^ 32 ->
    btf_ok (bstep b o) /\ blob_size (bstep b o) = blob_size b + op_cost o /\
    (forall i t, type_by_id (b_types b) i = Ok t -> type_by_id (b_types (bstep b o)) i = Ok t) /\
    (forall off s, 0 <= off < Z.of_nat (length (b_strings b)) -> string_at b off = Ok s -> string_at (bstep b o) off = Ok s) /\
    (length (b_strings b) <= length (b_strings (bstep b o)))%nat /\
    match o with
    | AddString s => string_at (bstep b o) (handle b o) = Ok s /\
                     0 <= handle b o < Z.of_nat (length (b_strings (bstep b o)))
    | AddType t => type_by_id (b_types (bstep b o)) (handle b o) = Ok t
    end.
Proof. exact bstep_ok. Qed.
Print Assumptions C14_one_addition.

(** Any BTF in the layout the writer uses. *)
Theorem C14_round_trip : forall b, btf_ok b -> btf_parse (btf_to_bytes b) = Ok b.
Proof. exact parse_to_bytes. Qed.
Print Assumptions C14_round_trip.

(** Parsing any bytes: no abort, and what is accepted consists of
    representable types. *)
Theorem C14_parse_total : forall d, bytes_ok d = true -> btf_parse d <> Err BPanic.
Proof. exact parse_no_panic. Qed.
Print Assumptions C14_parse_total.

Theorem C14_parsed_types_ok :
  forall d b, bytes_ok d = true -> btf_parse d = Ok b ->
    hdr_ok (b_hdr b) /\ bh_str_len (b_hdr b) = Z.of_nat (length (b_strings b)) /\
    exists ts, b_types b = TUnknown :: ts /\ Forall (fun t => t = TUnknown \/ btype_ok t) ts /\
               bh_type_len (b_hdr b) = types_size ts.
Proof. exact parse_ok. Qed.
Print Assumptions C14_parsed_types_ok.

(** The fresh BTF is not read back: its header says the string section is
    empty although it holds one byte. *)
Theorem C14_fresh_refuted :
  exists b, btf_parse (btf_to_bytes btf_new) = Ok b /\ b_strings b <> b_strings btf_new.
Proof.
  exists {| b_hdr := b_hdr btf_new; b_strings := []; b_types := [TUnknown] |}.
  split; [vm_compute; reflexivity|discriminate].
Qed.
Print Assumptions C14_fresh_refuted.

(** A parsed BTF that contains the unknown kind (or another section layout)
    writes bytes that parse to something else. *)
Definition unknown_kind_blob : list Z :=
  hdr_bytes {| bh_magic := 60319; bh_version := 1; bh_flags := 0; bh_hdr_len := 24; bh_type_off := 0;
               bh_type_len := 12; bh_str_off := 12; bh_str_len := 1 |} ++ repeat 0 13.
Theorem C14_unknown_kind_refuted :
  exists d b, bytes_ok d = true /\ btf_parse d = Ok b /\ btf_parse (btf_to_bytes b) = Err BInvalidHeader.
Proof.
  exists unknown_kind_blob,
    {| b_hdr := {| bh_magic := 60319; bh_version := 1; bh_flags := 0; bh_hdr_len := 24; bh_type_off := 0;
                   bh_type_len := 12; bh_str_off := 12; bh_str_len := 1 |};
       b_strings := [0]; b_types := [TUnknown; TUnknown] |}.
  vm_compute. auto.
Qed.
Print Assumptions C14_unknown_kind_refuted.

Definition strings_first_blob : list Z :=
  hdr_bytes {| bh_magic := 60319; bh_version := 1; bh_flags := 0; bh_hdr_len := 24; bh_type_off := 4;
               bh_type_len := 12; bh_str_off := 0; bh_str_len := 4 |} ++ [0; 97; 98; 0] ++ to_bytes (new_const 0).
Theorem C14_other_layout_refuted :
  exists d b b', bytes_ok d = true /\ btf_parse d = Ok b /\ Forall btype_ok (skipn 1 (b_types b)) /\
    btf_parse (btf_to_bytes b) = Ok b' /\ b_strings b' <> b_strings b /\ b_types b' <> b_types b.
Proof.
  exists strings_first_blob,
    {| b_hdr := {| bh_magic := 60319; bh_version := 1; bh_flags := 0; bh_hdr_len := 24; bh_type_off := 4;
                   bh_type_len := 12; bh_str_off := 0; bh_str_len := 4 |};
       b_strings := [0; 97; 98; 0]; b_types := [TUnknown; new_const 0] |},
    {| b_hdr := {| bh_magic := 60319; bh_version := 1; bh_flags := 0; bh_hdr_len := 24; bh_type_off := 4;
                   bh_type_len := 12; bh_str_off := 0; bh_str_len := 4 |};
       b_strings := [0; 0; 0; 0]; b_types := [TUnknown; TUnknown] |}.
  split; [vm_compute; reflexivity|]. split; [vm_compute; reflexivity|]. split; [|split; [vm_compute; reflexivity|split; discriminate]].
  constructor; [|constructor]. vm_compute. intuition discriminate.
Qed.
Print Assumptions C14_other_layout_refuted.

Example C14_example :
  btf_parse (btf_to_bytes (build btf_new [AddString [105; 110; 116]; AddType (new_int 1 4 1 0)])) =
  Ok (build btf_new [AddString [105; 110; 116]; AddType (new_int 1 4 1 0)]).
Proof. vm_compute. reflexivity. Qed.

(** * C15 *)
(** Offsets that do not lie behind the string section are safe, and those
    inside a table with its terminator give the string up to the next NUL. *)
Theorem C15_inside_is_safe_partial :
  forall b off, off <= Z.of_nat (length (b_strings b)) -> string_at b off <> Err BPanic.
Proof. exact string_at_no_panic. Qed.
Print Assumptions C15_inside_is_safe_partial.

Theorem C15_inside_text_partial :
  forall b off,
    bh_hdr_len (b_hdr b) + bh_str_off (b_hdr b) + bh_str_len (b_hdr b) < 2 ^ 32 ->
    0 <= bh_hdr_len (b_hdr b) -> 0 <= bh_str_off (b_hdr b) -> 0 <= bh_str_len (b_hdr b) ->
    0 <= off < bh_str_len (b_hdr b) -> bh_str_len (b_hdr b) = Z.of_nat (length (b_strings b)) ->
    string_at b off = match until_nul (skipn (Z.to_nat off) (b_strings b)) with
                      | Some s => Ok s | None => Err (BInvalidStringOffset off) end.
Proof. exact string_at_inside. Qed.
Print Assumptions C15_inside_text_partial.

(** Exactly which offsets abort. *)
Theorem C15_abort_iff_partial :
  forall b off, string_at b off = Err BPanic <->
    Z.of_nat (length (b_strings b)) < off < u32 (u32 (bh_str_off (b_hdr b) + bh_hdr_len (b_hdr b)) + bh_str_len (b_hdr b)).
Proof. exact string_at_panic_iff. Qed.
Print Assumptions C15_abort_iff_partial.

(** A blob that parses and whose only type has a name offset one past the end
    plus one: asking for its name aborts. *)
Definition bad_name_blob : list Z :=
  hdr_bytes {| bh_magic := 60319; bh_version := 1; bh_flags := 0; bh_hdr_len := 24; bh_type_off := 0;
               bh_type_len := 12; bh_str_off := 12; bh_str_len := 1 |} ++ to_bytes (new_typedef 2 0) ++ [0].
Theorem C15_aborts_refuted :
  exists d b t, bytes_ok d = true /\ btf_parse d = Ok b /\ type_by_id (b_types b) 1 = Ok t /\
    type_name b t = Err BPanic.
Proof.
  exists bad_name_blob,
    {| b_hdr := {| bh_magic := 60319; bh_version := 1; bh_flags := 0; bh_hdr_len := 24; bh_type_off := 0;
                   bh_type_len := 12; bh_str_off := 12; bh_str_len := 1 |};
       b_strings := [0]; b_types := [TUnknown; new_typedef 2 0] |}, (new_typedef 2 0).
  vm_compute. auto.
Qed.
Print Assumptions C15_aborts_refuted.

(** * C17 *)
(** The C size, for types with at most one array dimension. *)
Theorem C17_size_partial :
  forall ts d a id s, csize ts d a id s -> (d < 32)%nat -> (a <= 1)%nat -> 0 <= s < 2 ^ 32 -> type_size ts id = Ok s.
Proof. exact type_size_ok. Qed.
Print Assumptions C17_size_partial.

Theorem C17_over_deep_partial :
  forall ts id, size_long ts 32 id -> type_size ts id = Err (BMaximumTypeDepthReached id).
Proof. exact type_size_long. Qed.
Print Assumptions C17_over_deep_partial.

(** [int x[3][2]] has 24 bytes; the code says 8. *)
Definition nested_array : list btype :=
  [TUnknown; new_int 0 4 1 0;
   TArray {| h_name := 0; h_info := kind_info KArray; h_third := 0 |} 1 1 2;
   TArray {| h_name := 0; h_info := kind_info KArray; h_third := 0 |} 2 1 3].
Theorem C17_nested_array_refuted :
  exists ts id s, csize ts 2 2 id s /\ s = 24 /\ type_size ts id = Ok 8.
Proof.
  exists nested_array, 3, 24. split; [|split; [reflexivity|vm_compute; reflexivity]].
  change 24 with (3 * (2 * 4)). eapply csize_array; [reflexivity|]. eapply csize_array; [reflexivity|].
  eapply csize_leaf; reflexivity.
Qed.
Print Assumptions C17_nested_array_refuted.

(** 2^30 ints are 4 GiB; in a release build the code says 0. *)
Theorem C17_overflow_refuted :
  exists ts id s, csize ts 1 1 id s /\ s = 2 ^ 32 /\ type_size ts id = Ok 0.
Proof.
  exists [TUnknown; new_int 0 4 1 0; TArray {| h_name := 0; h_info := kind_info KArray; h_third := 0 |} 1 1 (2 ^ 30)],
    2, (2 ^ 30 * 4). split; [|split; [reflexivity|vm_compute; reflexivity]].
  eapply csize_array; [reflexivity|]. eapply csize_leaf; reflexivity.
Qed.
Print Assumptions C17_overflow_refuted.

Example C17_example_cycle : type_size [TUnknown; new_typedef 0 1] 1 = Err (BMaximumTypeDepthReached 1).
Proof. vm_compute. reflexivity. Qed.
Example C17_example_ptr : type_size [TUnknown; new_ptr 0 0; new_const 1] 2 = Ok 8.
Proof. vm_compute. reflexivity. Qed.

(** * C18 *)
Theorem C18_resolves_iff :
  forall ts id r, resolve_type ts id = Ok r <-> exists d, (d < 32)%nat /\ strips ts d id r.
Proof. exact resolve_type_ok. Qed.
Print Assumptions C18_resolves_iff.

Theorem C18_fails_iff :
  forall ts id e, resolve_type ts id = Err e <->
    (exists d bad, (d < 32)%nat /\ broken ts d id bad /\ e = BUnknownBtfType bad) \/
    (long ts 32 id /\ e = BMaximumTypeDepthReached id).
Proof. exact resolve_type_err. Qed.
Print Assumptions C18_fails_iff.

Theorem C18_idempotent :
  forall ts id r, resolve_type ts id = Ok r ->
    resolve_type ts r = Ok r /\ exists t, type_by_id ts r = Ok t /\ modifier t = None.
Proof. exact resolve_type_idem. Qed.
Print Assumptions C18_idempotent.

(** What is stripped: typedefs, qualifiers and type tags, and nothing else. *)
Theorem C18_kinds :
  forall ts id t, type_by_id ts id = Ok t ->
    (In (kind_of t) [KTypedef; KConst; KVolatile; KRestrict; KTypeTag] -> resolve_type ts id <> Ok id) /\
    (~ In (kind_of t) [KTypedef; KConst; KVolatile; KRestrict; KTypeTag] -> resolve_type ts id = Ok id).
Proof. exact resolve_type_kinds. Qed.
Print Assumptions C18_kinds.

Example C18_example : resolve_type [TUnknown; new_int 0 4 1 0; new_typedef 0 1; new_const 2] 3 = Ok 1.
Proof. vm_compute. reflexivity. Qed.
Example C18_example_cycle : resolve_type [TUnknown; new_typedef 0 2; new_const 1] 1 = Err (BMaximumTypeDepthReached 1).
Proof. vm_compute. reflexivity. Qed.

(** * C19 *)
(** Types built from the kinds C types are built from (see [plain]): the check
    against any type of any BTF returns without aborting, and a type is
    compatible with itself. *)
Theorem C19_self_partial :
  forall f ts id, plain ts f id -> compat (S f) ts ts id id = CRes (Ok true).
Proof. exact plain_self. Qed.
Print Assumptions C19_self_partial.

Theorem C19_returns_partial :
  forall f ts tt id tid, plain ts f id ->
    compat (S f) ts tt id tid <> CStack /\ compat (S f) ts tt id tid <> CRes (Err BPanic).
Proof. exact plain_fine. Qed.
Print Assumptions C19_returns_partial.

Theorem C19_fields_self_partial :
  forall b id, field_plain b 32 id -> fields_are_compatible b b id id = Ok true.
Proof. intros b id. exact (fields_self b 32 id). Qed.
Print Assumptions C19_fields_self_partial.

(** A prototype that takes itself as parameter exhausts any stack. *)
Definition cyclic_proto : list btype := [TUnknown; new_func_proto [(0, 1)] 0].
Theorem C19_stack_refuted :
  exists ts id, Forall btype_ok (skipn 1 ts) /\ forall stack, compat stack ts ts id id = CStack.
Proof.
  exists cyclic_proto, 1. split.
  - constructor; [|constructor]. apply new_func_proto_ok.
    + cbn [pair_words flat_map app fst snd]. repeat (apply Forall_cons; [unfold word_ok; lia|]). apply Forall_nil.
    + unfold word_ok; lia.
    + cbn. lia.
  - induction stack as [|stack IH]; [reflexivity|]. rewrite compat_S.
    assert (forall rec, rec 1 1 = CStack -> compat_loop rec cyclic_proto cyclic_proto MAX_RESOLVE_DEPTH 1 1 = CStack) as Hl.
    { intros rec Hrec. change MAX_RESOLVE_DEPTH with (S 31). generalize 31%nat as k. intros k. cbn [compat_loop].
      change (resolve_type cyclic_proto 1) with (@Ok berr Z 1). cbv iota.
      change (type_by_id cyclic_proto 1) with (@Ok berr _ (new_func_proto [(0, 1)] 0)). cbv iota.
      rewrite is_compatible_refl. cbn [negb compat_leaf new_func_proto length Nat.eqb compat_params snd].
      change (resolve_type cyclic_proto 1) with (@Ok berr Z 1). cbv iota. now rewrite Hrec. }
    change (type_by_id cyclic_proto 1) with (@Ok berr _ (new_func_proto [(0, 1)] 0)). cbv iota.
    rewrite is_compatible_refl. cbn [negb]. now apply Hl.
Qed.
Print Assumptions C19_stack_refuted.

(** Kinds that occur in type positions only in malformed BTF abort. *)
Theorem C19_abort_refuted :
  exists ts id, Forall btype_ok (skipn 1 ts) /\ compat 1 ts ts id id = CRes (Err BPanic).
Proof.
  exists [TUnknown; new_var 0 0 0], 1. split; [|vm_compute; reflexivity].
  constructor; [|constructor]. vm_compute. intuition discriminate.
Qed.
Print Assumptions C19_abort_refuted.

(** An integer with a bit offset is not compatible with itself, nor is a type
    nested 32 levels deep. *)
Theorem C19_bit_offset_refuted :
  exists ts id, Forall btype_ok (skipn 1 ts) /\ compat 1 ts ts id id = CRes (Ok false).
Proof.
  exists [TUnknown; new_int 0 4 0 8], 1. split; [|vm_compute; reflexivity].
  constructor; [|constructor]. apply new_int_ok; unfold word_ok; lia.
Qed.
Print Assumptions C19_bit_offset_refuted.

Example C19_example :
  compat 2 [TUnknown; new_int 0 4 1 0; new_ptr 0 1; new_func_proto [(0, 1); (0, 2)] 2; new_ptr 0 3]
           [TUnknown; new_int 0 8 1 0; new_ptr 0 1; new_func_proto [(0, 1); (0, 2)] 2; new_ptr 0 3] 4 4 = CRes (Ok true).
Proof. vm_compute. reflexivity. Qed.
Example C19_example_differ :
  compat 2 [TUnknown; new_int 0 4 1 0; new_ptr 0 1] [TUnknown; new_int 0 8 1 0; new_ptr 0 1] 2 1 = CRes (Ok false).
Proof. vm_compute. reflexivity. Qed.
