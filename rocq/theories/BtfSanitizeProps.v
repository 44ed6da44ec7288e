(** Property theorems C16: sanitising BTF for a kernel.  [inv b] says that the
    blob is in the layout the loader writes, disregarding the fallback record
    that downgraded enumerations carry in memory only. *)
From Coq Require Import String.
From Verif Require Import Base Text BtfTypes BtfTypesProofs BtfModel BtfProofs BtfProofs2 BtfSanitize BtfSanitizeSpec
  BtfSanitizeProofs BtfSanitizeProofs2 BtfSanitizeProofs3 BtfKsymsProofs.
Local Open Scope Z_scope.

(** Every type keeps its id and becomes what [san] prescribes for it; new types
    and strings are only appended. *)
Theorem C16_ids_in_place :
  forall feat secs syms b b', sanitize feat secs syms b = Ok b' ->
    (exists ts more, b_types b' = ts ++ more /\ Forall2 (san feat) (b_types b) ts /\ Forall (appended feat) more) /\
    exists strs, b_strings b' = b_strings b ++ strs.
Proof. intros. destruct (sanitize_ok _ _ _ _ _ H) as (A & B & _). auto. Qed.
Print Assumptions C16_ids_in_place.

(** Replacements have the same encoded length, except that an empty data
    section may get one filler entry. *)
Theorem C16_same_length :
  forall feat t t', san feat t t' ->
    type_info_size t' = type_info_size t \/
    exists h, t = TDataSec h [] /\ feat FDataSec = true /\ type_info_size t' = (type_info_size t + 12)%nat.
Proof. intros feat t t' H. exact (proj2 (san_size feat t t' H)). Qed.
Print Assumptions C16_same_length.

(** The result is again a well-formed blob: the kernel reads what the loader
    holds. *)
Theorem C16_well_formed :
  forall feat secs syms b b', sanitize feat secs syms b = Ok b' -> inv b -> rsize b' < 2 ^ 32 ->
    inv b' /\ btf_parse (btf_to_bytes b') = Ok (strip_fb b').
Proof.
  intros feat secs syms b b' H Hi Hr. split; [|exact (sanitize_parse _ _ _ _ _ H Hi Hr)].
  destruct (sanitize_ok _ _ _ _ _ H) as (_ & _ & V & _). exact (V Hi Hr).
Qed.
Print Assumptions C16_well_formed.

(** The kernel accepts every kind in the result, unless the input holds an
    empty data section whose size is already set. *)
Theorem C16_accepted_partial :
  forall feat secs syms b b', sanitize feat secs syms b = Ok b' -> inv b -> Forall (no_sized_empty feat) (b_types b) ->
    Forall (accepts feat) (b_types b').
Proof. exact sanitize_accepts. Qed.
Print Assumptions C16_accepted_partial.

(** No abort, when names and section entries point into the tables; and this
    stays so. *)
Theorem C16_no_abort_partial :
  forall feat secs syms b, refs_in b ->
    sanitize feat secs syms b <> Err BPanic /\
    forall b', sanitize feat secs syms b = Ok b' -> refs_in b'.
Proof.
  intros feat secs syms b H. split; [exact (sanitize_no_panic feat secs syms b H)|].
  intros b' E. destruct (sanitize_ok _ _ _ _ _ E) as (_ & _ & _ & F & _). auto.
Qed.
Print Assumptions C16_no_abort_partial.

(** The section of external symbols: entry [i] at offset [4 * i] with size 4,
    the section size to match, and no type changes its kind or id. *)
Theorem C16_ksyms_layout :
  forall b dsid place b' dh es,
    fixup_ksyms b dsid place = Ok b' -> type_at b dsid = Ok (TDataSec dh es) ->
    exists es', type_at b' dsid = Ok (TDataSec (with_third dh (u32 (4 * Z.of_nat (length es)))) es') /\
      Forall2 (fun e e' => de_size e' = 4 /\ (de_type e' = de_type e \/ place = Some (de_type e'))) es es' /\
      map de_off es' = map (fun i => u32 (4 * Z.of_nat i)) (seq 0 (length es)) /\
      exists more, map kind_of (b_types b') = map kind_of (b_types b) ++ more /\ (place <> None -> more = []).
Proof. exact fixup_ksyms_layout. Qed.
Print Assumptions C16_ksyms_layout.

(** * Witnesses *)
Definition no_features (_ : feature) : bool := false.
Definition only_datasec (f : feature) : bool := match f with FDataSec => true | _ => false end.
Definition all_features (_ : feature) : bool := true.
Definition nothing (_ : list Z) : option Z := None.
Definition size16 (_ : list Z) : option Z := Some 16.

(** int; int v; .bss = {v, size 0}; float; enum64. *)
Definition sample : btf :=
  build (fix_str btf_new)
    [AddString (txt "int"); AddType (new_int 1 4 1 0); AddString (txt "v"); AddType (new_var 5 1 1);
     AddString (txt ".bss"); AddType (new_datasec 7 [{| de_type := 2; de_off := 0; de_size := 4 |}] 0);
     AddType (new_float 1 8); AddType (new_enum64 1 true [(1, 5, 0)]); AddType (new_datasec 7 [] 0)].

Example C16_example_old :
  exists b, sanitize no_features size16 nothing sample = Ok b /\
    map kind_of (b_types b) = [KUnknown; KInt; KInt; KStruct; KStruct; KUnion; KStruct; KInt] /\
    btf_parse (btf_to_bytes b) = Ok (strip_fb b).
Proof. eexists. split; [vm_compute; reflexivity|]. split; vm_compute; reflexivity. Qed.
Example C16_example_new :
  exists b, sanitize only_datasec size16 (fun _ => Some 12) sample = Ok b /\
    map kind_of (b_types b) = [KUnknown; KInt; KVar; KDataSec; KStruct; KUnion; KDataSec; KInt; KInt; KVar] /\
    nth_error (b_types b) 3 = Some (new_datasec 7 [{| de_type := 2; de_off := 12; de_size := 4 |}] 16) /\
    nth_error (b_types b) 6 = Some (new_datasec 7 [{| de_type := 9; de_off := 0; de_size := 16 |}] 16).
Proof. eexists. split; [vm_compute; reflexivity|]. split; [|split]; vm_compute; reflexivity. Qed.
Example C16_example_refs : refs_in sample.
Proof.
  unfold refs_in. change (length (b_types sample)) with 7%nat. change (length (b_strings sample)) with 12%nat.
  vm_compute. repeat constructor; discriminate.
Qed.
Example C16_example_ksyms :
  let b := build (fix_str btf_new)
    [AddString (txt "a"); AddType (new_int 1 8 1 0); AddType (new_var 1 1 0); AddType (new_var 1 1 0);
     AddType (new_datasec 1 [{| de_type := 2; de_off := 9; de_size := 8 |}; {| de_type := 3; de_off := 9; de_size := 8 |}] 0)] in
  exists b', fixup_ksyms b 4 None = Ok b' /\
    type_at b' 4 = Ok (new_datasec 1 [{| de_type := 2; de_off := 0; de_size := 4 |}; {| de_type := 3; de_off := 4; de_size := 4 |}] 8) /\
    type_at b' 2 = Ok (new_var 1 5 1).
Proof. eexists. split; [vm_compute; reflexivity|]. split; vm_compute; reflexivity. Qed.

(** An empty data section with its size set is handed to kernels that reject
    it: the filler is only considered when the size is missing. *)
Definition sized_empty : btf := build (fix_str btf_new) [AddString (txt ".bss"); AddType (new_datasec 1 [] 8)].
Theorem C16_sized_empty_refuted :
  exists feat secs syms b b', btf_ok b /\ refs_in b /\ sanitize feat secs syms b = Ok b' /\
    ~ Forall (accepts feat) (b_types b').
Proof.
  exists only_datasec, size16, nothing, sized_empty. eexists. split; [|split; [|split; [vm_compute; reflexivity|]]].
  - split; [vm_compute; intuition discriminate|]. do 4 (split; [vm_compute; reflexivity|]).
    exists [new_datasec 1 [] 8]. split; [vm_compute; reflexivity|]. split; [|vm_compute; reflexivity].
    apply Forall_cons; [|apply Forall_nil]. apply new_datasec_ok; [unfold word_ok; lia|apply Forall_nil|unfold word_ok; lia|cbn; lia].
  - vm_compute. repeat constructor; discriminate.
  - intros H. inversion H as [|? ? _ H1]; subst. inversion H1 as [|? ? H2 _]; subst.
    destruct H2 as [_ H2]. specialize (H2 eq_refl). discriminate.
Qed.
Print Assumptions C16_sized_empty_refuted.

(** A data section turned into a struct gets the number of its entries as its
    size, so members lie outside the struct, which kernels reject. *)
Theorem C16_struct_size_refuted :
  exists feat secs syms b b' h ms m, refs_in b /\ sanitize feat secs syms b = Ok b' /\
    In (TStruct h ms) (b_types b') /\ In m ms /\ 8 * h_third h <= m_off m.
Proof.
  exists no_features, size16, nothing,
    (build (fix_str btf_new) [AddString (txt ".bss"); AddType (new_int 1 4 1 0); AddType (new_var 1 1 1);
       AddType (new_datasec 1 [{| de_type := 2; de_off := 4; de_size := 4 |}] 8)]).
  do 4 eexists. split; [vm_compute; repeat constructor; discriminate|]. split; [vm_compute; reflexivity|].
  split; [cbn [b_types In]; do 3 right; left; reflexivity|]. split; [left; reflexivity|]. vm_compute. discriminate.
Qed.
Print Assumptions C16_struct_size_refuted.

(** A section entry naming a missing type aborts the process on kernels without
    data sections. *)
Theorem C16_bad_entry_refuted :
  exists feat secs syms b, btf_parse (btf_to_bytes b) = Ok b /\ sanitize feat secs syms b = Err BPanic.
Proof.
  exists no_features, size16, nothing,
    (build (fix_str btf_new) [AddString (txt ".bss"); AddType (new_datasec 1 [{| de_type := 9; de_off := 0; de_size := 4 |}] 4)]).
  split; vm_compute; reflexivity.
Qed.
Print Assumptions C16_bad_entry_refuted.
