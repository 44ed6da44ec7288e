(** Property theorems C06 (map relocation) and C11 (kernel symbol relocation). *)
From Verif Require Import Base Insn PatchModel PatchSpec PatchProofs PatchProofs2.
Local Open Scope Z_scope.

(** C06: an instruction with a relocation that refers to data names the right
    map: its fd, the pseudo register, and for global data symbol address plus
    addend in the second slot. *)
Theorem C06_reference_is_patched :
  forall secoff maps syms text rs ins ins' r i x sym sec,
    map_table_ok maps syms text rs ->
    relocate_maps secoff maps syms text rs ins = Ok ins' ->
    In r rs -> sits_on secoff (length ins) r i -> nth_error ins i = Some x ->
    map_reference syms text r x sym sec ->
    exists m, names_map maps (r_sym r) sec m /\
      nth_error ins' i = Some {| code := code x; dst := dst x; off := off x; imm := m_fd m;
                                 src := if m_data_empty m then BPF_PSEUDO_MAP_FD else BPF_PSEUDO_MAP_VALUE |} /\
      (m_data_empty m = false -> exists y, nth_error ins (S i) = Some y /\
         nth_error ins' (S i) = Some (set_imm (i32 (imm x + i32 (s_address sym))) y)).
Proof. exact map_patched. Qed.
Print Assumptions C06_reference_is_patched.

(** C06: every instruction that neither carries such a relocation nor is the
    second slot of a global data load stays as it was. *)
Theorem C06_everything_else_unchanged :
  forall secoff maps syms text rs ins ins' j,
    map_table_ok maps syms text rs ->
    relocate_maps secoff maps syms text rs ins = Ok ins' ->
    (forall r x sym sec, In r rs -> sits_on secoff (length ins) r j -> nth_error ins j = Some x ->
       ~ map_reference syms text r x sym sec) ->
    (forall r i x sym sec m, In r rs -> j = S i -> sits_on secoff (length ins) r i -> nth_error ins i = Some x ->
       map_reference syms text r x sym sec -> names_map maps (r_sym r) sec m -> m_data_empty m = true) ->
    nth_error ins' j = nth_error ins j.
Proof. exact map_untouched. Qed.
Print Assumptions C06_everything_else_unchanged.

Theorem C06_length_unchanged :
  forall secoff maps syms text rs ins ins',
    map_table_ok maps syms text rs ->
    relocate_maps secoff maps syms text rs ins = Ok ins' -> length ins' = length ins.
Proof. intros secoff maps syms text rs ins ins' HT H. exact (proj1 (map_run secoff maps syms text rs ins ins' HT H)). Qed.
Print Assumptions C06_length_unchanged.

(** C06: a relocation inside the function that is misaligned or names no symbol
    makes relocation fail. *)
Theorem C06_bad_relocations_are_refused :
  forall secoff maps syms text rs ins ins' r,
    map_table_ok maps syms text rs ->
    relocate_maps secoff maps syms text rs ins = Ok ins' ->
    In r rs -> secoff <= r_offset r < secoff + 8 * Z.of_nat (length ins) ->
    (exists i, sits_on secoff (length ins) r i) /\ syms (r_sym r) <> None.
Proof. exact map_refused. Qed.
Print Assumptions C06_bad_relocations_are_refused.

(** C06: the iteration order of the relocation hash map does not matter. *)
Theorem C06_order_independent :
  forall secoff maps syms text rs rs' ins ins',
    map_table_ok maps syms text rs -> Permutation rs rs' ->
    relocate_maps secoff maps syms text rs ins = Ok ins' ->
    relocate_maps secoff maps syms text rs' ins = Ok ins'.
Proof. exact map_order. Qed.
Print Assumptions C06_order_independent.

(** C11: kfunc calls. *)
Theorem C11_kfunc_calls :
  forall secoff externs syms rs ins ins' r i y x,
    extern_table_ok secoff syms ins rs ->
    patch_externs secoff externs syms rs ins = Ok ins' ->
    In r rs -> sits_on secoff (length ins) r i -> nth_error ins i = Some y ->
    extern_reference syms externs r x -> code y = CALL_CODE ->
    (x_resolved x = true /\ exists id, x_btf_id x = Some id /\
       nth_error ins' i = Some {| code := CALL_CODE; dst := dst y; src := BPF_PSEUDO_KFUNC_CALL; off := 0; imm := i32 id |})
    \/ (x_resolved x = false /\ x_weak x = true /\ nth_error ins' i = Some (poison_kfunc_call (r_sym r))).
Proof. exact ext_call. Qed.
Print Assumptions C11_kfunc_calls.

(** C11: the poison call names helper 2002000000 + symbol index. *)
Theorem C11_poison_is_recognisable :
  forall idx, Z.of_nat idx < 145483648 ->
    code (poison_kfunc_call idx) = CALL_CODE /\ src (poison_kfunc_call idx) = 0 /\
    imm (poison_kfunc_call idx) = 2002000000 + Z.of_nat idx.
Proof. intros idx H. exact (conj eq_refl (conj eq_refl (poison_imm idx H))). Qed.
Print Assumptions C11_poison_is_recognisable.

(** C11: 64-bit loads of kernel variables. *)
Theorem C11_ksym_loads :
  forall secoff externs syms rs ins ins' r i y x,
    extern_table_ok secoff syms ins rs ->
    patch_externs secoff externs syms rs ins = Ok ins' ->
    In r rs -> sits_on secoff (length ins) r i -> nth_error ins i = Some y ->
    extern_reference syms externs r x -> code y <> CALL_CODE ->
    code y = LDDW_CODE /\
    exists z lo hi, nth_error ins (S i) = Some z /\ nth_error ins' i = Some lo /\ nth_error ins' (S i) = Some hi /\
      hi = set_imm (imm hi) z /\ lo = set_src (src lo) (set_imm (imm lo) y) /\
      ((exists id, x_btf_id x = Some id /\ src lo = BPF_PSEUDO_BTF_ID /\ imm lo = i32 id /\ imm hi = 0)
       \/ (exists a, x_btf_id x = None /\ x_addr x = Some a /\ src lo = 0 /\ (0 <= a < 2 ^ 64 -> lddw_value lo hi = a))
       \/ (x_btf_id x = None /\ x_addr x = None /\ x_weak x = true /\ src lo = 0 /\ lddw_value lo hi = 0)).
Proof. exact ext_load. Qed.
Print Assumptions C11_ksym_loads.

(** C11: an unresolved strong symbol fails the load. *)
Theorem C11_strong_unresolved_fails :
  forall secoff externs syms rs ins r i y x,
    extern_table_ok secoff syms ins rs ->
    In r rs -> sits_on secoff (length ins) r i -> nth_error ins i = Some y ->
    extern_reference syms externs r x -> x_weak x = false ->
    (code y = CALL_CODE /\ x_resolved x = false \/ code y = LDDW_CODE /\ x_btf_id x = None /\ x_addr x = None) ->
    exists e, patch_externs secoff externs syms rs ins = Err e.
Proof. exact ext_strong. Qed.
Print Assumptions C11_strong_unresolved_fails.

Theorem C11_everything_else_unchanged :
  forall secoff externs syms rs ins ins' j,
    extern_table_ok secoff syms ins rs ->
    patch_externs secoff externs syms rs ins = Ok ins' ->
    (forall r x, In r rs -> sits_on secoff (length ins) r j -> ~ extern_reference syms externs r x) ->
    (forall r i y x, In r rs -> j = S i -> sits_on secoff (length ins) r i -> nth_error ins i = Some y ->
       extern_reference syms externs r x -> code y = CALL_CODE) ->
    nth_error ins' j = nth_error ins j.
Proof. exact ext_untouched. Qed.
Print Assumptions C11_everything_else_unchanged.

Theorem C11_order_independent :
  forall secoff externs syms rs rs' ins ins',
    extern_table_ok secoff syms ins rs -> Permutation rs rs' ->
    patch_externs secoff externs syms rs ins = Ok ins' ->
    patch_externs secoff externs syms rs' ins = Ok ins'.
Proof. exact ext_order. Qed.
Print Assumptions C11_order_independent.

(* ------------------------------------------------------------------ *)
(** A concrete case: one map by symbol, one global data section, one kfunc and
    one typeless ksym. *)
Definition ex_lddw (i : Z) := {| code := LDDW_CODE; dst := 1; src := 0; off := 0; imm := i |}.
Definition ex_nop := {| code := 0; dst := 0; src := 0; off := 0; imm := 0 |}.
Definition ex_kcall := {| code := CALL_CODE; dst := 0; src := 0; off := 0; imm := -1 |}.
Definition ex_ins := [ex_lddw 0; ex_nop; ex_lddw 8; ex_nop; ex_kcall; ex_lddw 0; ex_nop].
Definition ex_sym sec nm addr kind def weak : symbol :=
  {| s_section := sec; s_name := nm; s_address := addr; s_size := 8; s_def := def; s_kind := kind; s_weak := weak |}.
Definition ex_syms : symtab := fun n =>
  match n with
  | 0%nat => Some (ex_sym (Some 4%nat) (Some [77]) 0 KData true false)
  | 1%nat => Some (ex_sym (Some 5%nat) (Some [78]) 16 KData true false)
  | 2%nat => Some (ex_sym None (Some [79]) 0 KUnknown false false)
  | 3%nat => Some (ex_sym None (Some [80]) 0 KUnknown false true)
  | _ => None
  end.
Definition ex_maps := [{| m_fd := 7; m_section := 4; m_symbol := Some 0%nat; m_data_empty := true |};
                       {| m_fd := 9; m_section := 5; m_symbol := None; m_data_empty := false |}].
Definition ex_rel o s := {| r_offset := 64 + 8 * o; r_size := 64; r_sym := s |}.
Definition ex_rels := [ex_rel 0 0%nat; ex_rel 2 1%nat; ex_rel 4 2%nat; ex_rel 5 3%nat].
Definition ex_externs : name -> option extern := fun nm =>
  if name_eqb nm [79] then Some {| x_resolved := true; x_weak := false; x_btf_id := Some 1234; x_addr := None |}
  else if name_eqb nm [80] then Some {| x_resolved := true; x_weak := true; x_btf_id := None; x_addr := Some (2 ^ 63 + 5) |}
  else None.

Example C06_case : exists ins', relocate_maps 64 ex_maps ex_syms (fun _ => false) ex_rels ex_ins = Ok ins' /\
  nth_error ins' 0 = Some {| code := 24; dst := 1; src := 1; off := 0; imm := 7 |} /\
  nth_error ins' 2 = Some {| code := 24; dst := 1; src := 2; off := 0; imm := 9 |} /\
  nth_error ins' 3 = Some {| code := 0; dst := 0; src := 0; off := 0; imm := 24 |}.
Proof. eexists. split; [vm_compute; reflexivity|]. vm_compute. auto. Qed.

Example C06_case_table : map_table_ok ex_maps ex_syms (fun _ => false) ex_rels.
Proof.
  split.
  - vm_compute. repeat constructor; cbn; intuition discriminate.
  - intros r r' sym sec m Hr Hr' H1 H2 _ _ _.
    destruct Hr as [<-|[<-|[<-|[<-|[]]]]]; cbn in H1; inversion H1; subst; cbn in H2; try discriminate;
      destruct Hr' as [<-|[<-|[<-|[<-|[]]]]]; vm_compute; discriminate.
Qed.

Example C11_case : exists ins', patch_externs 64 ex_externs ex_syms ex_rels ex_ins = Ok ins' /\
  nth_error ins' 4 = Some {| code := 133; dst := 0; src := 2; off := 0; imm := 1234 |} /\
  nth_error ins' 5 = Some {| code := 24; dst := 1; src := 0; off := 0; imm := 5 |} /\
  nth_error ins' 6 = Some {| code := 0; dst := 0; src := 0; off := 0; imm := -2147483648 |}.
Proof. eexists. split; [vm_compute; reflexivity|]. vm_compute. auto. Qed.

Example C11_case_table : extern_table_ok 64 ex_syms ex_ins ex_rels.
Proof.
  split.
  - vm_compute. repeat constructor; cbn; intuition discriminate.
  - intros r r' i x Hr Hr' [Hi Hs] Hx Hc (sym & H1 & H2).
    destruct Hr as [<-|[<-|[<-|[<-|[]]]]]; cbn in H1; inversion H1; subst; cbn in H2; try discriminate;
      destruct Hr' as [<-|[<-|[<-|[<-|[]]]]]; try (vm_compute; discriminate).
    assert (i = 4%nat) by (cbn [ex_rel r_offset] in Hs; lia). subst. cbn in Hx. inversion Hx; subst. discriminate.
Qed.
