(** What map and kernel symbol relocation should do, per instruction. *)
From Verif Require Import Base Insn PatchModel.
Local Open Scope Z_scope.

(** The relocation sits on instruction [i] of a function placed at byte offset
    [secoff] of its section. *)
Definition sits_on (secoff : Z) (n : nat) (r : reloc) (i : nat) : Prop :=
  (i < n)%nat /\ r_offset r = secoff + 8 * Z.of_nat i.

(** Map [m] is the one a reference to symbol [sym] in section [sec] names: the
    map declared under that symbol; if there is none, the map holding the
    section's data. *)
Definition names_map (maps : list mapinfo) (sym sec : nat) (m : mapinfo) : Prop :=
  In m maps /\
  (m_symbol m = Some sym \/
   ((forall m', In m' maps -> m_symbol m' <> Some sym) /\ m_section m = sec)).

(** Instruction [x] with relocation [r] refers to data in section [sec], not to
    code. *)
Definition map_reference (syms : symtab) (text : nat -> bool) (r : reloc) (x : insn) (sym : symbol) (sec : nat) : Prop :=
  syms (r_sym r) = Some sym /\ s_section sym = Some sec /\ text sec = false /\ insn_is_call x = false.

(** The relocation table has one entry per offset, and no entry for the second
    slot of a 64-bit load that refers to data. *)
Definition map_table_ok (maps : list mapinfo) (syms : symtab) (text : nat -> bool) (rs : list reloc) : Prop :=
  NoDup (map r_offset rs) /\
  forall r r' sym sec m, In r rs -> In r' rs ->
    syms (r_sym r) = Some sym -> s_section sym = Some sec -> text sec = false ->
    names_map maps (r_sym r) sec m -> m_data_empty m = false ->
    r_offset r' <> r_offset r + 8.

(** The 64-bit constant loaded by a two-slot load. *)
Definition lddw_value (lo hi : insn) : Z := u32 (imm lo) + 2 ^ 32 * u32 (imm hi).

Definition extern_reference (syms : symtab) (externs : name -> option extern) (r : reloc) (x : extern) : Prop :=
  exists sym nm, syms (r_sym r) = Some sym /\ is_extern sym = true /\ s_name sym = Some nm /\ externs nm = Some x.

Definition extern_table_ok (secoff : Z) (syms : symtab) (ins : list insn) (rs : list reloc) : Prop :=
  NoDup (map r_offset rs) /\
  forall r r' i x, In r rs -> In r' rs -> sits_on secoff (length ins) r i ->
    nth_error ins i = Some x -> code x = LDDW_CODE ->
    (exists sym, syms (r_sym r) = Some sym /\ is_extern sym = true) ->
    r_offset r' <> r_offset r + 8.
