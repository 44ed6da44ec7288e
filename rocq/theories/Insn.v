(** eBPF instructions and the parts of the parsed object that the relocation
    code works on: /repo/aya-obj/src/relocation.rs:101-130 ([Relocation],
    [Symbol]) and /repo/aya-obj/src/obj.rs:90-110 ([Function]).
    Register nibbles are kept as separate fields ([set_src_reg], [set_dst_reg]
    of the generated bitfield accessors write one nibble only). *)
From Verif Require Import Base.
Local Open Scope Z_scope.

Record insn := { code : Z; dst : Z; src : Z; off : Z; imm : Z }.

Definition set_src (v : Z) (i : insn) : insn :=
  {| code := code i; dst := dst i; src := v; off := off i; imm := imm i |}.
Definition set_imm (v : Z) (i : insn) : insn :=
  {| code := code i; dst := dst i; src := src i; off := off i; imm := v |}.
Definition set_off (v : Z) (i : insn) : insn :=
  {| code := code i; dst := dst i; src := src i; off := v; imm := imm i |}.

(** uapi constants. *)
Definition BPF_PSEUDO_MAP_FD := 1.
Definition BPF_PSEUDO_MAP_VALUE := 2.
Definition BPF_PSEUDO_BTF_ID := 3.
Definition BPF_PSEUDO_FUNC := 4.
Definition BPF_PSEUDO_CALL := 1.
Definition BPF_PSEUDO_KFUNC_CALL := 2.
Definition CALL_CODE := 133.   (* BPF_JMP | BPF_CALL = 0x85 *)
Definition LDDW_CODE := 24.    (* BPF_LD | BPF_DW | BPF_IMM = 0x18 *)

(** relocation.rs:668-679; class JMP = 5, op CALL = 0x80, source BPF_K = 0. *)
Definition insn_is_call (i : insn) : bool :=
  (Z.land (code i) 7 =? 5) && (Z.land (code i) 240 =? 128) && (Z.land (code i) 8 =? 0) &&
  (src i =? BPF_PSEUDO_CALL) && (dst i =? 0) && (off i =? 0).

(** obj.rs:873-879. *)
Definition insn_is_helper_call (i : insn) : bool :=
  (Z.land (code i) 7 =? 5) && (Z.land (code i) 240 =? 128) && (Z.land (code i) 8 =? 0) &&
  (src i =? 0) && (dst i =? 0).

Definition INS_SIZE : Z := 8.

(** [object::SymbolKind], the values the code distinguishes. *)
Inductive symkind := KText | KSection | KData | KUnknown | KOther.
Definition symkind_eqb (a b : symkind) : bool :=
  match a, b with
  | KText, KText | KSection, KSection | KData, KData | KUnknown, KUnknown | KOther, KOther => true
  | _, _ => false
  end.

(** Names are lists of bytes. *)
Definition name := list Z.
Fixpoint name_eqb (a b : name) : bool :=
  match a, b with
  | [], [] => true
  | x :: a', y :: b' => (x =? y) && name_eqb a' b'
  | _, _ => false
  end.

Record symbol := {
  s_section : option nat; s_name : option name; s_address : Z; s_size : Z;
  s_def : bool; s_kind : symkind; s_weak : bool }.

(** relocation.rs:122-130. *)
Definition is_extern (s : symbol) : bool :=
  (match s_section s with None => true | _ => false end) &&
  (match s_name s with Some _ => true | _ => false end) &&
  negb (s_def s) && symkind_eqb (s_kind s) KUnknown.

Record reloc := { r_offset : Z; r_size : Z; r_sym : nat }.

(** Symbol table [HashMap<usize, Symbol>] as a partial function. *)
Definition symtab := nat -> option symbol.

Lemma name_eqb_eq a b : name_eqb a b = true <-> a = b.
Proof.
  revert b; induction a as [|x a IH]; intros [|y b]; cbn [name_eqb]; split; try congruence; auto.
  - rewrite andb_true_iff, Z.eqb_eq, IH. intros [-> ->]; reflexivity.
  - intros H; inversion H; subst. rewrite andb_true_iff, Z.eqb_eq, IH. auto.
Qed.

Lemma name_eqb_refl a : name_eqb a a = true.
Proof. now apply name_eqb_eq. Qed.

Lemma insn_eta i : {| code := code i; dst := dst i; src := src i; off := off i; imm := imm i |} = i.
Proof. now destruct i. Qed.
