(** More of what CO-RE relocations should do: which kinds of types can match,
    and the access strings of relocations about types. *)
From Coq Require Import String.
From Verif Require Import Base Text BtfTypes BtfModel CoreModel CoreSpec.
Local Open Scope Z_scope.

(** A type of the kernel can match one of the program if both are of one kind;
    a 64-bit enum of the program may have been rewritten to a union for old
    kernels, and matches 64-bit enums too. *)
Definition fitting (l t : btype) : Prop :=
  kind_of l = kind_of t \/ exists h ms fb h' vs, l = TUnion h ms (Some fb) /\ t = TEnum64 h' vs.

(** The relocations about types as such: numbers 6 to 9 of
    [enum bpf_core_relo_kind]. *)
Definition about_types (k : rkind) : Prop := k = TIdLocal \/ k = TIdTarget \/ k = TExists \/ k = TSize.

(** The relocations asking whether something exists: numbers 2, 8 and 10. *)
Definition about_existence (k : rkind) : Prop := k = FExists \/ k = TExists \/ k = EExists.

(** An integer is signed if the lowest bit of its encoding, bit 24 of its
    data, is set (BTF_INT_SIGNED of include/uapi/linux/btf.h). *)
Definition signed_int (data : Z) : Prop := Z.testbit data 24 = true.

(** Loads can be resized between pointers and between unsigned integers. *)
Definition resizable (l t : btype) : Prop :=
  (exists h h', l = TPtr h /\ t = TPtr h') \/
  (exists h d h' d', l = TInt h d /\ t = TInt h' d' /\ ~ signed_int d /\ ~ signed_int d').

(** BPF_CORE_SPEC_MAX_LEN of libbpf. *)
Definition deepest : nat := 64.
