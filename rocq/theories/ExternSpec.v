(** What resolving kernel symbols must achieve. *)
From Verif Require Import Base Text TextParse Insn PatchModel BtfTypes BtfModel CoreSpec ExternModel.
Local Open Scope Z_scope.

(** The listing gives symbol [n] the non-zero address [a]. *)
Definition listed (text : list Z) (n : list Z) (a : Z) : Prop :=
  exists l s, In l (lines text) /\ kent l = Some (s, n) /\ hex_u64 s = Some a /\ a <> 0.

(** A line for symbol [n] carries something that is not a 64-bit address. *)
Definition malformed (text : list Z) (n : list Z) : Prop :=
  exists l s, In l (lines text) /\ kent l = Some (s, n) /\ hex_u64 s = None.

(** The line the kernel prints for a symbol (kernel/kallsyms.c, s_show):
    address in sixteen digits, kind letter, name and, for a symbol of a module,
    the module in brackets after a tab. *)
Definition kallsyms_line (a : Z) (k : Z) (n : list Z) (modul : option (list Z)) : list Z :=
  hex_fixed 16 a ++ 32 :: k :: 32 :: n ++ match modul with Some m => 9 :: 91 :: m ++ [93] | None => [] end.

(** A fresh extern, as [process_datasec_entry] makes it. *)
Definition fresh (kx : list Z * xdesc) : Prop :=
  exists id w ty, snd kx = new_desc (fst kx) id w ty.

(** What typed resolution may give for an extern: the kernel's type of this
    kind and name whose own type is compatible with the local one. *)
Definition typed_match (stack : nat) (local kernel : btf) (n : list Z) (x : xdesc) (id : Z) : Prop :=
  exists lid kid, xd_type x = Some lid /\ compat stack (b_types local) (b_types kernel) lid kid = CRes (Ok true) /\
    match type_by_id (b_types local) (xd_btf x), type_by_id (b_types kernel) id with
    | Ok (TFunc _), Ok (TFunc h) => type_name kernel (TFunc h) = Ok (lookup_name n x) /\ kid = h_third h
    | Ok (TVar _ _), Ok (TVar h l) => type_name kernel (TVar h l) = Ok n /\ kid = h_third h
    | _, _ => False
    end.

(** The type a function or variable refers to. *)
Definition carried (t : btype) : option Z :=
  match t with TFunc h => Some (h_third h) | TVar h _ => Some (h_third h) | _ => None end.
