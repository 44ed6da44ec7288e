(** What sanitising is meant to do, per type. *)
From Verif Require Import Base BtfTypes BtfModel BtfSanitize.
Local Open Scope Z_scope.

(** What a kernel with the features [feat] accepts. *)
Definition accepts (feat : feature -> bool) (t : btype) : Prop :=
  match t with
  | TFunc h => feat FFunc = true /\ (func_linkage (h_info h) = 1 -> feat FFuncGlobal = true)
  | TFuncProto _ _ => feat FFunc = true
  | TVar _ _ => feat FDataSec = true
  | TDataSec _ es => feat FDataSec = true /\ (es = [] -> feat FDataSecZero = true)
  | TFloat _ => feat FFloat = true
  | TDeclTag _ _ => feat FDeclTag = true
  | TTypeTag _ => feat FTypeTag = true
  | TEnum h _ => info_flag (h_info h) = true -> feat FEnum64 = true
  | TEnum64 _ _ => feat FEnum64 = true
  | _ => True
  end.

(** [san feat t t']: [t'] is an admissible result for [t] at the same id. *)
Definition san (feat : feature -> bool) (t t' : btype) : Prop :=
  match t with
  | TPtr h => t' = TPtr (with_name h 0)
  | TVar h _ => t' = if feat FDataSec then t else new_int (h_name h) 1 0 0
  | TDataSec h es =>
      if feat FDataSec then
        (0 < h_third h /\ exists n, t' = TDataSec (with_name h n) es) \/
        (h_third h <= 0 /\ exists n es' size, t' = new_datasec n es' size /\
           (es <> [] -> map de_type es' = map de_type es /\ map de_size es' = map de_size es) /\
           (es = [] -> (es' = [] /\ 0 < size /\ feat FDataSecZero = true) \/
                       (exists e, es' = [e] /\ de_size e = size /\ 0 < size)))
      else exists n ms, t' = new_struct n ms (u32 (Z.of_nat (length es))) /\
           map m_type ms = map de_type es /\ map m_off ms = map (fun e => u32 (de_off e * 8)) es
  | TFuncProto h ps =>
      if feat FFunc then
        exists ps', t' = TFuncProto h ps' /\
          Forall2 (fun p p' => snd p' = snd p /\ (fst p' = fst p \/ (fst p = 0 /\ snd p <> 0))) ps ps'
      else t' = new_enum (h_name h) false ps
  | TFunc h =>
      if feat FFunc then
        (t' = t /\ (func_linkage (h_info h) = 1 -> feat FFuncGlobal = true)) \/
        (func_linkage (h_info h) = 1 /\ t' = TFunc (with_info h (set_linkage (h_info h) 0)))
      else t' = new_typedef (h_name h) (h_third h)
  | TFloat h => t' = if feat FFloat then t else new_struct 0 [] (h_third h)
  | TDeclTag h _ => t' = if feat FDeclTag then t else new_int (h_name h) 1 0 0
  | TTypeTag h => t' = if feat FTypeTag then t else new_const (h_third h)
  | TEnum h vs => t' = if negb (feat FEnum64) && info_flag (h_info h) then TEnum (with_info h (clear31 (h_info h))) vs else t
  | TEnum64 h vs =>
      if feat FEnum64 then t' = t
      else exists id, t' = new_union (h_name h) (h_third h)
             (map (fun v => {| m_name := fst (fst v); m_type := id; m_off := 0 |}) vs)
             (Some {| fb_signed := info_flag (h_info h);
                      fb_variants := map (fun v => (fst (fst v), Z.lor (Z.shiftl (snd v) 32) (snd (fst v)))) vs |})
  | _ => t' = t
  end.

(** Types appended at the end: one-byte integers, and a static variable when
    the kernel knows variables. *)
Definition appended (feat : feature -> bool) (t : btype) : Prop :=
  (exists n, t = new_int n 1 0 0) \/ (feat FDataSec = true /\ exists n id, t = new_var n id 0).

(** A data section without entries whose size is already set is left alone. *)
Definition no_sized_empty (feat : feature -> bool) (t : btype) : Prop :=
  match t with
  | TDataSec h [] => 0 < h_third h -> feat FDataSec = true -> feat FDataSecZero = true
  | _ => True
  end.

(** Names and entry ids that point into the tables. *)
Definition refs_in (b : btf) : Prop :=
  Forall (fun t => 0 <= name_offset t <= Z.of_nat (length (b_strings b)) /\
    match t with
    | TDataSec _ es => Forall (fun e => 0 <= de_type e < Z.of_nat (length (b_types b))) es
    | _ => True
    end) (b_types b).
