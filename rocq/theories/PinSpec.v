(** What C48, C71 and C72 mean, for [PinModel]. *)
From Verif Require Import Base Text PinModel.
Local Open Scope Z_scope.

(** [p] was pinned, or a map created for it, that often. *)
Definition times (f : event -> bool) (w : world) : nat := length (filter f (w_log w)).
Definition pinned_at (p : list Z) (w : world) : nat := times (fun e => match e with Pinned q _ => str_eqb q p | _ => false end) w.
Definition created_for (p : list Z) (w : world) : nat := times (fun e => match e with Created (Some q) _ => str_eqb q p | _ => false end) w.
Definition here (p : list Z) (w : world) : nat := if existsb (fun x => str_eqb (fst x) p) (w_pins w) then 1%nat else 0%nat.

(** A map was loaded from this path. *)
Definition loaded_from (rs : list (loader * res merr (list (omap * Z)))) (p : list Z) (id : Z) : Prop :=
  exists l r o, In (l, Ok r) rs /\ In (o, id) r /\ pin_path l o = Some p.

(** A file system without two files of one name, maps with numbers given out. *)
Definition sound (w : world) : Prop :=
  NoDup (map fst (w_pins w)) /\ NoDup (map k_id (w_maps w)) /\ Forall (fun k => k_id k < w_next w) (w_maps w) /\ Forall (fun p => exists k, In k (w_maps w) /\ k_id k = snd p) (w_pins w).

(** Programs: no [pin] fails, and nobody else removes files. *)
Fixpoint smooth (l : list fop) (s : fs) : Prop :=
  match l with
  | [] => True
  | o :: l => match o with FPin _ _ => fst (fstep o s) = Ok tt | FRemove _ => False | _ => True end /\ smooth l (snd (fstep o s))
  end.
Definition fresh_fs (s : fs) : Prop := NoDup (map fst (f_files s)) /\ Forall (fun d => d_path d = None) (f_progs s).

(** Bytes past the end of a buffer were read. *)
Definition beyond (w : world) : nat := times (fun e => match e with ReadBeyond _ => true | _ => false end) w.

(** Where a map belongs: at the path the caller gave for its name, else in the
    caller's directory or the default one if its definition says so, else
    nowhere. *)
Inductive belongs (l : loader) (o : omap) : option (list Z) -> Prop :=
| belongs_given p : In (o_name o, p) (l_paths l) -> belongs l o (Some p)
| belongs_dir d : (forall p, ~ In (o_name o, p) (l_paths l)) -> o_pinned o = true -> l_dir l = Some d -> d <> [] -> last d 0 <> 47 -> belongs l o (Some (d ++ [47] ++ o_name o))
| belongs_default : (forall p, ~ In (o_name o, p) (l_paths l)) -> o_pinned o = true -> l_dir l = None ->
    belongs l o (Some ([47; 115; 121; 115; 47; 102; 115; 47; 98; 112; 102; 47] ++ o_name o))
| belongs_nowhere : (forall p, ~ In (o_name o, p) (l_paths l)) -> o_pinned o = false -> belongs l o None.
(** One path for each name, and names that are no absolute paths. *)
Definition one_path (l : loader) : Prop := NoDup (map fst (l_paths l)).
Definition relative (name : list Z) : Prop := hd 0 name <> 47.
