(** What finding kernel modules on the test machine must achieve. *)
From Coq Require Import String.
From Verif Require Import Base Text TextSplit LogModel KmodModel.
Local Open Scope Z_scope.

(** The file of module [m]. *)
Definition file_name_of (m : str) (c : compression) : str :=
  m ++ txt ".ko" ++ match c with CNone => [] | CXz => txt ".xz" | CZstd => txt ".zst" end.
Definition module_file (e : entry) (m : str) (c : compression) : Prop :=
  e_file e = true /\ exists dirs, e_path e = dirs ++ [file_name_of m c].
(** Its contents, and what its section .modinfo holds. *)
Definition contents_of (V : env) (e : entry) (c : compression) (d : str) : Prop := v_unpack V c (e_data e) = Some d.
Inductive modinfo_is : list (option str * option str) -> str -> Prop :=
| modinfo_here d l : modinfo_is ((Some (txt ".modinfo"), Some d) :: l) d
| modinfo_later n x d l : n <> txt ".modinfo" -> modinfo_is l d -> modinfo_is ((Some n, x) :: l) d.
(** The texts between zero bytes that name an alias. *)
Inductive aliases_are : list str -> list str -> Prop :=
| no_aliases : aliases_are [] []
| an_alias a p l : aliases_are p l -> aliases_are ((txt "alias=" ++ a) :: p) (a :: l)
| no_alias x p l : (forall a, x <> txt "alias=" ++ a) -> aliases_are p l -> aliases_are (x :: p) l.
Definition declares (V : env) (e : entry) (m : str) (c : compression) (l : list str) : Prop :=
  exists contents secs d, contents_of V e c contents /\ v_sections V contents = Some secs /\ modinfo_is secs d /\
    Forall (fun p => utf8 p = true) (split_at 0 d) /\ aliases_are (split_at 0 d) l.

(** All aliases with their modules, in the order of the walk. *)
Definition name_ok (e : entry) : Prop := exists dirs n, e_path e = dirs ++ [n] /\ utf8 n = true.
Inductive listed (V : env) : list entry -> list (str * str) -> Prop :=
| listed_nil : listed V [] []
| listed_dir e t l : e_file e = false -> listed V t l -> listed V (e :: t) l
| listed_other e t l : e_file e = true -> name_ok e -> (forall m c, ~ module_file e m c) -> listed V t l -> listed V (e :: t) l
| listed_module e m c al t l : module_file e m c -> name_ok e -> declares V e m c al -> listed V t l -> listed V (e :: t) (map (fun a => (a, m)) al ++ l).
Definition alias_line (x : str * str) : str := txt "alias " ++ fst x ++ txt " " ++ snd x ++ [10].

(** Aliases and names that a line can hold. *)
Definition plain_alias (a : str) : Prop := a <> [] /\ ~ In 10 a.
Definition plain_name (m : str) : Prop := m <> [] /\ ~ In 10 m /\ ~ In 32 m /\ forall p, m <> p ++ [13].
Definition plain (x : str * str) : Prop := plain_alias (fst x) /\ plain_name (snd x).

(** A line that is not about an alias. *)
Definition other_text (x : str) : Prop := utf8 x = true /\ ~ In 10 x /\ (forall p, x <> p ++ [13]) /\ forall r, x <> txt "alias " ++ r.

(** The first module that has the alias. *)
Inductive first_with (a : str) : list (str * str) -> str -> Prop :=
| first_here m l : first_with a ((a, m) :: l) m
| first_later b n l m : b <> a -> first_with a l m -> first_with a ((b, n) :: l) m.

(** The files below "kernel" whose names begin so. *)
Definition below_kernel (e : entry) (m : str) : Prop := exists dirs r, e_path e = txt "kernel" :: dirs ++ [m ++ txt ".ko" ++ r].
Definition is_elf (d : str) : Prop := exists r, d = [127; 69; 76; 70] ++ r.

(** File systems: what is below something is below a directory. *)
Definition sane_stat (stat : list str -> option bool) : Prop := forall d x, stat (d ++ [x]) <> None -> stat d = Some true.
