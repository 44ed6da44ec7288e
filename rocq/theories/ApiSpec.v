(** What the check of the public interfaces should do, C116. *)
From Coq Require Import String.
From Verif Require Import Base Text ApiModel.
Local Open Scope Z_scope.

(** A text with every carriage return before a newline left out. *)
Fixpoint unix (s : str) : str :=
  match s with
  | [] => []
  | c :: r => if (c =? 13) && match r with d :: _ => d =? 10 | [] => false end then unix r else c :: unix r
  end.
Definition same_text (a b : str) : Prop := unix a = unix b.

(** The crate diff: an alignment covers both lists in order, common lines are
    equal, and equal lists have only common lines. *)
Inductive aligned : list str -> list str -> list change -> Prop :=
| al_nil : aligned [] [] []
| al_both : forall x l r cs, aligned l r cs -> aligned (x :: l) (x :: r) (Both x x :: cs)
| al_left : forall x l r cs, aligned l r cs -> aligned (x :: l) r (LeftOnly x :: cs)
| al_right : forall x l r cs, aligned l r cs -> aligned l (x :: r) (RightOnly x :: cs).
Definition common (c : change) : Prop := exists x, c = Both x x.
Definition aligns (M : machine) : Prop :=
  (forall l r, aligned l r (m_align M l r)) /\ forall l, Forall common (m_align M l l).

(** cargo's names: letters, digits, dashes and underscores. *)
Definition name_char (c : Z) : Prop := 48 <= c <= 57 \/ 65 <= c <= 90 \/ 97 <= c <= 122 \/ c = 45 \/ c = 95.
Definition cargo_name (n : str) : Prop := n <> [] /\ Forall name_char n.
Definition named (ps : list package) : Prop := Forall (fun p => cargo_name (p_name p)) ps.

(** [publish = false] is the empty list of registries. *)
Definition published (p : package) : Prop := p_publish p <> Some [].
(** The file of a package. *)
Definition file (n : str) : str := txt "xtask/public-api/" ++ n ++ txt ".txt".
(** Procedural macros run on the host; everything else is documented for the
    target asked for. *)
Definition its_target (p : package) (target o : option str) : Prop :=
  (In true (p_macro p) /\ o = None) \/ (~ In true (p_macro p) /\ o = target).

(** The committed text of a package is its interface. *)
Definition up_to_date (M : machine) (d : disk) (target : option str) (p : package) : Prop :=
  exists o api cur, its_target p target o /\ m_api M (p_name p) o = Some api /\
    d (file (p_name p)) = Some cur /\ same_text api cur.

(** The nightly compiler is there or gets installed with consent. *)
Definition ready (M : machine) : Prop :=
  m_installed M = Yes \/ (m_installed M = No /\ m_confirm M = Yes /\ m_install M = true).

(** The name an error is about. *)
Definition about (e : error) : str := match e with Failed n _ => n | Changed n _ => n end.

(** The lines of a report: [+] for lines of the interface only, [-] for lines of
    the committed text only. *)
Definition report_line (c : change) : list str :=
  match c with
  | Both _ _ => []
  | LeftOnly l => [txt "+" ++ l ++ [10]]
  | RightOnly l => [txt "-" ++ l ++ [10]]
  end.
(** The pieces of a text between its newlines. *)
Fixpoint pieces (s : str) : list str :=
  match s with
  | [] => [[]]
  | c :: s => if c =? 10 then [] :: pieces s
              else match pieces s with p :: ps => (c :: p) :: ps | [] => [[c]] end
  end.
(** The pieces of a text, with an empty text having none. *)
Definition parts (s : str) : list str := match unix s with [] => [] | _ => pieces (unix s) end.
Definition report (api cur t : str) : Prop :=
  exists cs, aligned (parts api) (parts cur) cs /\ t = concat (flat_map report_line cs).

(** Blessing can write every file and every interface can be built. *)
Definition blessable (M : machine) (target : option str) (p : package) : Prop :=
  (exists o api, its_target p target o /\ m_api M (p_name p) o = Some api) /\
  m_creates M (file (p_name p)) = true /\ m_writes M (file (p_name p)) = None.
Definition written (M : machine) (d : disk) (target : option str) (p : package) : Prop :=
  exists o api, its_target p target o /\ m_api M (p_name p) o = Some api /\ d (file (p_name p)) = Some api.

(** The files in /repo/xtask/public-api. *)
Definition committed : list str :=
  map bytes_of_string ["xtask/public-api/aya-build.txt"; "xtask/public-api/aya-ebpf-bindings.txt";
           "xtask/public-api/aya-ebpf-cty.txt"; "xtask/public-api/aya-ebpf-macros.txt";
           "xtask/public-api/aya-ebpf.txt"; "xtask/public-api/aya-log-common.txt";
           "xtask/public-api/aya-log-ebpf-macros.txt"; "xtask/public-api/aya-log-ebpf.txt";
           "xtask/public-api/aya-log-parser.txt"; "xtask/public-api/aya-log.txt";
           "xtask/public-api/aya-obj.txt"; "xtask/public-api/aya.txt"]%string.

(** The members of a list that satisfy [P], in order. *)
Inductive picked (P : package -> Prop) : list package -> list package -> Prop :=
| pk_nil : picked P [] []
| pk_take : forall p ps qs, P p -> picked P ps qs -> picked P (p :: ps) (p :: qs)
| pk_skip : forall p ps qs, ~ P p -> picked P ps qs -> picked P (p :: ps) qs.
Definition errors_of (v : verdict) : list error := match v with Wrong es => es | _ => [] end.
(** An alignment by hand for examples: what comes before the first difference is
    common, the rest is not. *)
Fixpoint naive (l r : list str) : list change :=
  match l, r with
  | x :: l', y :: r' =>
      if list_eq_dec Z.eq_dec x y then Both x x :: naive l' r' else map LeftOnly l ++ map RightOnly r
  | _, _ => map LeftOnly l ++ map RightOnly r
  end.
