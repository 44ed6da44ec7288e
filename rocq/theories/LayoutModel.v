(** The layout of [repr(C)] types.

    Sources: the generated bindings in aya-obj/src/generated are [repr(C)]
    structures and unions of integers and arrays.  The layout is the one the
    Rust reference gives for [repr(C)] ("Type layout"): fields in order of
    declaration, each at the next offset that is a multiple of its alignment,
    the size a multiple of the largest alignment. *)
From Coq Require Import String.
From Verif Require Import Base.
Import ListNotations.
Local Open Scope Z_scope.

Inductive ty :=
| Int (n : Z)                     (* aligned to its size, so also u64 on every 32 bit target supported *)
| Arr (n : Z) (t : ty)
| Struct (fs : list (string * ty))
| Union (fs : list (string * ty)).

Definition up (a n : Z) : Z := (n + a - 1) / a * a.

Fixpoint align (t : ty) : Z :=
  match t with
  | Int n => n
  | Arr _ t => align t
  | Struct fs | Union fs => (fix go fs := match fs with [] => 1 | (_, t) :: fs => Z.max (align t) (go fs) end) fs
  end.
Fixpoint size (t : ty) : Z :=
  match t with
  | Int n => n
  | Arr n t => n * size t
  | Struct fs =>
      up (align (Struct fs)) ((fix go fs off := match fs with [] => off | (_, t) :: fs => go fs (up (align t) off + size t) end) fs 0)
  | Union fs => up (align (Union fs)) ((fix go fs := match fs with [] => 0 | (_, t) :: fs => Z.max (size t) (go fs) end) fs)
  end.
(** The fields with their offsets, [off] being the end of the one before. *)
Fixpoint offsets (fs : list (string * ty)) (off : Z) : list (string * Z * ty) :=
  match fs with
  | [] => []
  | (n, t) :: fs => (n, up (align t) off, t) :: offsets fs (up (align t) off + size t)
  end.
Definition members (t : ty) : list (string * Z * ty) :=
  match t with
  | Struct fs => offsets fs 0
  | Union fs => map (fun '(n, t) => (n, 0, t)) fs
  | _ => []
  end.

(** The named fields, those of anonymous members with those of the type that
    contains them as in C: path, offset, size. *)
Definition anonymous (n : string) : bool := prefix "__bindgen_anon" n.
Definition shift (path : list string) (off : Z) (l : list (list string * Z * Z)) : list (list string * Z * Z) :=
  map (fun '(p, o, s) => (path ++ p, off + o, s))%list l.
Fixpoint flat (t : ty) : list (list string * Z * Z) :=
  match t with
  | Int _ | Arr _ _ => []
  | Struct fs =>
      (fix go fs off :=
         match fs with
         | [] => []
         | (n, t) :: fs =>
             let o := up (align t) off in
             (if anonymous n then shift [] o (flat t) else ([n], o, size t) :: shift [n] o (flat t)) ++ go fs (o + size t)
         end) fs 0
  | Union fs =>
      (fix go fs :=
         match fs with
         | [] => []
         | (n, t) :: fs => (if anonymous n then flat t else ([n], 0, size t) :: shift [n] 0 (flat t)) ++ go fs
         end) fs
  end%list.

Definition path_eqb (a b : list string) : bool := (length a =? length b)%nat && forallb (fun '(x, y) => String.eqb x y) (combine a b).
(** Where an expression like [attr.link_create.flags] is. *)
Definition field (path : list string) (t : ty) : option (Z * Z) :=
  option_map (fun '(_, o, s) => (o, s)) (find (fun '(p, _, _) => path_eqb p path) (flat t)).
