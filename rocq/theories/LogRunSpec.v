(** What logging as a whole must achieve. *)
From Coq Require Import String.
From Verif Require Import Base Text LogModel LogSpec RingBufModel EmitModel EmitSpec LogRunModel.
Local Open Scope Z_scope.

(** A call: where it is and what it logs. *)
Notation call := (lheader * list larg)%type.

(** The levels a value of AYA_LOG_LEVEL lets through. *)
Definition enabled (threshold : Z) (l : level) : Prop :=
  match l with
  | LError => 1 <= threshold
  | LWarn => 2 <= threshold
  | LInfo => 3 <= threshold
  | LDebug => 4 <= threshold
  | LTrace => 5 <= threshold
  end.
(** What may be logged: the level is let through, and it is not too long. *)
Definition loggable (threshold : Z) (c : call) : Prop :=
  enabled threshold (lh_level (fst c)) /\ fields_fit (fst c) (snd c) /\ record_size (fst c) (snd c) <= 8192.
(** Values of their types that can be shown as asked. *)
Definition sound_call (ff : nat -> list Z -> list Z) (c : call) : Prop :=
  wf_header (fst c) /\ Forall wf_arg (snd c) /\ exists m, message ff None (snd c) = Some m.
Definition sound_op (ff : nat -> list Z -> list Z) (o : lop) : Prop :=
  match o with LCall h args => sound_call ff (h, args) | _ => True end.
(** What the logger is given for a call. *)
Definition said (ff : nat -> list Z -> list Z) (c : call) (x : lheader * list Z) : Prop :=
  fst x = fst c /\ message ff None (snd c) = Some (snd x).

(** A call got a reservation. *)
Definition taken (pg : Z -> Z) (threshold : Z) (ff : nat -> list Z -> list Z) (c : call) (st : logging) : bool :=
  (length (l_jobs st) <? length (l_jobs (lstep pg threshold ff (LCall (fst c) (snd c)) st)))%nat.
(** The calls that got one, in order. *)
Fixpoint taken_calls (pg : Z -> Z) (threshold : Z) (ff : nat -> list Z -> list Z) (ops : list lop) (st : logging) : list call :=
  match ops with
  | [] => []
  | o :: ops =>
      match o with
      | LCall h args => if taken pg threshold ff (h, args) st then [(h, args)] else []
      | _ => []
      end ++ taken_calls pg threshold ff ops (lstep pg threshold ff o st)
  end.

(** All calls have come to their end; there is nothing to read. *)
Definition idle (st : logging) : Prop := forall job, In job (l_jobs st) -> job = [].
Definition all_read (st : logging) : Prop := snd (step (l_sys st) ONextIter) = Some RNone.

(** The first program of that number that can be looked at. *)
Inductive the_program (id : Z) : list (option lprog) -> lprog -> Prop :=
| here_program p l : lp_id p = id -> the_program id (Some p :: l) p
| later_program x p l : (forall q, x = Some q -> lp_id q <> id) -> the_program id l p -> the_program id (x :: l) p.
(** The first map of that name. *)
Inductive the_map (k : lkernel) : list Z -> Z -> Prop :=
| here_map i l : lk_name k i = Some (Some (txt "AYA_LOGS")) -> the_map k (i :: l) i
| later_map i j l : lk_name k i <> Some (Some (txt "AYA_LOGS")) -> the_map k l j -> the_map k (i :: l) j.
