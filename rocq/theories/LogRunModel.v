(** Logging as a whole: calls of the logging macros in programs that run at the
    same time, and the logger of user space (/repo/aya-log-ebpf-macros/src/expand.rs,
    /repo/ebpf/aya-log-ebpf/src/lib.rs, /repo/aya-log/src/lib.rs).

    The helpers and the reader of the ring buffer are those of EmitSpec and
    RingBufModel, the pieces of a record those of LogModel.

    Simplifications: a call reserves at once and then stores byte after byte, in
    any interleaving with other calls and with user space; the values to be
    logged are those the macro made of the format string (C31); the level does
    not change while programs run. *)
From Coq Require Import String.
From Verif Require Import Base Text LogModel RingBufModel EmitModel EmitSpec.
Local Open Scope Z_scope.

(** * A call (expand.rs 165-229) *)

(** [copy_from_slice]: one byte after the other. *)
Fixpoint writes (ptr : Z) (pos : nat) (s : list Z) : list ecall :=
  match s with [] => [] | b :: s => EWrite ptr pos b :: writes ptr (S pos) s end.
(** expand.rs 210-228: what is left to do after the reservation of [cap] bytes at
    [ptr]: the slices one by one, then [submit]; or [discard] as soon as one does
    not fit. *)
Fixpoint stores (ptr : Z) (cap pos : nat) (ss : list (list Z)) : list ecall :=
  match ss with
  | [] => [ESubmit ptr 0]
  | s :: ss =>
      if (pos <=? cap)%nat && (length s <=? cap - pos)%nat
      then writes ptr pos s ++ stores ptr cap (pos + length s) ss
      else [EDiscard ptr 0]
  end.
(** expand.rs 171-209: up to the reservation; [None] when the call ends there.
    The level is compared as lib.rs 35-40 does. *)
Definition begin_call (pg : Z -> Z) (threshold : Z) (h : lheader) (args : list larg) (s : sys) : option (list ecall) * sys :=
  if level_code (lh_level h) <=? threshold then
    match header_slices h (Z.of_nat (length args)), arg_slices args with
    | Some hs, Some ss =>
        let size := 2 + total hs + total ss in
        if 2 ^ 16 <=? size then (None, s)
        else
          match capacity size with
          | None => (None, s)
          | Some cap =>
              let '(r, s) := EmitSpec.emit pg (EReserveBytes cap 0) s in
              match r with
              | EEntry ptr => (Some (stores ptr (Z.to_nat cap) 0 (le_enc 2 size :: hs ++ ss)), s)
              | _ => (None, s)
              end
          end
    | _, _ => (None, s)
    end
  else (None, s).

(** * Programs and the logger *)

(** [l_jobs]: what is left to do of the calls that got a reservation, in order of
    reservation; [l_out]: what the logger was given; [l_panic]: [flush] did not
    return. *)
Record logging := { l_sys : sys; l_jobs : list (list ecall); l_out : list (lheader * list Z); l_panic : bool }.
Inductive lop := LCall (h : lheader) (args : list larg) | LWork (i : nat) | LNext | LDrop.

(** aya-log/src/lib.rs 181-186 [flush] is any number of [LNext], each followed by
    [LDrop] when it gave an item; [ff] is how floating point numbers are
    written. *)
Definition lstep (pg : Z -> Z) (threshold : Z) (ff : nat -> list Z -> list Z) (o : lop) (st : logging) : logging :=
  match o with
  | LCall h args =>
      match begin_call pg threshold h args (l_sys st) with
      | (Some job, s) => {| l_sys := s; l_jobs := l_jobs st ++ [job]; l_out := l_out st; l_panic := l_panic st |}
      | (None, s) => {| l_sys := s; l_jobs := l_jobs st; l_out := l_out st; l_panic := l_panic st |}
      end
  | LWork i =>
      match nth_error (l_jobs st) i with
      | Some (c :: job) => {| l_sys := snd (EmitSpec.emit pg c (l_sys st)); l_jobs := upd i job (l_jobs st); l_out := l_out st; l_panic := l_panic st |}
      | _ => st
      end
  | LNext =>
      let '(s, r) := step (l_sys st) ONextIter in
      match r with
      | Some (RItem d) =>
          match log_buf 8 ff d with
          | Ok x => {| l_sys := s; l_jobs := l_jobs st; l_out := l_out st ++ [x]; l_panic := l_panic st |}
          | Err _ => {| l_sys := s; l_jobs := l_jobs st; l_out := l_out st; l_panic := true |}
          end
      | Some RPanic => {| l_sys := s; l_jobs := l_jobs st; l_out := l_out st; l_panic := true |}
      | _ => {| l_sys := s; l_jobs := l_jobs st; l_out := l_out st; l_panic := l_panic st |}
      end
  | LDrop => {| l_sys := fst (step (l_sys st) ODrop); l_jobs := l_jobs st; l_out := l_out st; l_panic := l_panic st |}
  end.
Fixpoint lruns (pg : Z -> Z) (threshold : Z) (ff : nat -> list Z -> list Z) (ops : list lop) (st : logging) : logging :=
  match ops with [] => st | o :: ops => lruns pg threshold ff ops (lstep pg threshold ff o st) end.
(** The ring buffer after it was made, aya-log-ebpf/src/lib.rs 22-25. *)
Definition RING_BYTES : Z := Z.shiftl 1 17.
Definition linit (size p : Z) (m : Z -> Z) : logging := {| l_sys := init size p m; l_jobs := []; l_out := []; l_panic := false |}.

(** * Finding the ring buffer (aya-log/src/lib.rs 146-178) *)

(** A program of the kernel's list: its number and what [map_ids] gives for it
    (an error, nothing when the kernel does not tell, the numbers). *)
Record lprog := { lp_id : Z; lp_maps : res Z (option (list Z)) }.
(** What the kernel says: the programs ([None]: an error for that one), the name
    of a map of a number ([None] outside: no information; inside: no name), and
    whether the map can be opened as a ring buffer. *)
Record lkernel := { lk_programs : list (option lprog); lk_name : Z -> option (option (list Z)); lk_open : Z -> bool }.
Inductive linit_err := EProgramNotFound | EMapNotFound | EProgramError (e : Z) | EMapError.

Fixpoint filter_ok {A} (l : list (option A)) : list A :=
  match l with [] => [] | Some x :: l => x :: filter_ok l | None :: l => filter_ok l end.
Definition named_logs (n : option (list Z)) : bool :=
  match n with Some n => str_eqb n (txt "AYA_LOGS") | None => false end.
(** lib.rs 158-178 [init_from_id_with_logger] and [new]: the map taken. *)
Definition init_from_id (k : lkernel) (id : Z) : res linit_err Z :=
  match find (fun p => lp_id p =? id) (filter_ok (lk_programs k)) with
  | None => Err EProgramNotFound
  | Some p =>
      match lp_maps p with
      | Err e => Err (EProgramError e)
      | Ok None => Err EMapNotFound
      | Ok (Some ids) =>
          match find (fun x => named_logs (snd x)) (filter_ok (map (fun i => match lk_name k i with Some n => Some (i, n) | None => None end) ids)) with
          | None => Err EMapNotFound
          | Some (i, _) => if lk_open k i then Ok i else Err EMapError
          end
      end
  end.
