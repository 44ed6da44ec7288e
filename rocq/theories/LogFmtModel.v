(** Model of the format string parser (aya-log-parser/src/lib.rs) and of the
    expansion of the log macros (aya-log-ebpf-macros/src/expand.rs:96-155).

    A format string is the list of its UTF-8 bytes.  All characters the parser
    looks at are ASCII, so walking bytes and walking characters is the same.
    Error texts are reduced to their cause. *)
From Coq Require Import String.
From Verif Require Import Base Text TextParse LogModel.
Local Open Scope Z_scope.

Definition OPEN : Z := 123.
Definition CLOSE : Z := 125.

Inductive perror := PUnmatchedOpen | PUnmatchedClose | PMissingClose | PMissingHint | PUnknownHint | PUnexpected.
Inductive fragment := FLit (s : list Z) | FParam (h : hint).

(** The scan of [push_literal], lib.rs:26-49. *)
Fixpoint scan (open close : bool) (s : list Z) : res perror unit :=
  match s with
  | [] => if open then Err PUnmatchedOpen else if close then Err PUnmatchedClose else Ok tt
  | c :: s =>
      if c =? OPEN then scan (negb open) close s
      else if c =? CLOSE then scan open (negb close) s
      else if open then Err PUnmatchedOpen else if close then Err PUnmatchedClose else scan open close s
  end.

(** [str::replace] of a doubled character by a single one. *)
Fixpoint undouble (c : Z) (s : list Z) : list Z :=
  match s with
  | [] => []
  | a :: r =>
      match r with
      | b :: r' => if (a =? c) && (b =? c) then c :: undouble c r' else a :: undouble c r
      | [] => [a]
      end
  end.

(** [push_literal], lib.rs:21-53. *)
Definition literal (s : list Z) : res perror fragment :=
  bind (scan false false s) (fun _ => Ok (FLit (undouble CLOSE (undouble OPEN s)))).

(** [parse_param], lib.rs:58-77. *)
Definition parse_param (s : list Z) : res perror fragment :=
  match s with
  | [] => Ok (FParam HDefault)
  | c :: r =>
      if c =? 58 then
        match r with
        | [] => Err PMissingHint
        | _ =>
            if str_eqb r (txt "x") then Ok (FParam HLowerHex)
            else if str_eqb r (txt "X") then Ok (FParam HUpperHex)
            else if str_eqb r (txt "i") then Ok (FParam HIp)
            else if str_eqb r (txt "mac") then Ok (FParam HLowerMac)
            else if str_eqb r (txt "MAC") then Ok (FParam HUpperMac)
            else if str_eqb r (txt "p") then Ok (FParam HPointer)
            else Err PUnknownHint
        end
      else Err PUnexpected
  end.

(** [str::find('}')]. *)
Fixpoint find_close (s : list Z) : option nat :=
  match s with
  | [] => None
  | c :: s => if c =? CLOSE then Some O else option_map S (find_close s)
  end.

(** [parse], lib.rs:81-127.  [pos] is the position of the character iterator,
    [end_pos] the index after the last parameter.  Like the code, the iterator
    is not moved past the parameter just read. *)
Fixpoint parse_loop (fuel : nat) (s : list Z) (pos end_pos : nat) (acc : list fragment) : res perror (list fragment) :=
  match fuel with
  | O => Err PUnexpected
  | S fuel =>
      match skipn pos s with
      | [] =>
          if (end_pos =? length s)%nat then Ok acc
          else bind (literal (skipn end_pos s)) (fun f => Ok (acc ++ [f]))
      | c :: rest =>
          if negb (c =? OPEN) then parse_loop fuel s (S pos) end_pos acc
          else
            match rest with
            | b :: _ =>
                if b =? OPEN then parse_loop fuel s (S (S pos)) end_pos acc
                else param_at fuel s pos end_pos acc rest
            | [] => param_at fuel s pos end_pos acc rest
            end
      end
  end
with param_at (fuel : nat) (s : list Z) (pos end_pos : nat) (acc : list fragment) (rest : list Z) : res perror (list fragment) :=
  match fuel with
  | O => Err PUnexpected
  | S fuel =>
      bind (if (end_pos <? pos)%nat then bind (literal (slice end_pos (pos - end_pos) s)) (fun f => Ok (acc ++ [f])) else Ok acc) (fun acc =>
      match find_close rest with
      | None => Err PMissingClose
      | Some len =>
          bind (parse_param (firstn len rest)) (fun f =>
          parse_loop fuel s (S pos) (pos + 1 + len + 1) (acc ++ [f]))
      end)
  end.
Definition parse (s : list Z) : res perror (list fragment) := parse_loop (2 * length s + 2) s 0 0 [].

(** The formatter traits, aya-log-common/src/lib.rs:45-109, together with the
    [Argument] impls: which values compile under a hint.  ([bool], [char] and
    [[u16; 8]] have formatters but no [Argument] impl.) *)
Definition accepts (h : hint) (a : larg) : bool :=
  match h, a with
  | HDefault, (AInt _ _ | AIsize _ | AUint _ _ | AUsize _ | AF32 _ | AF64 _ | AStr _ | AIpv4 _ | AIpv6 _) => true
  | (HLowerHex | HUpperHex), (AInt _ _ | AIsize _ | AUint _ _ | AUsize _ | ABytes _ | AArrRef _) => true
  | HIp, (AIpv4 _ | AIpv6 _ | AUint W32 _) => true
  | HIp, AArr b => (length b =? 4)%nat || (length b =? 16)%nat
  | (HLowerMac | HUpperMac), AArr b => (length b =? 6)%nat
  | HPointer, APtr _ => true
  | _, _ => false
  end.

Inductive merror := MParse (e : perror) | MNoArguments | MIndex | MType.

(** The loop building [values], expand.rs:104-152.  Arguments beyond the
    parameters are never looked at. *)
Fixpoint expand_frags (frs : list fragment) (args : option (list larg)) : res merror (list larg) :=
  match frs with
  | [] => Ok []
  | FLit s :: frs => bind (expand_frags frs args) (fun vs => Ok (AStr s :: vs))
  | FParam h :: frs =>
      match args with
      | None => Err MNoArguments
      | Some [] => Err MIndex
      | Some (a :: args) =>
          if accepts h a then bind (expand_frags frs (Some args)) (fun vs => Ok (AHint h :: a :: vs)) else Err MType
      end
  end.
Definition expand (fs : list Z) (args : option (list larg)) : res merror (list larg) :=
  match parse fs with Err e => Err (MParse e) | Ok frs => expand_frags frs args end.
