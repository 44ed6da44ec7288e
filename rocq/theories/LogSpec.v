(** What logging must achieve. *)
From Coq Require Import String.
From Verif Require Import Base Text TextParse LogModel LogFmtModel.
Local Open Scope Z_scope.

(** * Values and their texts *)

Definition in_bits (bits v : Z) : Prop := 0 <= v < 2 ^ bits.
Definition in_sbits (bits v : Z) : Prop := - 2 ^ (bits - 1) <= v < 2 ^ (bits - 1).
Definition iw_bits (w : iw) : Z := 8 * Z.of_nat (iw_bytes w).
Definition block (n : nat) (b : list Z) : Prop := length b = n /\ bytes_ok b = true.

(** A value of its Rust type. *)
Definition wf_arg (a : larg) : Prop :=
  match a with
  | AInt w v => in_sbits (iw_bits w) v
  | AIsize v => in_sbits 64 v
  | AUint w v => in_bits (iw_bits w) v
  | AUsize v => in_bits 64 v
  | AF32 b => block 4 b
  | AF64 b => block 8 b
  | AIpv4 b => block 4 b
  | AIpv6 b => block 16 b
  | AArr b | AArrRef b | ABytes b => bytes_ok b = true
  | AStr b => utf8 b = true
  | AHint _ => True
  | APtr v => in_bits 64 v
  end.
Definition wf_header (h : lheader) : Prop :=
  utf8 (lh_target h) = true /\ utf8 (lh_module h) = true /\ utf8 (lh_file h) = true /\ in_bits 32 (lh_line h).

(** How the reader shows a value under a hint (None: no hint pending); [None]
    as a result: it cannot. *)
Definition show_int (v bits : Z) (h : option hint) : option (list Z) :=
  match h with
  | None | Some HDefault => Some (show_dec v)
  | Some HLowerHex => Some (show_hex false (v mod 2 ^ bits))
  | Some HUpperHex => Some (show_hex true (v mod 2 ^ bits))
  | _ => None
  end.
Definition show_array (b : list Z) (h : option hint) : option (list Z) :=
  if (length b =? 4)%nat then match h with None | Some HDefault | Some HIp => Some (show_ip4 b) | _ => None end
  else if (length b =? 6)%nat then match h with Some HLowerMac => Some (show_mac false b) | Some HUpperMac => Some (show_mac true b) | _ => None end
  else if (length b =? 16)%nat then match h with Some HIp => Some (show_ip6 b) | _ => None end
  else match h with
       | Some HLowerHex => Some (flat_map (show_hex2 false) b)
       | Some HUpperHex => Some (flat_map (show_hex2 true) b)
       | _ => None
       end.
Definition shown (ff : nat -> list Z -> list Z) (h : option hint) (a : larg) : option (list Z) :=
  match a with
  | AInt w v => show_int v (iw_bits w) h
  | AIsize v => show_int v 64 h
  | AUint W32 v => match h with Some HIp => Some (show_ip4 (rev (le_enc 4 v))) | _ => show_int v 32 h end
  | AUint w v => show_int v (iw_bits w) h
  | AUsize v => show_int v 64 h
  | AF32 b => match h with None | Some HDefault => Some (ff 4%nat b) | _ => None end
  | AF64 b => match h with None | Some HDefault => Some (ff 8%nat b) | _ => None end
  | AIpv4 b => match h with None | Some HDefault | Some HIp => Some (show_ip4 b) | _ => None end
  | AIpv6 b => match h with None | Some HDefault | Some HIp => Some (show_ip6 b) | _ => None end
  | AArr b | AArrRef b => show_array b h
  | ABytes b => match h with
                | Some HLowerHex => Some (flat_map (show_hex2 false) b)
                | Some HUpperHex => Some (flat_map (show_hex2 true) b)
                | _ => None
                end
  | AStr b => Some b
  | AHint _ => Some []
  | APtr v => match h with Some HPointer => Some (show_ptr v) | _ => None end
  end.

(** The message of a list of logged values: strings as they are, a hint applies
    to the next value that is not a string. *)
Fixpoint message (ff : nat -> list Z -> list Z) (last : option hint) (args : list larg) : option (list Z) :=
  match args with
  | [] => Some []
  | a :: args =>
      let next := match a with AHint h => Some h | AStr _ => last | _ => None end in
      match shown ff last a, message ff next args with
      | Some s, Some r => Some (s ++ r)
      | _, _ => None
      end
  end.

(** The levels let through by a threshold. *)
Definition passes (t : level) : list level :=
  match t with
  | LError => [LError]
  | LWarn => [LError; LWarn]
  | LInfo => [LError; LWarn; LInfo]
  | LDebug => [LError; LWarn; LInfo; LDebug]
  | LTrace => [LError; LWarn; LInfo; LDebug; LTrace]
  end.

(** * Sizes *)

Definition field_size (v : list Z) : Z := 3 + Z.of_nat (length v).
Definition record_size (h : lheader) (args : list larg) : Z :=
  2 + field_size (lh_target h) + field_size [0] + field_size (lh_module h) + field_size (lh_file h) + 7 + 7 +
  fold_right (fun a s => field_size (snd (as_argument a)) + s) 0 args.
Definition fields_fit (h : lheader) (args : list larg) : Prop :=
  Z.of_nat (length (lh_target h)) < 2 ^ 16 /\ Z.of_nat (length (lh_module h)) < 2 ^ 16 /\ Z.of_nat (length (lh_file h)) < 2 ^ 16 /\
  Forall (fun a => Z.of_nat (length (snd (as_argument a))) < 2 ^ 16) args.

(** * Format strings *)

(** Escaping: every brace doubled. *)
Definition esc (s : list Z) : list Z := flat_map (fun c => if (c =? OPEN) || (c =? CLOSE) then [c; c] else [c]) s.
Definition hint_text (h : hint) : list Z :=
  match h with
  | HDefault => [] | HLowerHex => txt ":x" | HUpperHex => txt ":X" | HIp => txt ":i"
  | HLowerMac => txt ":mac" | HUpperMac => txt ":MAC" | HPointer => txt ":p"
  end.
Definition unparse_one (f : fragment) : list Z :=
  match f with FLit s => esc s | FParam h => OPEN :: hint_text h ++ [CLOSE] end.
Definition unparse (frs : list fragment) : list Z := flat_map unparse_one frs.

(** Literals are not empty and not adjacent. *)
Fixpoint canonical (frs : list fragment) : bool :=
  match frs with
  | [] => true
  | FLit [] :: _ => false
  | FLit _ :: (FLit _ :: _) => false
  | _ :: frs => canonical frs
  end.

(** Braces come in adjacent equal pairs. *)
Fixpoint paired (c : Z) (s : list Z) : bool :=
  match s with
  | [] => true
  | a :: r => if a =? c then match r with b :: r' => (b =? c) && paired c r' | [] => false end else paired c r
  end.

Definition brace (c : Z) : bool := (c =? OPEN) || (c =? CLOSE).
(** A brace standing alone: no brace before or after it. *)
Definition lone (s : list Z) : Prop :=
  exists pre c post, s = pre ++ c :: post /\ brace c = true /\
    (pre = [] \/ exists p x, pre = p ++ [x] /\ brace x = false) /\
    (post = [] \/ exists x p, post = x :: p /\ brace x = false).

(** The piece of the format string a fragment was read from. *)
Definition piece (f : fragment) (raw : list Z) : Prop :=
  match f with
  | FParam h => raw = OPEN :: hint_text h ++ [CLOSE]
  | FLit s => raw <> [] /\ ~ lone raw /\ paired OPEN raw = true /\ (paired CLOSE raw = true -> raw = esc s)
  end.

(** The message the user expects: literals as written, parameters filled in
    order. *)
Fixpoint filled (ff : nat -> list Z -> list Z) (frs : list fragment) (args : list larg) : option (list Z) :=
  match frs with
  | [] => Some []
  | FLit s :: frs => match filled ff frs args with Some r => Some (s ++ r) | None => None end
  | FParam h :: frs =>
      match args with
      | [] => None
      | a :: args =>
          match shown ff (Some h) a, filled ff frs args with
          | Some s, Some r => Some (s ++ r)
          | _, _ => None
          end
      end
  end.
(** References to byte arrays of the lengths that have a kind of their own. *)
Definition clashing (a : larg) : bool :=
  match a with AArrRef b => (length b =? 4)%nat || (length b =? 6)%nat || (length b =? 16)%nat | _ => false end.
