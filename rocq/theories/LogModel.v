(** Model of the log transport: the wire format (aya-log-common/src/lib.rs), the
    eBPF side generated by the log macros (aya-log-ebpf-macros/src/expand.rs)
    and the reader (aya-log/src/lib.rs).

    Simplifications.  Both sides are little-endian ([to_ne_bytes] /
    [from_ne_bytes]; an eBPF program always has the byte order of its host).
    How the standard library prints a float is an argument [ff].  Reading a
    tag byte that is no value of its enum is undefined in Rust and is the error
    [LUndefined] here. *)
From Coq Require Import String.
From Verif Require Import Base Text TextParse.
Local Open Scope Z_scope.

(** [Level], aya-log-common/src/lib.rs:12-35. *)
Inductive level := LError | LWarn | LInfo | LDebug | LTrace.
Definition level_code (l : level) : Z :=
  match l with LError => 1 | LWarn => 2 | LInfo => 3 | LDebug => 4 | LTrace => 5 end.
Definition level_of (c : Z) : option level :=
  if c =? 1 then Some LError else if c =? 2 then Some LWarn else if c =? 3 then Some LInfo
  else if c =? 4 then Some LDebug else if c =? 5 then Some LTrace else None.

(** [DisplayHint], lib.rs:151-170. *)
Inductive hint := HDefault | HLowerHex | HUpperHex | HIp | HLowerMac | HUpperMac | HPointer.
Definition hint_code (h : hint) : Z :=
  match h with HDefault => 1 | HLowerHex => 2 | HUpperHex => 3 | HIp => 4 | HLowerMac => 5 | HUpperMac => 6 | HPointer => 7 end.
Definition hint_of (c : Z) : option hint :=
  if c =? 1 then Some HDefault else if c =? 2 then Some HLowerHex else if c =? 3 then Some HUpperHex
  else if c =? 4 then Some HIp else if c =? 5 then Some HLowerMac else if c =? 6 then Some HUpperMac
  else if c =? 7 then Some HPointer else None.

(** [ArgumentKind], lib.rs:111-149; the code of a kind is its position. *)
Inductive akind := KDisplayHint | KI8 | KI16 | KI32 | KI64 | KIsize | KU8 | KU16 | KU32 | KU64 | KUsize | KF32 | KF64
| KIpv4Addr | KIpv6Addr | KArr4 | KArr6 | KArr16 | KArrU16 | KBytes | KStr | KPointer.
Definition akinds : list akind := [KDisplayHint; KI8; KI16; KI32; KI64; KIsize; KU8; KU16; KU32; KU64; KUsize; KF32; KF64;
  KIpv4Addr; KIpv6Addr; KArr4; KArr6; KArr16; KArrU16; KBytes; KStr; KPointer].
Definition akind_code (k : akind) : Z :=
  match k with
  | KDisplayHint => 0 | KI8 => 1 | KI16 => 2 | KI32 => 3 | KI64 => 4 | KIsize => 5 | KU8 => 6 | KU16 => 7 | KU32 => 8
  | KU64 => 9 | KUsize => 10 | KF32 => 11 | KF64 => 12 | KIpv4Addr => 13 | KIpv6Addr => 14 | KArr4 => 15 | KArr6 => 16
  | KArr16 => 17 | KArrU16 => 18 | KBytes => 19 | KStr => 20 | KPointer => 21
  end.
Definition akind_of (c : Z) : option akind := if 0 <=? c then nth_error akinds (Z.to_nat c) else None.

(** Widths of the fixed integer types. *)
Inductive iw := W8 | W16 | W32 | W64.
Definition iw_bytes (w : iw) : nat := match w with W8 => 1 | W16 => 2 | W32 => 4 | W64 => 8 end.

(** Values with an [Argument] impl, lib.rs:181-300.  [AArr] is an array [u8; N]
    by value, [AArrRef] a reference to one: both use the impl of the array.
    ([[u16; 8]] has a formatter but no [Argument] impl and cannot be logged.)
    Numbers of pointer size are 8 bytes: the eBPF target has 64-bit pointers. *)
Inductive larg :=
| AInt (w : iw) (v : Z)
| AIsize (v : Z)
| AUint (w : iw) (v : Z)
| AUsize (v : Z)
| AF32 (b : list Z)
| AF64 (b : list Z)
| AIpv4 (b : list Z)
| AIpv6 (b : list Z)
| AArr (b : list Z)
| AArrRef (b : list Z)
| ABytes (b : list Z)
| AStr (b : list Z)
| AHint (h : hint)
| APtr (v : Z).

Definition ikind (w : iw) : akind := match w with W8 => KI8 | W16 => KI16 | W32 => KI32 | W64 => KI64 end.
Definition ukind (w : iw) : akind := match w with W8 => KU8 | W16 => KU16 | W32 => KU32 | W64 => KU64 end.
(** lib.rs:249-260. *)
Definition arr_kind (b : list Z) : akind :=
  if (length b =? 4)%nat then KArr4 else if (length b =? 6)%nat then KArr6 else if (length b =? 16)%nat then KArr16 else KBytes.
Definition as_argument (a : larg) : akind * list Z :=
  match a with
  | AInt w v => (ikind w, le_enc (iw_bytes w) v)
  | AIsize v => (KIsize, le_enc 8 v)
  | AUint w v => (ukind w, le_enc (iw_bytes w) v)
  | AUsize v => (KUsize, le_enc 8 v)
  | AF32 b => (KF32, b)
  | AF64 b => (KF64, b)
  | AIpv4 b => (KIpv4Addr, b)
  | AIpv6 b => (KIpv6Addr, b)
  | AArr b => (arr_kind b, b)
  | AArrRef b => (arr_kind b, b)
  | ABytes b => (KBytes, b)
  | AStr b => (KStr, b)
  | AHint h => (KDisplayHint, [hint_code h])
  | APtr v => (KPointer, le_enc 8 v)
  end.

(** [Field::new] and [Field::with_bytes], lib.rs:302-327: nothing for a value
    longer than a u16 can tell. *)
Definition field (tag : Z) (v : list Z) : option (list (list Z)) :=
  if Z.of_nat (length v) <? 2 ^ 16 then Some [[tag]; le_enc 2 (Z.of_nat (length v)); v] else None.

Fixpoint seq_opt {A} (l : list (option (list A))) : option (list A) :=
  match l with
  | [] => Some []
  | None :: _ => None
  | Some x :: l => match seq_opt l with Some r => Some (x ++ r) | None => None end
  end.

Record lheader := { lh_target : list Z; lh_level : level; lh_module : list Z; lh_file : list Z; lh_line : Z }.

(** [Header::new] and [Header::with_bytes], lib.rs:340-388: the slices handed to
    [op], in order. *)
Definition header_slices (h : lheader) (num_args : Z) : option (list (list Z)) :=
  seq_opt [field 0 (lh_target h); field 1 [level_code (lh_level h)]; field 2 (lh_module h); field 3 (lh_file h);
           field 4 (le_enc 4 (lh_line h)); field 5 (le_enc 4 num_args)].
Definition arg_slices (args : list larg) : option (list (list Z)) :=
  seq_opt (map (fun a => let (k, v) := as_argument a in field (akind_code k) v) args).

(** The loop choosing the reservation, expand.rs:199-206; u16 arithmetic. *)
Fixpoint capacity_loop (fuel : nat) (cap size : Z) : option Z :=
  match fuel with
  | O => None
  | S fuel =>
      if cap <? size then
        let cap := u16 (Z.shiftl cap 1) in
        if 8192 <? cap then None else capacity_loop fuel cap size
      else Some cap
  end.
Definition capacity (size : Z) : option Z := capacity_loop 16 64 size.

(** The closure writing into the reservation, expand.rs:211-217. *)
Fixpoint write_slices (pos : nat) (buf : list Z) (ss : list (list Z)) : option (list Z) :=
  match ss with
  | [] => Some buf
  | s :: ss =>
      if (pos <=? length buf)%nat && (length s <=? length buf - pos)%nat
      then write_slices (pos + length s) (splice pos s buf) ss
      else None
  end.

(** What becomes of a log call whose level is enabled, expand.rs:165-229.
    [room cap] is the reservation of [cap] bytes the ring buffer grants, with
    whatever the memory holds.  [LogNothing]: nothing reaches user space;
    [LogDiscarded]: a reservation was made and discarded; [LogSubmitted]: the
    bytes of the reservation are submitted. *)
Inductive emitted := LogNothing | LogDiscarded | LogSubmitted (buf : list Z).
Definition total (ss : list (list Z)) : Z := Z.of_nat (length (concat ss)).
Definition emit (room : Z -> option (list Z)) (h : lheader) (args : list larg) : emitted :=
  match header_slices h (Z.of_nat (length args)), arg_slices args with
  | Some hs, Some ss =>
      let size := 2 + total hs + total ss in
      if 2 ^ 16 <=? size then LogNothing
      else
        match capacity size with
        | None => LogNothing
        | Some cap =>
            match room cap with
            | None => LogNothing
            | Some buf =>
                match write_slices 0 buf (le_enc 2 size :: hs ++ ss) with
                | Some buf => LogSubmitted buf
                | None => LogDiscarded
                end
            end
        end
  | _, _ => LogNothing
  end.

(** [level_enabled], aya-log-ebpf/src/lib.rs:35-40, around the call. *)
Definition log_call (threshold : Z) (room : Z -> option (list Z)) (h : lheader) (args : list larg) : emitted :=
  if level_code (lh_level h) <=? threshold then emit room h args else LogNothing.

(** * Printing (the standard library's formatting of the values) *)

Fixpoint hex_go (fuel : nat) (up : bool) (n : Z) (acc : list Z) : list Z :=
  match fuel with
  | O => acc
  | S fuel =>
      let d := n mod 16 in
      let c := if d <? 10 then 48 + d else if up then 55 + d else 87 + d in
      if n / 16 =? 0 then c :: acc else hex_go fuel up (n / 16) (c :: acc)
  end.
Definition show_hex (up : bool) (n : Z) : list Z := hex_go 16 up n [].
Definition show_hex2 (up : bool) (n : Z) : list Z :=
  match show_hex up n with [c] => [48; c] | s => s end.
Definition show_dec (v : Z) : list Z := if v <? 0 then 45 :: dec (- v) else dec v.
Fixpoint join (sep : list Z) (l : list (list Z)) : list Z :=
  match l with
  | [] => []
  | [x] => x
  | x :: l => x ++ sep ++ join sep l
  end.
Definition show_ip4 (b : list Z) : list Z := join (txt ".") (map dec b).
Definition show_mac (up : bool) (b : list Z) : list Z := join (txt ":") (map (show_hex2 up) b).
(** Segments of an IPv6 address, and its printed form: IPv4-mapped addresses
    apart, the first longest run of at least two zero segments is elided. *)
Fixpoint segments (b : list Z) : list Z :=
  match b with
  | x :: y :: b => (256 * x + y) :: segments b
  | _ => []
  end.
Fixpoint zero_run (segs : list Z) (i : nat) (cur best : nat * nat) : nat * nat :=
  match segs with
  | [] => best
  | s :: segs =>
      if s =? 0 then
        let cur := if (snd cur =? 0)%nat then (i, 1%nat) else (fst cur, S (snd cur)) in
        zero_run segs (S i) cur (if (snd best <? snd cur)%nat then cur else best)
      else zero_run segs (S i) (0%nat, 0%nat) best
  end.
Definition show_ip6 (b : list Z) : list Z :=
  let segs := segments b in
  match segs with
  | [0; 0; 0; 0; 0; 65535; _; _] => txt "::ffff:" ++ show_ip4 (skipn 12 b)
  | _ =>
      let (st, n) := zero_run segs 0 (0%nat, 0%nat) (0%nat, 0%nat) in
      let sub l := join (txt ":") (map (show_hex false) l) in
      if (1 <? n)%nat then sub (firstn st segs) ++ txt "::" ++ sub (skipn (st + n) segs) else sub segs
  end.
Definition show_ptr (v : Z) : list Z := txt "0x" ++ show_hex false v.

(** * The reader *)

Inductive lerr := LBad | LUndefined.

(** The [Format] impls, aya-log/src/lib.rs:296-484, on already decoded values. *)
Definition fmt_int (v hexv : Z) (h : option hint) : res lerr (list Z) :=
  match h with
  | Some HDefault | None => Ok (show_dec v)
  | Some HLowerHex => Ok (show_hex false hexv)
  | Some HUpperHex => Ok (show_hex true hexv)
  | _ => Err LBad
  end.
Definition fmt_u32 (v : Z) (h : option hint) : res lerr (list Z) :=
  match h with
  | Some HIp => Ok (show_ip4 (rev (le_enc 4 v)))
  | _ => fmt_int v v h
  end.
Definition fmt_float (s : list Z) (h : option hint) : res lerr (list Z) :=
  match h with Some HDefault | None => Ok s | _ => Err LBad end.
Definition fmt_ipv4addr (b : list Z) (h : option hint) : res lerr (list Z) :=
  match h with Some HDefault | Some HIp | None => Ok (show_ip4 b) | _ => Err LBad end.
Definition fmt_ipv6addr (b : list Z) (h : option hint) : res lerr (list Z) :=
  match h with Some HDefault | Some HIp | None => Ok (show_ip6 b) | _ => Err LBad end.
Definition fmt_arr4 := fmt_ipv4addr.
Definition fmt_arr6 (b : list Z) (h : option hint) : res lerr (list Z) :=
  match h with Some HLowerMac => Ok (show_mac false b) | Some HUpperMac => Ok (show_mac true b) | _ => Err LBad end.
Definition fmt_arr16 (b : list Z) (h : option hint) : res lerr (list Z) :=
  match h with Some HIp => Ok (show_ip6 b) | _ => Err LBad end.
Definition fmt_bytes (b : list Z) (h : option hint) : res lerr (list Z) :=
  match h with
  | Some HLowerHex => Ok (flat_map (show_hex2 false) b)
  | Some HUpperHex => Ok (flat_map (show_hex2 true) b)
  | _ => Err LBad
  end.
Definition fmt_ptr (v : Z) (h : option hint) : res lerr (list Z) :=
  match h with Some HPointer => Ok (show_ptr v) | _ => Err LBad end.

(** [str::from_utf8]: the well-formed sequences of the Unicode standard. *)
Definition cont (lo hi c : Z) : bool := (lo <=? c) && (c <=? hi).
Fixpoint utf8 (s : list Z) : bool :=
  match s with
  | [] => true
  | a :: s1 =>
      if cont 0 127 a then utf8 s1
      else match s1 with
      | b :: s2 =>
          if cont 194 223 a && cont 128 191 b then utf8 s2
          else match s2 with
          | c :: s3 =>
              if ((a =? 224) && cont 160 191 b || cont 225 236 a && cont 128 191 b ||
                  (a =? 237) && cont 128 159 b || cont 238 239 a && cont 128 191 b) && cont 128 191 c then utf8 s3
              else match s3 with
              | d :: s4 =>
                  if ((a =? 240) && cont 144 191 b || cont 241 243 a && cont 128 191 b || (a =? 244) && cont 128 143 b)
                     && cont 128 191 c && cont 128 191 d
                  then utf8 s4 else false
              | [] => false
              end
          | [] => false
          end
      | [] => false
      end
  end.

(** [try_read], aya-log/src/lib.rs:803-822: tag byte, value, rest. *)
Definition try_read (buf : list Z) : res lerr (Z * list Z * list Z) :=
  match buf with
  | tag :: l0 :: l1 :: rest =>
      let len := Z.to_nat (le_dec [l0; l1]) in
      if (length rest <? len)%nat then Err LBad else Ok (tag, firstn len rest, skipn len rest)
  | _ => Err LBad
  end.

(** [try_into] an array of [n] bytes, then [from_ne_bytes]. *)
Definition exactly (n : nat) (v : list Z) : res lerr (list Z) :=
  if (length v =? n)%nat then Ok v else Err LBad.
Definition first_byte {A} (v : list Z) (f : Z -> option A) : res lerr A :=
  match v with
  | c :: _ => match f c with Some x => Ok x | None => Err LUndefined end
  | [] => Err LUndefined
  end.

Record hstate := { hs_target : option (list Z); hs_level : option level; hs_module : option (list Z); hs_file : option (list Z);
  hs_line : option Z; hs_num : option Z }.
Definition hs0 : hstate := {| hs_target := None; hs_level := None; hs_module := None; hs_file := None; hs_line := None; hs_num := None |}.
(** [Option::replace] followed by the check for a previous value. *)
Definition once {A} (o : option A) (v : A) : res lerr (option A) :=
  match o with None => Ok (Some v) | Some _ => Err LBad end.
Definition text (v : list Z) : res lerr (list Z) := if utf8 v then Ok v else Err LBad.

(** One header field, lib.rs:531-594. *)
Definition header_field (st : hstate) (tag : Z) (v : list Z) : res lerr hstate :=
  if tag =? 0 then bind (text v) (fun t => bind (once (hs_target st) t) (fun x =>
    Ok {| hs_target := x; hs_level := hs_level st; hs_module := hs_module st; hs_file := hs_file st; hs_line := hs_line st; hs_num := hs_num st |}))
  else if tag =? 1 then bind (first_byte v level_of) (fun l => bind (once (hs_level st) l) (fun x =>
    Ok {| hs_target := hs_target st; hs_level := x; hs_module := hs_module st; hs_file := hs_file st; hs_line := hs_line st; hs_num := hs_num st |}))
  else if tag =? 2 then bind (text v) (fun t => bind (once (hs_module st) t) (fun x =>
    Ok {| hs_target := hs_target st; hs_level := hs_level st; hs_module := x; hs_file := hs_file st; hs_line := hs_line st; hs_num := hs_num st |}))
  else if tag =? 3 then bind (text v) (fun t => bind (once (hs_file st) t) (fun x =>
    Ok {| hs_target := hs_target st; hs_level := hs_level st; hs_module := hs_module st; hs_file := x; hs_line := hs_line st; hs_num := hs_num st |}))
  else if tag =? 4 then bind (exactly 4 v) (fun w => bind (once (hs_line st) (le_dec w)) (fun x =>
    Ok {| hs_target := hs_target st; hs_level := hs_level st; hs_module := hs_module st; hs_file := hs_file st; hs_line := x; hs_num := hs_num st |}))
  else if tag =? 5 then bind (exactly 4 v) (fun w => bind (once (hs_num st) (le_dec w)) (fun x =>
    Ok {| hs_target := hs_target st; hs_level := hs_level st; hs_module := hs_module st; hs_file := hs_file st; hs_line := hs_line st; hs_num := x |}))
  else Err LUndefined.

(** The loop, lib.rs:517-597; each round consumes at least three bytes, so the
    fuel [S (length buf)] never runs out. *)
Fixpoint header_loop (fuel : nat) (st : hstate) (buf : list Z) : res lerr (lheader * Z * list Z) :=
  match hs_target st, hs_level st, hs_module st, hs_file st, hs_line st, hs_num st with
  | Some t, Some l, Some m, Some f, Some n, Some k =>
      Ok ({| lh_target := t; lh_level := l; lh_module := m; lh_file := f; lh_line := n |}, k, buf)
  | _, _, _, _, _, _ =>
      match fuel with
      | O => Err LBad
      | S fuel =>
          bind (try_read buf) (fun r => let '(tag, v, rest) := r in
          bind (header_field st tag v) (fun st => header_loop fuel st rest))
      end
  end.

(** One argument, lib.rs:607-785: the text it adds and the hint that is then
    pending.  [hw] is the size of a pointer of the reader.  A string that is not
    UTF-8 is reported through the [error!] macro and skipped. *)
Definition arg_text (hw : nat) (ff : nat -> list Z -> list Z) (last : option hint) (tag : Z) (v : list Z)
  : res lerr (list Z * option hint) :=
  match akind_of tag with
  | None => Err LUndefined
  | Some k =>
      let num n (f : list Z -> res lerr (list Z)) := bind (exactly n v) (fun w => bind (f w) (fun s => Ok (s, None))) in
      let sint n := num n (fun w => let u := le_dec w in fmt_int (swrap (8 * Z.of_nat n) u) u last) in
      let uint n := num n (fun w => fmt_int (le_dec w) (le_dec w) last) in
      match k with
      | KDisplayHint => bind (first_byte v hint_of) (fun h => Ok ([], Some h))
      | KI8 => sint 1%nat | KI16 => sint 2%nat | KI32 => sint 4%nat | KI64 => sint 8%nat | KIsize => sint hw
      | KU8 => uint 1%nat | KU16 => uint 2%nat
      | KU32 => num 4%nat (fun w => fmt_u32 (le_dec w) last)
      | KU64 => uint 8%nat | KUsize => uint hw
      | KF32 => num 4%nat (fun w => fmt_float (ff 4%nat w) last)
      | KF64 => num 8%nat (fun w => fmt_float (ff 8%nat w) last)
      | KIpv4Addr => num 4%nat (fun w => fmt_ipv4addr w last)
      | KIpv6Addr => num 16%nat (fun w => fmt_ipv6addr w last)
      | KArr4 => num 4%nat (fun w => fmt_arr4 w last)
      | KArr6 => num 6%nat (fun w => fmt_arr6 w last)
      | KArr16 => num 16%nat (fun w => fmt_arr16 w last)
      | KArrU16 => num 16%nat (fun w => fmt_arr16 (flat_map (fun s => [s / 256; s mod 256]) (map (fun i => le_dec (slice (2 * i) 2 w)) (seq 0 8))) last)
      | KBytes => bind (fmt_bytes v last) (fun s => Ok (s, None))
      | KStr => Ok (if utf8 v then v else [], last)
      | KPointer => num hw (fun w => fmt_ptr (le_dec w) last)
      end
  end.
Fixpoint args_loop (hw : nat) (ff : nat -> list Z -> list Z) (fuel : nat) (n : Z) (last : option hint) (buf : list Z) (msg : list Z)
  : res lerr (list Z) :=
  if n =? 0 then Ok msg
  else match fuel with
  | O => Err LBad
  | S fuel =>
      bind (try_read buf) (fun r => let '(tag, v, rest) := r in
      bind (arg_text hw ff last tag v) (fun s =>
      args_loop hw ff fuel (n - 1) (snd s) rest (msg ++ fst s)))
  end.

(** [log_buf], lib.rs:507-801: the header and the message handed to the logger. *)
Definition log_buf (hw : nat) (ff : nat -> list Z -> list Z) (buf : list Z) : res lerr (lheader * list Z) :=
  match buf with
  | l0 :: l1 :: _ =>
      let size := Z.to_nat (le_dec [l0; l1]) in
      if ((size <? 2) || (length buf <? size))%nat then Err LBad
      else
        let buf := slice 2 (size - 2) buf in
        bind (header_loop (S (length buf)) hs0 buf) (fun r => let '(h, n, rest) := r in
        bind (args_loop hw ff (S (length rest)) n None rest []) (fun msg => Ok (h, msg)))
  | _ => Err LBad
  end.

(** [flush], lib.rs:181-186: an [Err] is unwrapped, so the first bad record
    aborts the task ([LogPanic]). *)
Inductive flushed := LogPanic | LogDone (recs : list (lheader * list Z)).
Fixpoint flush (hw : nat) (ff : nat -> list Z -> list Z) (bufs : list (list Z)) : flushed :=
  match bufs with
  | [] => LogDone []
  | b :: bufs =>
      match log_buf hw ff b with
      | Err _ => LogPanic
      | Ok r => match flush hw ff bufs with LogDone rs => LogDone (r :: rs) | LogPanic => LogPanic end
      end
  end.
