(** Logging: claims. *)
From Coq Require Import String.
From Verif Require Import Base Text TextParse LogModel LogFmtModel LogSpec LogProofs LogFmtProofs LogShowProofs.
Local Open Scope Z_scope.

(** * C30: records *)

(** Whatever is submitted is decoded to the same header and to the texts of the
    arguments, in order (an [Err] only when some value has no text under its
    hint), whatever the ring buffer memory held before.  [ff], the printing of
    floats, is arbitrary. *)
Theorem C30_round_trip : forall ff room h args buf,
  granting room -> wf_header h -> Forall wf_arg args -> emit room h args = LogSubmitted buf ->
  log_buf 8 ff buf = match message ff None args with Some m => Ok (h, m) | None => Err LBad end.
Proof.
  intros ff room h args buf G WH WA E.
  destruct (emit_spec room h args G) as [(FF & SZ & cap & b & GC & R & EE)|(EE & _)]; [|congruence].
  assert (X : buf = record h args ++ skipn (length (record h args)) b) by congruence. rewrite X.
  rewrite log_buf_record; [|exact WH|exact WA|exact FF|lia]. destruct (message ff None args); reflexivity.
Qed.
Print Assumptions C30_round_trip.

(** A record is submitted exactly when its fields fit, it is at most 8192 bytes
    and the ring buffer has room for the smallest sufficient power of two from 64
    on; otherwise nothing is emitted, and no reservation is made in vain. *)
Theorem C30_all_or_nothing : forall room h args, granting room ->
  (fields_fit h args /\ record_size h args <= 8192 /\
   exists cap buf, good_cap (record_size h args) cap /\ room cap = Some buf /\
     exists out, emit room h args = LogSubmitted out /\ Z.of_nat (length out) = cap)
  \/
  (emit room h args = LogNothing /\
   (~ fields_fit h args \/ record_size h args > 8192 \/ exists cap, good_cap (record_size h args) cap /\ room cap = None)).
Proof.
  intros room h args G. destruct (emit_spec room h args G) as [(FF & SZ & cap & b & GC & R & EE)|H]; [left|right; exact H].
  split; [exact FF|]. split; [exact SZ|]. exists cap, b. split; [exact GC|]. split; [exact R|].
  eexists. split; [exact EE|]. rewrite app_length, skipn_length. pose proof (record_length h args) as RL. pose proof (G _ _ R).
  destruct GC as (L & _). lia.
Qed.
Print Assumptions C30_all_or_nothing.

(** The first two bytes of a record say how long it is; bytes after that have
    no influence. *)
Theorem C30_padding : forall ff h args j1 j2,
  wf_header h -> Forall wf_arg args -> fields_fit h args -> record_size h args < 2 ^ 16 ->
  log_buf 8 ff (record h args ++ j1) = log_buf 8 ff (record h args ++ j2).
Proof. intros. rewrite !log_buf_record by assumption. reflexivity. Qed.
Print Assumptions C30_padding.

(** Reading one field of a concatenation yields it and leaves exactly the rest. *)
Theorem C30_field : forall tag v ss rest, field tag v = Some ss -> try_read (concat ss ++ rest) = Ok (tag, v, rest).
Proof. intros tag v ss rest F. destruct (field_some _ _ _ F) as [-> L]. apply try_read_fb. exact L. Qed.
Print Assumptions C30_field.
Theorem C30_field_whole : forall tag v, field tag v = None <-> 2 ^ 16 <= Z.of_nat (length v).
Proof. intros tag v. unfold field. destruct (Z.ltb_spec (Z.of_nat (length v)) (2 ^ 16)); split; intros; (discriminate || reflexivity || lia). Qed.
Print Assumptions C30_field_whole.

(** Records come out in the order they went in. *)
Theorem C30_order : forall ff recs bufs, Forall2 (fun r b => log_buf 8 ff b = Ok r) recs bufs -> flush 8 ff bufs = LogDone recs.
Proof. exact flush_ok. Qed.
Print Assumptions C30_order.

(** A call above the threshold emits nothing, one at or below it is emitted. *)
Theorem C30_threshold : forall t room h args,
  (In (lh_level h) (passes t) -> log_call (level_code t) room h args = emit room h args) /\
  (~ In (lh_level h) (passes t) -> log_call (level_code t) room h args = LogNothing).
Proof.
  intros t room h args. unfold log_call. destruct t, (lh_level h); cbn; split; intros H; try reflexivity;
    exfalso; try (apply H; tauto); repeat (destruct H as [H|H]; [discriminate|]); exact H.
Qed.
Print Assumptions C30_threshold.

Definition ex_room (cap : Z) : option (list Z) := if 0 <=? cap then Some (repeat 255 (Z.to_nat cap)) else None.
Lemma ex_room_grants : granting ex_room.
Proof.
  intros cap buf H. unfold ex_room in H. destruct (Z.leb_spec 0 cap); [|discriminate]. apply some_inj in H. subst buf. rewrite repeat_length. lia.
Qed.
Definition ex_header : lheader :=
  {| lh_target := txt "t"; lh_level := LInfo; lh_module := txt "m"; lh_file := txt "f.rs"; lh_line := 258 |}.
Definition ex_ff (n : nat) (b : list Z) : list Z := txt "float".
Definition ex_args : list larg :=
  [AStr (txt "a="); AHint HDefault; AInt W32 (-5); AStr (txt " b="); AHint HLowerHex; AInt W8 (-1);
   AHint HIp; AUint W32 167772161; AHint HUpperMac; AArr [1; 2; 3; 171; 5; 255]; AHint HPointer; APtr 4096;
   AHint HUpperHex; ABytes [10; 0; 255]; AHint HIp; AIpv6 [32; 1; 13; 184; 0; 0; 0; 0; 0; 0; 0; 0; 0; 0; 0; 1]].
Example C30_example :
  wf_header ex_header /\ Forall wf_arg ex_args /\ fields_fit ex_header ex_args /\
  match emit ex_room ex_header ex_args with
  | LogSubmitted buf => log_buf 8 ex_ff buf = Ok (ex_header, txt "a=-5 b=ff10.0.0.101:02:03:AB:05:FF0x10000A00FF2001:db8::1") /\ length buf = 256%nat
  | _ => False
  end.
Proof.
  split; [vm_compute; repeat split; discriminate|]. split; [repeat constructor; vm_compute; repeat split; (reflexivity || discriminate)|].
  split; [repeat split; try (vm_compute; reflexivity); repeat constructor; vm_compute; reflexivity|].
  vm_compute. split; reflexivity.
Qed.

(** * C31: what compiles can be shown *)

(** From the format string to the message: if the macro accepts the format
    string and the arguments, and no argument is a reference to a byte array of
    length 4, 6 or 16 (see below), then the message a 64-bit reader logs is the
    format string with its parameters filled in, in order. *)
Theorem C31_rendered_partial : forall ff room fs args vs h buf,
  granting room -> wf_header h -> utf8 fs = true -> Forall wf_arg (given args) ->
  Forall (fun a => clashing a = false) (given args) ->
  expand fs args = Ok vs -> emit room h vs = LogSubmitted buf ->
  exists frs m, parse fs = Ok frs /\ filled ff frs (given args) = Some m /\ log_buf 8 ff buf = Ok (h, m).
Proof. exact log_end_to_end. Qed.
Print Assumptions C31_rendered_partial.

(** Every accepted pair has a text, the same references excepted. *)
Theorem C31_accepted : forall ff h a, accepts h a = true -> clashing a = false -> exists s, shown ff (Some h) a = Some s.
Proof. exact accepted_shown. Qed.
Print Assumptions C31_accepted.

(** Numbers are shown as themselves. *)
Theorem C31_hex : forall up n, in_bits 64 n -> hex_u64 (show_hex up n) = Some n.
Proof. exact show_hex_parse. Qed.
Print Assumptions C31_hex.
Theorem C31_dec : forall v, - 2 ^ 63 <= v < 2 ^ 64 -> dec_signed (show_dec v) = Some v.
Proof. exact show_dec_parse. Qed.
Print Assumptions C31_dec.
Theorem C31_byte : forall up b, 0 <= b < 256 ->
  exists x y, show_hex2 up b = [x; y] /\ digit_val 16 x = Some (b / 16) /\ digit_val 16 y = Some (b mod 16).
Proof. exact show_hex2_digits. Qed.
Print Assumptions C31_byte.

(** The exception is real: a reference to an array of four bytes compiles with
    [{:x}], and flushing its record panics. *)
Theorem C31_array_ref_refuted : exists fs args vs buf,
  expand fs (Some args) = Ok vs /\ emit ex_room ex_header vs = LogSubmitted buf /\ Forall wf_arg args /\
  forall ff, flush 8 ff [buf] = LogPanic.
Proof.
  exists (txt "{:x}"), [AArrRef [1; 2; 3; 4]].
  match goal with |- exists vs buf, expand ?a ?b = _ /\ _ => let r := eval vm_compute in (expand a b) in match r with Ok ?v => exists v end end.
  match goal with |- exists buf, _ /\ emit ?a ?b ?c = _ /\ _ => let r := eval vm_compute in (emit a b c) in match r with LogSubmitted ?v => exists v end end.
  split; [vm_compute; reflexivity|]. split; [vm_compute; reflexivity|]. split; [repeat constructor; vm_compute; reflexivity|].
  intros ff. vm_compute. reflexivity.
Qed.
Print Assumptions C31_array_ref_refuted.

(** A 32-bit reader panics on every number of pointer size. *)
Theorem C31_host32_refuted : exists fs args vs buf,
  expand fs (Some args) = Ok vs /\ emit ex_room ex_header vs = LogSubmitted buf /\ Forall wf_arg args /\
  Forall (fun a => clashing a = false) args /\ forall ff, flush 4 ff [buf] = LogPanic.
Proof.
  exists (txt "{}"), [AUsize 7].
  match goal with |- exists vs buf, expand ?a ?b = _ /\ _ => let r := eval vm_compute in (expand a b) in match r with Ok ?v => exists v end end.
  match goal with |- exists buf, _ /\ emit ?a ?b ?c = _ /\ _ => let r := eval vm_compute in (emit a b c) in match r with LogSubmitted ?v => exists v end end.
  split; [vm_compute; reflexivity|]. split; [vm_compute; reflexivity|].
  split; [constructor; [cbn; unfold in_bits; lia|constructor]|]. split; [repeat constructor|].
  intros ff. vm_compute. reflexivity.
Qed.
Print Assumptions C31_host32_refuted.

Example C31_example :
  let fs := txt "x={:x} {{{}}} {:mac}" in
  let args := [AUint W16 48879; AStr (txt "s"); AArr [1; 2; 3; 4; 5; 6]] in
  match expand fs (Some args) with
  | Ok vs => match emit ex_room ex_header vs with
             | LogSubmitted buf => log_buf 8 ex_ff buf = Ok (ex_header, txt "x=beef {s} 01:02:03:04:05:06")
             | _ => False
             end
  | Err _ => False
  end /\ utf8 fs = true /\ Forall wf_arg args /\ Forall (fun a => clashing a = false) args /\
  expand (txt "{:x}") (Some [AStr (txt "s")]) = Err MType /\ expand (txt "{}") (Some []) = Err MIndex /\ expand (txt "{}") None = Err MNoArguments /\
  expand (txt "a") (Some [AUint W8 1]) = Ok [AStr (txt "a")].
Proof.
  cbv zeta. split; [vm_compute; reflexivity|]. split; [vm_compute; reflexivity|].
  split; [repeat constructor; vm_compute; repeat split; (reflexivity || discriminate)|]. split; [repeat constructor|].
  vm_compute. repeat split; reflexivity.
Qed.

(** * C32: format strings *)

(** The fragments split the format string: parameters stand for exactly their
    spelling, literals come from non-empty pieces without a lone brace and with
    all opening braces doubled, and re-escape to the piece when its closing
    braces are doubled side by side as well. *)
Theorem C32_split_partial : forall s frs, parse s = Ok frs -> exists raws, concat raws = s /\ Forall2 piece frs raws.
Proof. exact parse_sound. Qed.
Print Assumptions C32_split_partial.

(** Re-escaping gives back the input in that case. *)
Theorem C32_unparse_partial : forall s frs raws, Forall2 piece frs raws -> concat raws = s ->
  Forall (fun r => paired CLOSE r = true) raws \/ Forall2 (fun f r => match f with FLit _ => paired CLOSE r = true | _ => True end) frs raws ->
  unparse frs = s.
Proof. exact parse_unparse_back. Qed.
Print Assumptions C32_unparse_partial.

(** Every list of fragments with non-empty, non-adjacent literals is the parse
    of its spelling. *)
Theorem C32_parse_unparse : forall frs, canonical frs = true -> parse (unparse frs) = Ok frs.
Proof. exact parse_complete. Qed.
Print Assumptions C32_parse_unparse.

(** Not so in general: ["}{{}"] is accepted although its closing braces are
    not escaped. *)
Theorem C32_stray_close_refuted : exists s frs, parse s = Ok frs /\ unparse frs <> s.
Proof. exists (txt "}{{}"), [FLit (txt "}{}")]. split; [vm_compute; reflexivity|vm_compute; discriminate]. Qed.
Print Assumptions C32_stray_close_refuted.

Example C32_example :
  parse (txt "foo {} bar {:x} test {:X} ayy {:i} lmao {{}} {{something}} {:p}") =
    Ok [FLit (txt "foo "); FParam HDefault; FLit (txt " bar "); FParam HLowerHex; FLit (txt " test "); FParam HUpperHex;
        FLit (txt " ayy "); FParam HIp; FLit (txt " lmao {} {something} "); FParam HPointer] /\
  parse (txt "foo {:}") = Err PMissingHint /\ parse (txt "foo { bar") = Err PMissingClose /\ parse (txt "foo } bar") = Err PUnmatchedClose /\
  parse (txt "foo { bar }") = Err PUnexpected /\ parse (txt "{:y}") = Err PUnknownHint /\ parse [] = Ok [] /\
  parse (txt "{}{}") = Ok [FParam HDefault; FParam HDefault] /\ parse (txt "{{{}") = Ok [FLit (txt "{"); FParam HDefault].
Proof. vm_compute. repeat split; reflexivity. Qed.
