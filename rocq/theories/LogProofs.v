(** Proofs about log records (C30). *)
From Coq Require Import String.
From Verif Require Import Base Text TextParse LogModel LogFmtModel LogSpec.
Local Open Scope Z_scope.

(** * Writing *)

Definition fb (tag : Z) (v : list Z) : list Z := tag :: le_enc 2 (Z.of_nat (length v)) ++ v.
Definition fits (v : list Z) : Prop := Z.of_nat (length v) < 2 ^ 16.

Lemma fb_length t v : length (fb t v) = (3 + length v)%nat.
Proof. unfold fb. cbn [length]. rewrite app_length, le_enc_length. lia. Qed.

Lemma field_some tag v ss : field tag v = Some ss -> concat ss = fb tag v /\ fits v.
Proof.
  unfold field, fits. destruct (Z.ltb_spec (Z.of_nat (length v)) (2 ^ 16)) as [L|L]; intros E; [|discriminate].
  apply some_inj in E. subst ss. split; [|exact L]. cbn [concat]. unfold fb. rewrite app_nil_r. reflexivity.
Qed.
Lemma field_fits tag v : fits v -> exists ss, field tag v = Some ss.
Proof. unfold field, fits. intros L. destruct (Z.ltb_spec (Z.of_nat (length v)) (2 ^ 16)); [eauto|lia]. Qed.

Definition enc_arg (a : larg) : list Z := fb (akind_code (fst (as_argument a))) (snd (as_argument a)).
Definition arg_fits (a : larg) : Prop := fits (snd (as_argument a)).

Lemma arg_slices_some args : forall ss, arg_slices args = Some ss -> concat ss = flat_map enc_arg args /\ Forall arg_fits args.
Proof.
  unfold arg_slices. induction args as [|a args IH]; intros ss H.
  - apply some_inj in H. subst. split; [reflexivity|constructor].
  - cbn [map seq_opt] in H. destruct (as_argument a) as [k v] eqn:A.
    destruct (field (akind_code k) v) as [f|] eqn:F; [|discriminate].
    destruct (seq_opt _) as [r|] eqn:R in H; [|discriminate].
    apply some_inj in H. subst ss. destruct (field_some _ _ _ F) as [C L]. destruct (IH r R) as [C' L'].
    split.
    + rewrite concat_app, C, C'. cbn [flat_map]. unfold enc_arg at 2. rewrite A. reflexivity.
    + constructor; [|exact L']. unfold arg_fits. rewrite A. exact L.
Qed.
Lemma arg_slices_fits args : Forall arg_fits args -> exists ss, arg_slices args = Some ss.
Proof.
  unfold arg_slices. induction 1 as [|a args L F [r IH]].
  - exists []. reflexivity.
  - cbn [map seq_opt]. unfold arg_fits in L. destruct (as_argument a) as [k v]. cbn [snd] in L.
    destruct (field_fits (akind_code k) v L) as [f ->]. rewrite IH. eauto.
Qed.

Definition enc_header (h : lheader) (n : Z) : list Z :=
  fb 0 (lh_target h) ++ fb 1 [level_code (lh_level h)] ++ fb 2 (lh_module h) ++ fb 3 (lh_file h) ++
  fb 4 (le_enc 4 (lh_line h)) ++ fb 5 (le_enc 4 n).

Lemma fits_one x : fits [x].
Proof. unfold fits. cbn. lia. Qed.
Lemma fits_enc4 x : fits (le_enc 4 x).
Proof. unfold fits. rewrite le_enc_length. lia. Qed.

Lemma header_slices_some h n ss : header_slices h n = Some ss ->
  concat ss = enc_header h n /\ fits (lh_target h) /\ fits (lh_module h) /\ fits (lh_file h).
Proof.
  unfold header_slices. cbn [seq_opt]. intros H.
  destruct (field 0 (lh_target h)) as [f0|] eqn:F0; [|discriminate].
  destruct (field 1 [level_code (lh_level h)]) as [f1|] eqn:F1; [|discriminate].
  destruct (field 2 (lh_module h)) as [f2|] eqn:F2; [|discriminate].
  destruct (field 3 (lh_file h)) as [f3|] eqn:F3; [|discriminate].
  destruct (field 4 (le_enc 4 (lh_line h))) as [f4|] eqn:F4; [|discriminate].
  destruct (field 5 (le_enc 4 n)) as [f5|] eqn:F5; [|discriminate].
  apply some_inj in H. subst ss.
  apply field_some in F0, F1, F2, F3, F4, F5.
  rewrite !concat_app. destruct F0 as [-> ?], F1 as [-> ?], F2 as [-> ?], F3 as [-> ?], F4 as [-> ?], F5 as [-> ?].
  rewrite app_nil_r. unfold enc_header. tauto.
Qed.
Lemma header_slices_fits h n : fits (lh_target h) -> fits (lh_module h) -> fits (lh_file h) ->
  exists ss, header_slices h n = Some ss.
Proof.
  intros T M F. unfold header_slices. cbn [seq_opt].
  destruct (field_fits 0 _ T) as [? ->], (field_fits 1 _ (fits_one (level_code (lh_level h)))) as [? ->],
    (field_fits 2 _ M) as [? ->], (field_fits 3 _ F) as [? ->], (field_fits 4 _ (fits_enc4 (lh_line h))) as [? ->],
    (field_fits 5 _ (fits_enc4 n)) as [? ->]. eauto.
Qed.

Lemma enc_args_size args : Z.of_nat (length (flat_map enc_arg args)) =
  fold_right (fun a s => field_size (snd (as_argument a)) + s) 0 args.
Proof.
  induction args as [|a args IH]; [reflexivity|].
  cbn [flat_map fold_right]. rewrite app_length, Nat2Z.inj_add, IH. unfold enc_arg. rewrite fb_length.
  unfold field_size. lia.
Qed.
Lemma enc_header_size h n : Z.of_nat (length (enc_header h n)) =
  field_size (lh_target h) + field_size [0] + field_size (lh_module h) + field_size (lh_file h) + 7 + 7.
Proof.
  unfold enc_header. rewrite !app_length, !fb_length, !le_enc_length. unfold field_size. cbn [length]. lia.
Qed.

(** The reservation is the smallest power of two from 64 to 8192 that holds the
    record. *)
Ltac cap_round :=
  match goal with |- context [capacity_loop (S ?f) ?c ?size] =>
    change (capacity_loop (S f) c size) with
      (if c <? size then if 8192 <? u16 (Z.shiftl c 1) then None else capacity_loop f (u16 (Z.shiftl c 1)) size else Some c);
    let v := eval vm_compute in (u16 (Z.shiftl c 1)) in change (u16 (Z.shiftl c 1)) with v;
    let b := eval vm_compute in (8192 <? v) in change (8192 <? v) with b; cbv iota;
    destruct (Z.ltb_spec c size)
  end.
Definition good_cap (size c : Z) : Prop := size <= c /\ (c = 64 \/ c / 2 < size) /\ exists k, 6 <= k <= 13 /\ c = 2 ^ k.
Lemma capacity_spec size :
  match capacity size with None => 8192 < size | Some c => good_cap size c end.
Proof.
  unfold capacity, good_cap.
  do 8 (cap_round; [|let c := match goal with |- context [size <= ?c] => c end in
    split; [lia|]; split; [cbn; lia|]; let k := eval vm_compute in (Z.log2 c) in exists k; cbn; lia]).
  lia.
Qed.

Lemma write_slices_ok ss : forall pos buf, (pos + length (concat ss) <= length buf)%nat ->
  write_slices pos buf ss = Some (firstn pos buf ++ concat ss ++ skipn (pos + length (concat ss)) buf).
Proof.
  induction ss as [|s ss IH]; intros pos buf L; cbn [write_slices concat].
  - cbn [concat length] in *. rewrite Nat.add_0_r. cbn [app]. rewrite firstn_skipn. reflexivity.
  - cbn [concat] in L. rewrite app_length in L.
    destruct (Nat.leb_spec pos (length buf)); [|lia]. destruct (Nat.leb_spec (length s) (length buf - pos)); [|lia].
    cbn [andb]. rewrite IH by (rewrite splice_length; lia).
    f_equal.
    assert (P : length (firstn pos buf) = pos) by (rewrite firstn_length; lia).
    replace (splice pos s buf) with ((firstn pos buf ++ s) ++ skipn (pos + length s) buf) by (unfold splice; rewrite <- app_assoc; reflexivity).
    rewrite firstn_app_exact by (rewrite app_length; lia).
    rewrite skipn_app. rewrite skipn_all2 by (rewrite app_length; lia).
    rewrite !app_length, P, skipn_skipn', <- !app_assoc. cbn [app].
    do 4 f_equal. lia.
Qed.

(** * When a record is emitted *)

Definition record (h : lheader) (args : list larg) : list Z :=
  le_enc 2 (record_size h args) ++ enc_header h (Z.of_nat (length args)) ++ flat_map enc_arg args.

Lemma record_length h args : Z.of_nat (length (record h args)) = record_size h args.
Proof.
  unfold record, record_size. rewrite !app_length, le_enc_length, !Nat2Z.inj_add, enc_header_size, enc_args_size. lia.
Qed.

Definition granting (room : Z -> option (list Z)) : Prop :=
  forall cap buf, room cap = Some buf -> Z.of_nat (length buf) = cap.

Theorem emit_spec room h args : granting room ->
  (fields_fit h args /\ record_size h args <= 8192 /\
   exists cap buf, good_cap (record_size h args) cap /\ room cap = Some buf /\
     emit room h args = LogSubmitted (record h args ++ skipn (length (record h args)) buf))
  \/
  (emit room h args = LogNothing /\
   (~ fields_fit h args \/ record_size h args > 8192 \/ exists cap, good_cap (record_size h args) cap /\ room cap = None)).
Proof.
  intros G. unfold emit.
  destruct (header_slices h _) as [hs|] eqn:H.
  2: { right. split; [reflexivity|]. left. intros (T & M & F & _).
       destruct (header_slices_fits h (Z.of_nat (length args)) T M F) as [ss E]. congruence. }
  destruct (arg_slices args) as [ss|] eqn:A.
  2: { right. split; [reflexivity|]. left. intros (_ & _ & _ & F).
       destruct (arg_slices_fits args F) as [ss E]. congruence. }
  destruct (header_slices_some _ _ _ H) as (CH & FT & FM & FF).
  destruct (arg_slices_some _ _ A) as (CA & FA).
  assert (SZ : 2 + total hs + total ss = record_size h args).
  { unfold total, record_size. rewrite CH, CA, enc_header_size, enc_args_size. lia. }
  cbv zeta. rewrite SZ.
  destruct (Z.leb_spec (2 ^ 16) (record_size h args)) as [B|B].
  { right. split; [reflexivity|]. right. left. lia. }
  pose proof (capacity_spec (record_size h args)) as C.
  destruct (capacity (record_size h args)) as [cap|].
  2: { right. split; [reflexivity|]. right. left. lia. }
  destruct (room cap) as [buf|] eqn:R.
  2: { right. split; [reflexivity|]. right. right. eauto. }
  left. split; [|split].
  - split; [exact FT|]. split; [exact FM|]. split; [exact FF|exact FA].
  - destruct C as (L & _ & k & K & ->). assert (2 ^ k <= 2 ^ 13) by (apply Z.pow_le_mono_r; lia). lia.
  - exists cap, buf. split; [exact C|]. split; [exact R|].
    assert (EC : concat (le_enc 2 (record_size h args) :: hs ++ ss) = record h args).
    { cbn [concat]. rewrite concat_app, CH, CA. reflexivity. }
    rewrite write_slices_ok.
    + rewrite EC. reflexivity.
    + rewrite EC. pose proof (record_length h args). pose proof (G _ _ R). destruct C as (L & _). lia.
Qed.

(** * Reading *)

Lemma try_read_fb t v rest : fits v -> try_read (fb t v ++ rest) = Ok (t, v, rest).
Proof.
  intros L. unfold fits in L. unfold fb. cbn [app].
  remember (le_enc 2 (Z.of_nat (length v))) as e eqn:E.
  assert (Hd : le_dec e = Z.of_nat (length v)) by (subst e; apply le_dec_enc_small; lia).
  assert (Hl : length e = 2%nat) by (subst e; apply le_enc_length).
  destruct e as [|e0 [|e1 [|]]]; try discriminate.
  unfold try_read. cbn [app]. rewrite Hd, Nat2Z.id. rewrite app_length.
  destruct (Nat.ltb_spec (length v + length rest) (length v)); [lia|].
  rewrite firstn_app_exact, skipn_app_exact by reflexivity. reflexivity.
Qed.

Lemma level_of_code l : level_of (level_code l) = Some l.
Proof. destruct l; reflexivity. Qed.
Lemma hint_of_code h : hint_of (hint_code h) = Some h.
Proof. destruct h; reflexivity. Qed.
Lemma akind_of_code k : akind_of (akind_code k) = Some k.
Proof. destruct k; reflexivity. Qed.

Lemma text_ok v : utf8 v = true -> text v = Ok v.
Proof. unfold text. intros ->. reflexivity. Qed.
Lemma exactly_ok n v : length v = n -> exactly n v = Ok v.
Proof. intros <-. unfold exactly. rewrite Nat.eqb_refl. reflexivity. Qed.

Lemma header_step f st t v rest st' : hs_num st = None -> fits v -> header_field st t v = Ok st' ->
  header_loop (S f) st (fb t v ++ rest) = header_loop f st' rest.
Proof.
  intros N F H. cbn [header_loop]. rewrite N. rewrite try_read_fb by exact F. cbn [bind]. rewrite H. cbn [bind].
  destruct (hs_target st), (hs_level st), (hs_module st), (hs_file st), (hs_line st); reflexivity.
Qed.

Lemma header_loop_ok h n rest fuel :
  wf_header h -> fits (lh_target h) -> fits (lh_module h) -> fits (lh_file h) -> in_bits 32 n -> (6 <= fuel)%nat ->
  header_loop fuel hs0 (enc_header h n ++ rest) = Ok (h, n, rest).
Proof.
  intros (UT & UM & UF & LN) FT FM FF N FU. unfold in_bits in *.
  do 6 (destruct fuel as [|fuel]; [lia|]).
  unfold enc_header. rewrite <- !app_assoc.
  set (s1 := {| hs_target := Some (lh_target h); hs_level := None; hs_module := None; hs_file := None; hs_line := None; hs_num := None |}).
  set (s2 := {| hs_target := Some (lh_target h); hs_level := Some (lh_level h); hs_module := None; hs_file := None; hs_line := None; hs_num := None |}).
  set (s3 := {| hs_target := Some (lh_target h); hs_level := Some (lh_level h); hs_module := Some (lh_module h); hs_file := None; hs_line := None; hs_num := None |}).
  set (s4 := {| hs_target := Some (lh_target h); hs_level := Some (lh_level h); hs_module := Some (lh_module h); hs_file := Some (lh_file h); hs_line := None; hs_num := None |}).
  set (s5 := {| hs_target := Some (lh_target h); hs_level := Some (lh_level h); hs_module := Some (lh_module h); hs_file := Some (lh_file h); hs_line := Some (lh_line h); hs_num := None |}).
  set (s6 := {| hs_target := Some (lh_target h); hs_level := Some (lh_level h); hs_module := Some (lh_module h); hs_file := Some (lh_file h); hs_line := Some (lh_line h); hs_num := Some n |}).
  assert (E1 : header_field hs0 0 (lh_target h) = Ok s1) by (unfold header_field; cbn [Z.eqb]; rewrite (text_ok _ UT); reflexivity).
  assert (E2 : header_field s1 1 [level_code (lh_level h)] = Ok s2).
  { unfold header_field. cbn [Z.eqb Pos.eqb]. unfold first_byte. rewrite level_of_code. reflexivity. }
  assert (E3 : header_field s2 2 (lh_module h) = Ok s3) by (unfold header_field; cbn [Z.eqb Pos.eqb]; rewrite (text_ok _ UM); reflexivity).
  assert (E4 : header_field s3 3 (lh_file h) = Ok s4) by (unfold header_field; cbn [Z.eqb Pos.eqb]; rewrite (text_ok _ UF); reflexivity).
  assert (E5 : header_field s4 4 (le_enc 4 (lh_line h)) = Ok s5).
  { unfold header_field. cbn [Z.eqb Pos.eqb]. rewrite exactly_ok by apply le_enc_length. cbn [bind].
    rewrite le_dec_enc_small by (change (256 ^ Z.of_nat 4) with (2 ^ 32); lia). reflexivity. }
  assert (E6 : header_field s5 5 (le_enc 4 n) = Ok s6).
  { unfold header_field. cbn [Z.eqb Pos.eqb]. rewrite exactly_ok by apply le_enc_length. cbn [bind].
    rewrite le_dec_enc_small by (change (256 ^ Z.of_nat 4) with (2 ^ 32); lia). reflexivity. }
  rewrite (header_step _ hs0 _ _ _ s1 eq_refl FT E1), (header_step _ s1 _ _ _ s2 eq_refl (fits_one _) E2),
    (header_step _ s2 _ _ _ s3 eq_refl FM E3), (header_step _ s3 _ _ _ s4 eq_refl FF E4),
    (header_step _ s4 _ _ _ s5 eq_refl (fits_enc4 _) E5), (header_step _ s5 _ _ _ s6 eq_refl (fits_enc4 _) E6).
  destruct h; destruct fuel; reflexivity.
Qed.

(** * Arguments *)

Definition next_hint (last : option hint) (a : larg) : option hint :=
  match a with AHint h => Some h | AStr _ => last | _ => None end.
Definition opt_res {A} (o : option A) : res lerr A := match o with Some x => Ok x | None => Err LBad end.

Lemma swrap_small bits v : 0 < bits -> in_sbits bits v -> swrap bits (v mod 2 ^ bits) = v.
Proof.
  intros B (L & H). unfold swrap. rewrite Z.mod_mod by (apply Z.pow_nonzero; lia).
  assert (P : 2 ^ bits = 2 * 2 ^ (bits - 1)) by (rewrite <- Z.pow_succ_r by lia; f_equal; lia).
  assert (0 < 2 ^ (bits - 1)) by (apply Z.pow_pos_nonneg; lia).
  rewrite P. set (p := 2 ^ (bits - 1)) in *. clearbody p. clear P.
  destruct (Z.le_gt_cases 0 v).
  - rewrite Z.mod_small by lia. destruct (Z.ltb_spec v p); lia.
  - replace (v mod (2 * p)) with (v + 2 * p) by (apply (Z.mod_unique v (2 * p) (-1)); lia).
    destruct (Z.ltb_spec (v + 2 * p) p); lia.
Qed.

Lemma fmt_int_shown v bits h : fmt_int v (v mod 2 ^ bits) h = opt_res (show_int v bits h).
Proof. destruct h as [[]|]; reflexivity. Qed.

Lemma sint_text bits n v last : 8 * Z.of_nat n = bits -> 0 < bits -> in_sbits bits v ->
  bind (exactly n (le_enc n v)) (fun w => bind (fmt_int (swrap (8 * Z.of_nat n) (le_dec w)) (le_dec w) last) (fun s => Ok (s, @None hint)))
  = bind (opt_res (show_int v bits last)) (fun s => Ok (s, None)).
Proof.
  intros B P I. rewrite exactly_ok by apply le_enc_length. cbn [bind].
  rewrite le_dec_enc. replace (256 ^ Z.of_nat n) with (2 ^ bits).
  - rewrite B, swrap_small by assumption. rewrite fmt_int_shown. reflexivity.
  - subst bits. rewrite Z.pow_mul_r by lia. reflexivity.
Qed.
Lemma uint_text bits n v last : 8 * Z.of_nat n = bits -> in_bits bits v ->
  bind (exactly n (le_enc n v)) (fun w => bind (fmt_int (le_dec w) (le_dec w) last) (fun s => Ok (s, @None hint)))
  = bind (opt_res (show_int v bits last)) (fun s => Ok (s, None)).
Proof.
  intros B I. rewrite exactly_ok by apply le_enc_length. cbn [bind].
  assert (P : 256 ^ Z.of_nat n = 2 ^ bits) by (subst bits; rewrite Z.pow_mul_r by lia; reflexivity).
  rewrite le_dec_enc_small by (rewrite P; exact I).
  rewrite <- fmt_int_shown. rewrite Z.mod_small by exact I. reflexivity.
Qed.

Lemma arg_text_ok ff last a : wf_arg a ->
  arg_text 8 ff last (akind_code (fst (as_argument a))) (snd (as_argument a)) =
  bind (opt_res (shown ff last a)) (fun s => Ok (s, next_hint last a)).
Proof.
  intros W. unfold arg_text. rewrite akind_of_code.
  destruct a as [w v|v|w v|v|b|b|b|b|b|b|b|b|h|v]; cbn [as_argument fst snd wf_arg shown next_hint] in *.
  - destruct w; cbn [ikind]; apply sint_text; try reflexivity; exact W.
  - apply sint_text; try reflexivity; exact W.
  - destruct w; cbn [ukind]; try (apply uint_text; [reflexivity|exact W]).
    pose proof (uint_text 32 4 v last eq_refl W) as U.
    rewrite exactly_ok in * by apply le_enc_length. cbn [bind] in *.
    rewrite le_dec_enc_small in * by (change (256 ^ Z.of_nat 4) with (2 ^ 32); exact W).
    unfold fmt_u32. destruct last as [[]|]; try exact U; reflexivity.
  - apply uint_text; [reflexivity|exact W].
  - destruct W as [L _]. rewrite exactly_ok by exact L. cbn [bind]. destruct last as [[]|]; reflexivity.
  - destruct W as [L _]. rewrite exactly_ok by exact L. cbn [bind]. destruct last as [[]|]; reflexivity.
  - destruct W as [L _]. rewrite exactly_ok by exact L. cbn [bind]. destruct last as [[]|]; reflexivity.
  - destruct W as [L _]. rewrite exactly_ok by exact L. cbn [bind]. destruct last as [[]|]; reflexivity.
  - unfold arr_kind, show_array.
    destruct (Nat.eqb_spec (length b) 4) as [L|]; [rewrite exactly_ok by exact L; cbn [bind]; destruct last as [[]|]; reflexivity|].
    destruct (Nat.eqb_spec (length b) 6) as [L|]; [rewrite exactly_ok by exact L; cbn [bind]; destruct last as [[]|]; reflexivity|].
    destruct (Nat.eqb_spec (length b) 16) as [L|]; [rewrite exactly_ok by exact L; cbn [bind]; destruct last as [[]|]; reflexivity|].
    destruct last as [[]|]; reflexivity.
  - unfold arr_kind, show_array.
    destruct (Nat.eqb_spec (length b) 4) as [L|]; [rewrite exactly_ok by exact L; cbn [bind]; destruct last as [[]|]; reflexivity|].
    destruct (Nat.eqb_spec (length b) 6) as [L|]; [rewrite exactly_ok by exact L; cbn [bind]; destruct last as [[]|]; reflexivity|].
    destruct (Nat.eqb_spec (length b) 16) as [L|]; [rewrite exactly_ok by exact L; cbn [bind]; destruct last as [[]|]; reflexivity|].
    destruct last as [[]|]; reflexivity.
  - destruct last as [[]|]; reflexivity.
  - rewrite W. reflexivity.
  - unfold first_byte. rewrite hint_of_code. reflexivity.
  - rewrite exactly_ok by apply le_enc_length. cbn [bind].
    rewrite le_dec_enc_small by (change (256 ^ Z.of_nat 8) with (2 ^ 64); exact W).
    destruct last as [[]|]; reflexivity.
Qed.

Lemma args_loop_ok ff args : forall fuel last rest msg, Forall wf_arg args -> Forall arg_fits args -> (length args <= fuel)%nat ->
  args_loop 8 ff fuel (Z.of_nat (length args)) last (flat_map enc_arg args ++ rest) msg =
  bind (opt_res (message ff last args)) (fun m => Ok (msg ++ m)).
Proof.
  induction args as [|a args IH]; intros fuel last rest msg W F FU.
  - destruct fuel; cbn; rewrite app_nil_r; reflexivity.
  - destruct fuel as [|fuel]; [cbn [length] in FU; lia|]. cbn [length] in FU |- *.
    cbn [args_loop]. destruct (Z.eqb_spec (Z.of_nat (S (length args))) 0) as [E|_]; [lia|].
    cbn [flat_map]. rewrite <- app_assoc. unfold enc_arg at 1.
    rewrite try_read_fb by exact (Forall_inv F). cbn [bind]. rewrite arg_text_ok by exact (Forall_inv W).
    cbn [message]. fold (next_hint last a).
    destruct (shown ff last a) as [s|]; cbn [opt_res bind fst snd]; [|reflexivity].
    replace (Z.of_nat (S (length args)) - 1) with (Z.of_nat (length args)) by lia.
    rewrite IH by (try exact (Forall_inv_tail W); try exact (Forall_inv_tail F); lia).
    destruct (message ff (next_hint last a) args) as [m|]; cbn [opt_res bind]; [|reflexivity].
    rewrite app_assoc. reflexivity.
Qed.

Lemma enc_args_len args : (length args <= length (flat_map enc_arg args))%nat.
Proof.
  induction args as [|a args IH]; [cbn; lia|]. cbn [flat_map length]. rewrite app_length. unfold enc_arg at 1. rewrite fb_length. lia.
Qed.

Theorem log_buf_record ff h args junk :
  wf_header h -> Forall wf_arg args -> fields_fit h args -> record_size h args < 2 ^ 16 ->
  log_buf 8 ff (record h args ++ junk) = bind (opt_res (message ff None args)) (fun m => Ok (h, m)).
Proof.
  intros WH WA (FT & FM & FF & FA) B.
  pose proof (record_length h args) as RL.
  assert (SZ : record_size h args >= 2) by (rewrite <- RL; unfold record; rewrite app_length, le_enc_length; lia).
  assert (NA : Z.of_nat (length args) < 2 ^ 32).
  { pose proof (enc_args_len args). unfold record in RL. rewrite !app_length in RL. lia. }
  unfold record in *. rewrite <- !app_assoc.
  set (body := enc_header h (Z.of_nat (length args)) ++ flat_map enc_arg args) in *.
  assert (Hd : le_dec (le_enc 2 (record_size h args)) = record_size h args) by (apply le_dec_enc_small; change (256 ^ Z.of_nat 2) with (2 ^ 16); lia).
  assert (Hl : length (le_enc 2 (record_size h args)) = 2%nat) by apply le_enc_length.
  remember (le_enc 2 (record_size h args)) as e eqn:E. clear E.
  destruct e as [|e0 [|e1 [|]]]; try discriminate.
  unfold log_buf. cbn [app]. rewrite Hd.
  assert (LB : length (e0 :: e1 :: body ++ junk) = (2 + length body + length junk)%nat) by (cbn [length]; rewrite app_length; lia).
  assert (SN : Z.to_nat (record_size h args) = (2 + length body)%nat) by (cbn [app length] in RL; lia).
  replace (enc_header h (Z.of_nat (length args)) ++ flat_map enc_arg args ++ junk) with (body ++ junk)
    by (unfold body; rewrite <- app_assoc; reflexivity).
  rewrite SN, LB.
  destruct (Nat.ltb_spec (2 + length body) 2); [lia|].
  destruct (Nat.ltb_spec (2 + length body + length junk) (2 + length body)); [lia|]. cbn [orb].
  assert (SL : slice 2 (2 + length body - 2) (e0 :: e1 :: body ++ junk) = body).
  { unfold slice. cbn [skipn]. apply firstn_app_exact. lia. }
  rewrite SL. unfold body at 2.
  rewrite header_loop_ok; try assumption.
  - cbn [bind]. pose proof (args_loop_ok ff args (S (length (flat_map enc_arg args))) None [] [] WA FA) as A.
    rewrite app_nil_r in A. rewrite A by (pose proof (enc_args_len args); lia).
    destruct (message ff None args); reflexivity.
  - unfold in_bits. lia.
  - unfold body, enc_header. rewrite !app_length, !fb_length. lia.
Qed.

(** * Order of records *)
Lemma flush_ok ff : forall recs bufs,
  Forall2 (fun r b => log_buf 8 ff b = Ok r) recs bufs -> flush 8 ff bufs = LogDone recs.
Proof.
  induction 1 as [|r b rs bs E F IH]; [reflexivity|]. cbn [flush]. rewrite E, IH. reflexivity.
Qed.
