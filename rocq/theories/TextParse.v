(** Text primitives of the Rust standard library the parsers rely on: lines,
    whitespace separated words, numbers in a radix.

    Text is a list of byte values.  Only ASCII white space is recognised;
    [str::split_whitespace] also splits at non-ASCII white space, which none of
    the kernel files read this way contains. *)
From Coq Require Import String.
From Verif Require Import Base Text.
Local Open Scope Z_scope.

(** [BufRead::lines]: the pieces between newlines, no empty piece after the
    last newline.  (A carriage return before the newline is dropped by the
    library; every user in the model splits at white space, so this has no
    effect here and is not modelled.) *)
Fixpoint lines_go (cur : list Z) (s : list Z) : list (list Z) :=
  match s with
  | [] => match cur with [] => [] | _ => [rev cur] end
  | c :: s => if c =? 10 then rev cur :: lines_go [] s else lines_go (c :: cur) s
  end.
Definition lines (s : list Z) : list (list Z) := lines_go [] s.

(** [char::is_whitespace] on ASCII. *)
Definition is_ws (c : Z) : bool := ((9 <=? c) && (c <=? 13)) || (c =? 32).

(** [str::split_whitespace]. *)
Fixpoint ws_words_go (cur : list Z) (s : list Z) : list (list Z) :=
  match s with
  | [] => match cur with [] => [] | _ => [rev cur] end
  | c :: s =>
      if is_ws c then match cur with [] => ws_words_go [] s | _ => rev cur :: ws_words_go [] s end
      else ws_words_go (c :: cur) s
  end.
Definition ws_words (s : list Z) : list (list Z) := ws_words_go [] s.

(** [char::to_digit]. *)
Definition digit_val (radix c : Z) : option Z :=
  let v := if (48 <=? c) && (c <=? 57) then c - 48
           else if (97 <=? c) && (c <=? 122) then c - 87
           else if (65 <=? c) && (c <=? 90) then c - 55
           else radix in
  if v <? radix then Some v else None.

(** [uN::from_str_radix]: an optional plus sign, at least one digit, and a
    value below [2^bits]. *)
Fixpoint digits_val (radix max : Z) (acc : Z) (s : list Z) : option Z :=
  match s with
  | [] => Some acc
  | c :: s =>
      match digit_val radix c with
      | Some d => if acc * radix + d <? max then digits_val radix max (acc * radix + d) s else None
      | None => None
      end
  end.
Definition parse_uint (radix max : Z) (s : list Z) : option Z :=
  match s with
  | [] => None
  | c :: r =>
      let d := if c =? 43 then r else s in
      match d with [] => None | _ => digits_val radix max 0 d end
  end.
Definition hex_u64 (s : list Z) : option Z := parse_uint 16 (2 ^ 64) s.
Definition dec_u32 (s : list Z) : option Z := parse_uint 10 (2 ^ 32) s.
Definition dec_u64 (s : list Z) : option Z := parse_uint 10 (2 ^ 64) s.

(** [n] hexadecimal digits of [x] (the kernel's [%0nx]). *)
Definition hex_char (d : Z) : Z := if d <? 10 then 48 + d else 87 + d.
Fixpoint hex_fixed (n : nat) (x : Z) : list Z :=
  match n with
  | O => []
  | S n => hex_fixed n (x / 16) ++ [hex_char (x mod 16)]
  end.

(** * Facts *)

Definition word_ok (w : list Z) : Prop := w <> [] /\ Forall (fun c => is_ws c = false) w.

Lemma ws_words_go_word w : forall cur s, Forall (fun c => is_ws c = false) w -> ws_words_go cur (w ++ s) = ws_words_go (rev w ++ cur) s.
Proof.
  induction w as [|c w IH]; intros cur s H; [reflexivity|]. inversion H; subst.
  cbn [app ws_words_go]. rewrite H2, IH by assumption. f_equal. cbn [rev]. now rewrite <- app_assoc.
Qed.

Lemma ws_words_cons w s : word_ok w -> ws_words (w ++ 32 :: s) = w :: ws_words s.
Proof.
  intros [Hn H]. unfold ws_words. rewrite ws_words_go_word by exact H. cbn [ws_words_go].
  change (is_ws 32) with true. cbn iota. rewrite app_nil_r.
  destruct (rev w) eqn:E; [|now rewrite <- E, rev_involutive].
  apply (f_equal (@rev Z)) in E. rewrite rev_involutive in E. contradiction.
Qed.

Lemma ws_words_last w : word_ok w -> ws_words w = [w].
Proof.
  intros [Hn H]. unfold ws_words. rewrite <- (app_nil_r w) at 1. rewrite ws_words_go_word by exact H. cbn [ws_words_go].
  rewrite app_nil_r. destruct (rev w) eqn:E; [|now rewrite <- E, rev_involutive].
  apply (f_equal (@rev Z)) in E. rewrite rev_involutive in E. contradiction.
Qed.

Lemma lines_go_line w : forall cur s, ~ In 10 w -> lines_go cur (w ++ s) = lines_go (rev w ++ cur) s.
Proof.
  induction w as [|c w IH]; intros cur s H; [reflexivity|].
  cbn [app lines_go]. destruct (Z.eqb_spec c 10) as [->|]; [exfalso; apply H; now left|].
  rewrite IH by (intros X; apply H; now right). f_equal. cbn [rev]. now rewrite <- app_assoc.
Qed.

Lemma lines_cons w s : ~ In 10 w -> lines (w ++ 10 :: s) = w :: lines s.
Proof.
  intros H. unfold lines. rewrite lines_go_line by exact H. cbn [lines_go]. rewrite app_nil_r.
  change (10 =? 10) with true. cbn iota. now rewrite rev_involutive.
Qed.

(** The text made of the given lines. *)
Definition unlines (ls : list (list Z)) : list Z := flat_map (fun l => l ++ [10]) ls.
Lemma lines_unlines ls : Forall (fun l => ~ In 10 l) ls -> lines (unlines ls) = ls.
Proof.
  induction 1 as [|l ls H _ IH]; [reflexivity|]. unfold unlines. cbn [flat_map]. rewrite <- app_assoc. cbn [app].
  rewrite lines_cons by exact H. f_equal. exact IH.
Qed.

Lemma digit_hex d : 0 <= d < 16 -> digit_val 16 (hex_char d) = Some d.
Proof.
  intros H. unfold hex_char, digit_val. destruct (Z.ltb_spec d 10).
  - replace ((48 <=? 48 + d) && (48 + d <=? 57)) with true by lia. cbn zeta iota.
    replace (48 + d - 48) with d by lia. destruct (Z.ltb_spec d 16); [reflexivity|lia].
  - replace ((48 <=? 87 + d) && (87 + d <=? 57)) with false by lia.
    replace ((97 <=? 87 + d) && (87 + d <=? 122)) with true by lia. cbn zeta iota.
    replace (87 + d - 87) with d by lia. destruct (Z.ltb_spec d 16); [reflexivity|lia].
Qed.

Lemma digits_hex max n : forall x acc s, 0 <= x < 16 ^ Z.of_nat n -> 0 <= acc -> acc * 16 ^ Z.of_nat n + x < max ->
  digits_val 16 max acc (hex_fixed n x ++ s) = digits_val 16 max (acc * 16 ^ Z.of_nat n + x) s.
Proof.
  induction n as [|n IH]; intros x acc s Hx Ha Hm.
  - cbn [hex_fixed app]. f_equal. cbn in Hx. lia.
  - rewrite Nat2Z.inj_succ, Z.pow_succ_r in * by lia. cbn [hex_fixed]. rewrite <- app_assoc. cbn [app].
    assert (0 < 16 ^ Z.of_nat n) by (apply Z.pow_pos_nonneg; lia).
    set (p := 16 ^ Z.of_nat n) in *.
    assert (0 <= x / 16 < p) by (split; [apply Z.div_pos; lia|apply Z.div_lt_upper_bound; lia]).
    pose proof (Z.div_mod x 16 ltac:(lia)) as D. pose proof (Z.mod_pos_bound x 16 ltac:(lia)) as M.
    set (q := x / 16) in *. set (r := x mod 16) in *. clearbody q r p.
    rewrite IH; [|lia|lia|nia]. cbn [digits_val]. rewrite digit_hex by lia.
    replace ((acc * p + q) * 16 + r) with (acc * (16 * p) + x) by (rewrite D; ring).
    destruct (Z.ltb_spec (acc * (16 * p) + x) max); [reflexivity|lia].
Qed.

Lemma hex_fixed_nil n x : hex_fixed (S n) x <> [].
Proof. cbn [hex_fixed]. now destruct (hex_fixed n (x / 16)). Qed.

Lemma hex_fixed_chars n : forall x, Forall (fun c => (48 <= c <= 57) \/ (97 <= c <= 102)) (hex_fixed n x).
Proof.
  induction n as [|n IH]; intros x; [constructor|]. cbn [hex_fixed]. apply Forall_app. split; [apply IH|].
  constructor; [|constructor]. unfold hex_char. destruct (Z.ltb_spec (x mod 16) 10); lia.
Qed.

Lemma parse_hex max n x : 0 <= x < 16 ^ Z.of_nat (S n) -> x < max -> parse_uint 16 max (hex_fixed (S n) x) = Some x.
Proof.
  intros Hx Hm. unfold parse_uint. pose proof (hex_fixed_chars (S n) x) as F. pose proof (hex_fixed_nil n x) as N.
  destruct (hex_fixed (S n) x) as [|c r] eqn:E; [contradiction|]. inversion F; subst.
  replace (c =? 43) with false by lia. rewrite <- E, <- (app_nil_r (hex_fixed (S n) x)).
  rewrite digits_hex by lia. reflexivity.
Qed.

Lemma digits_bound radix max s : forall acc v, 0 <= acc < max -> 0 < radix -> digits_val radix max acc s = Some v -> 0 <= v < max.
Proof.
  induction s as [|c s IH]; intros acc v Ha Hr H; cbn [digits_val] in H.
  - apply some_inj in H. lia.
  - unfold digit_val in H. cbv zeta in H.
    match type of H with context[if ?v <? radix then _ else _] => set (d := v) in *; destruct (Z.ltb_spec d radix) as [B|]; [|discriminate] end.
    destruct (Z.ltb_spec (acc * radix + d) max) as [B2|]; [|discriminate].
    apply IH in H; [exact H| |exact Hr]. split; [|lia].
    assert (0 <= d) by (unfold d; destruct ((48 <=? c) && (c <=? 57)) eqn:?; [lia|]; destruct ((97 <=? c) && (c <=? 122)) eqn:?; [lia|]; destruct ((65 <=? c) && (c <=? 90)) eqn:?; lia).
    nia.
Qed.

Lemma parse_uint_bound radix max s v : 0 < max -> 0 < radix -> parse_uint radix max s = Some v -> 0 <= v < max.
Proof.
  intros Hm Hr. unfold parse_uint. destruct s as [|c r]; [discriminate|]. intros H.
  destruct (if c =? 43 then r else c :: r) eqn:E; [discriminate|]. rewrite <- E in H. eapply digits_bound; [|exact Hr|exact H]. lia.
Qed.

(** Decimal numbers print and parse back. *)
Lemma digit_dec c : is_digit c = true -> digit_val 10 c = Some (c - 48).
Proof.
  unfold digit_val. intros E. pose proof E as E'. unfold is_digit in E'. rewrite E'. cbn zeta iota.
  unfold is_digit in E. destruct (Z.ltb_spec (c - 48) 10); [reflexivity|lia].
Qed.

Lemma digits_dec max s : forall acc, Forall (fun c => is_digit c = true) s -> 0 <= acc ->
  fold_left (fun a c => 10 * a + (c - 48)) s acc < max -> digits_val 10 max acc s = Some (fold_left (fun a c => 10 * a + (c - 48)) s acc).
Proof.
  induction s as [|c s IH]; intros acc H Ha Hm; [reflexivity|]. inversion H; subst. cbn [digits_val fold_left] in *.
  rewrite digit_dec by assumption. pose proof H2 as D. unfold is_digit in D.
  replace (acc * 10 + (c - 48)) with (10 * acc + (c - 48)) by ring.
  assert (10 * acc + (c - 48) <= fold_left (fun a c => 10 * a + (c - 48)) s (10 * acc + (c - 48))) as B.
  { assert (0 <= 10 * acc + (c - 48)) as P by lia. revert P. generalize (10 * acc + (c - 48)). clear - H3.
    induction s as [|c s IH]; intros z P; [cbn; lia|]. inversion H3; subst. cbn [fold_left]. unfold is_digit in H1.
    specialize (IH H2 (10 * z + (c - 48)) ltac:(lia)). lia. }
  destruct (Z.ltb_spec (10 * acc + (c - 48)) max); [|lia]. apply IH; [assumption|lia|exact Hm].
Qed.

Lemma parse_dec max n : 0 <= n < 10 ^ 20 -> n < max -> parse_uint 10 max (dec n) = Some n.
Proof.
  intros H Hm. destruct (dec_spec n H) as (V & F & N). unfold parse_uint.
  destruct (dec n) as [|c r] eqn:E; [contradiction|]. pose proof (Forall_inv F) as D. cbn beta in D. unfold is_digit in D.
  replace (c =? 43) with false by lia. rewrite (digits_dec max (c :: r) 0 F ltac:(lia)); [unfold dec_val in V; now rewrite V|].
  unfold dec_val in V. lia.
Qed.

Example parse_examples :
  ws_words (txt "ffffffff81000000 T  _text") = [txt "ffffffff81000000"; txt "T"; txt "_text"] /\
  hex_u64 (txt "ffffffff81000000") = Some 18446744071578845184 /\ hex_u64 (txt "+Ff") = Some 255 /\
  hex_u64 (txt "10000000000000000") = None /\ hex_u64 (txt "-1") = None /\ hex_u64 (txt "+") = None /\
  hex_u64 (txt "12g") = None /\ dec_u32 (txt "4294967295") = Some 4294967295 /\ dec_u32 (txt "4294967296") = None.
Proof. vm_compute. repeat split. Qed.
