(** The printed numbers are the logged numbers (C31). *)
From Coq Require Import String.
From Verif Require Import Base Text TextParse LogModel LogFmtModel LogSpec.
Local Open Scope Z_scope.

Lemma digit_hexc (up : bool) d : 0 <= d < 16 ->
  let c := if d <? 10 then 48 + d else if up then 55 + d else 87 + d in digit_val 16 c = Some d /\ c <> 43.
Proof.
  intros H. assert (D : In d (map Z.of_nat (seq 0 16))).
  { replace d with (Z.of_nat (Z.to_nat d)) by lia. apply in_map, in_seq. lia. }
  revert D. cbn [seq map]. cbn [In]. intros D.
  repeat (destruct D as [<-|D]; [destruct up; split; (reflexivity || discriminate)|]). destruct D.
Qed.

Lemma hex_go_spec up fuel : forall n acc, 0 <= n < 16 ^ Z.of_nat fuel -> (0 < fuel)%nat ->
  exists ds, hex_go fuel up n acc = ds ++ acc /\ ds <> [] /\ Forall (fun c => c <> 43) ds /\
    forall max a s, 0 <= a -> a * 16 ^ Z.of_nat (length ds) + n < max ->
      digits_val 16 max a (ds ++ s) = digits_val 16 max (a * 16 ^ Z.of_nat (length ds) + n) s.
Proof.
  induction fuel as [|fuel IH]; intros n acc Hn Hf; [lia|].
  rewrite Nat2Z.inj_succ, Z.pow_succ_r in Hn by lia.
  pose proof (Z.div_mod n 16 ltac:(lia)) as DM. pose proof (Z.mod_pos_bound n 16 ltac:(lia)) as MB.
  set (c := if n mod 16 <? 10 then 48 + n mod 16 else if up then 55 + n mod 16 else 87 + n mod 16).
  assert (HG : hex_go (S fuel) up n acc = if n / 16 =? 0 then c :: acc else hex_go fuel up (n / 16) (c :: acc)) by reflexivity.
  rewrite HG. clear HG.
  destruct (digit_hexc up (n mod 16) MB) as [Dc Nc]. fold c in Dc, Nc.
  destruct (Z.eqb_spec (n / 16) 0) as [E|E].
  - exists [c]. split; [reflexivity|]. split; [discriminate|]. split; [constructor; [exact Nc|constructor]|].
    intros max a s Ha Hm. cbn [length] in *. change (16 ^ Z.of_nat 1) with 16 in *. cbn [app digits_val]. rewrite Dc.
    replace (a * 16 + n mod 16) with (a * 16 + n) by lia. destruct (Z.ltb_spec (a * 16 + n) max); [reflexivity|lia].
  - assert (B : 0 <= n / 16 < 16 ^ Z.of_nat fuel).
    { split; [apply Z.div_pos; lia|apply Z.div_lt_upper_bound; lia]. }
    assert (F : (0 < fuel)%nat) by (destruct fuel; [cbn in B; lia|lia]).
    destruct (IH (n / 16) (c :: acc) B F) as (ds & E1 & N & NP & V).
    exists (ds ++ [c]). split; [rewrite E1, <- app_assoc; reflexivity|]. split; [destruct ds; discriminate|].
    split; [apply Forall_app; split; [exact NP|constructor; [exact Nc|constructor]]|].
    intros max a s Ha Hm. rewrite app_length in *. cbn [length] in *.
    rewrite Nat2Z.inj_add, Z.pow_add_r in * by lia. change (16 ^ Z.of_nat 1) with 16 in *.
    assert (0 < 16 ^ Z.of_nat (length ds)) by (apply Z.pow_pos_nonneg; lia).
    set (p := 16 ^ Z.of_nat (length ds)) in *. clearbody p.
    set (q := n / 16) in *. set (r := n mod 16) in *. clearbody q r c. clear IH E1 Hn.
    rewrite <- app_assoc. rewrite V by nia. cbn [app digits_val]. rewrite Dc.
    replace ((a * p + q) * 16 + r) with (a * (p * 16) + n) by (rewrite DM; ring).
    destruct (Z.ltb_spec (a * (p * 16) + n) max); [reflexivity|lia].
Qed.

Theorem show_hex_parse up n : in_bits 64 n -> hex_u64 (show_hex up n) = Some n.
Proof.
  intros H. unfold in_bits in H. unfold show_hex.
  destruct (hex_go_spec up 16 n [] H ltac:(lia)) as (ds & E & N & NP & V).
  rewrite E, app_nil_r. unfold hex_u64, parse_uint. destruct ds as [|c r]; [congruence|].
  pose proof (Forall_inv NP) as Nc. cbn beta in Nc. destruct (Z.eqb_spec c 43); [congruence|].
  specialize (V (2 ^ 64) 0 [] ltac:(lia)). rewrite app_nil_r in V. rewrite V by lia. reflexivity.
Qed.

Theorem show_hex2_digits up b : 0 <= b < 256 ->
  exists x y, show_hex2 up b = [x; y] /\ digit_val 16 x = Some (b / 16) /\ digit_val 16 y = Some (b mod 16).
Proof.
  intros H.
  assert (A : forallb (fun b => match show_hex2 up b with
      | [x; y] => match digit_val 16 x, digit_val 16 y with Some p, Some q => (p =? b / 16) && (q =? b mod 16) | _, _ => false end
      | _ => false end) (map Z.of_nat (seq 0 256)) = true) by (destruct up; vm_compute; reflexivity).
  rewrite forallb_forall in A. specialize (A b).
  assert (I : In b (map Z.of_nat (seq 0 256))).
  { replace b with (Z.of_nat (Z.to_nat b)) by lia. apply in_map, in_seq. lia. }
  specialize (A I). destruct (show_hex2 up b) as [|x [|y [|]]]; try discriminate. exists x, y. split; [reflexivity|].
  destruct (digit_val 16 x) as [p|]; [|discriminate]. destruct (digit_val 16 y) as [q|]; [|discriminate].
  apply andb_prop in A as [P Q]. apply Z.eqb_eq in P, Q. subst. split; reflexivity.
Qed.

(** Signed decimal. *)
Definition dec_signed (s : list Z) : option Z :=
  match s with
  | c :: r => if c =? 45 then option_map Z.opp (parse_uint 10 (2 ^ 64) r) else parse_uint 10 (2 ^ 64) s
  | [] => None
  end.
Theorem show_dec_parse v : - 2 ^ 63 <= v < 2 ^ 64 -> dec_signed (show_dec v) = Some v.
Proof.
  intros H. unfold show_dec. destruct (Z.ltb_spec v 0) as [L|L].
  - unfold dec_signed. cbn [Z.eqb Pos.eqb]. rewrite parse_dec by lia. cbn. f_equal. lia.
  - pose proof (parse_dec (2 ^ 64) v ltac:(lia) ltac:(lia)) as P. unfold dec_signed.
    destruct (dec v) as [|c r] eqn:E; [discriminate|]. destruct (Z.eqb_spec c 45) as [->|]; [|exact P].
    exfalso. destruct (dec_spec v ltac:(lia)) as (_ & F & _). rewrite E in F. pose proof (Forall_inv F) as X. discriminate.
Qed.
