(** Text as byte lists: decimal numbers, character replacement, ASCII
    literals. *)
From Coq Require Import String Ascii.
From Verif Require Import Base.
Local Open Scope Z_scope.

(** The bytes of an ASCII literal. *)
Fixpoint bytes_of_string (s : string) : list Z :=
  match s with
  | EmptyString => []
  | String c s => Z.of_nat (nat_of_ascii c) :: bytes_of_string s
  end.
Notation "'txt' s" := (bytes_of_string s%string) (at level 9, only parsing).

(** Decimal digits of a number below 10^20, as [Display] prints it. *)
Fixpoint dec_go (fuel : nat) (n : Z) (acc : list Z) : list Z :=
  match fuel with
  | O => acc
  | S fuel =>
      let acc := (48 + n mod 10) :: acc in
      if n / 10 =? 0 then acc else dec_go fuel (n / 10) acc
  end.
Definition dec (n : Z) : list Z := dec_go 20 n [].

(** [str::replace] of one character by another. *)
Definition replace_char (a b : Z) (s : list Z) : list Z := map (fun c => if c =? a then b else c) s.

Definition str_eqb (a b : list Z) : bool := if list_eq_dec Z.eq_dec a b then true else false.

Lemma str_eqb_refl s : str_eqb s s = true.
Proof. unfold str_eqb. now destruct (list_eq_dec Z.eq_dec s s). Qed.
Lemma str_eqb_eq a b : str_eqb a b = true <-> a = b.
Proof. unfold str_eqb. destruct (list_eq_dec Z.eq_dec a b); split; congruence. Qed.
Lemma str_eqb_neq a b : str_eqb a b = false <-> a <> b.
Proof. unfold str_eqb. destruct (list_eq_dec Z.eq_dec a b); split; congruence. Qed.

(** Value of a string of decimal digits. *)
Definition dec_val (s : list Z) : Z := fold_left (fun a c => 10 * a + (c - 48)) s 0.
Definition is_digit (c : Z) : bool := (48 <=? c) && (c <=? 57).

Lemma fold_dec s : forall a, fold_left (fun a c => 10 * a + (c - 48)) s a = a * 10 ^ Z.of_nat (length s) + dec_val s.
Proof.
  unfold dec_val. induction s as [|c s IH]; intros a; [cbn; lia|].
  cbn [fold_left length]. rewrite IH, (IH (10 * 0 + (c - 48))).
  rewrite Nat2Z.inj_succ, Z.pow_succ_r by lia. ring.
Qed.

Lemma dec_go_spec fuel : forall n acc, 0 <= n < 10 ^ Z.of_nat fuel -> (0 < fuel)%nat ->
  exists ds, dec_go fuel n acc = ds ++ acc /\ dec_val ds = n /\ Forall (fun c => is_digit c = true) ds /\ ds <> [].
Proof.
  induction fuel as [|fuel IH]; intros n acc Hn Hf; [lia|]. cbn [dec_go].
  assert (is_digit (48 + n mod 10) = true) as Hd by (unfold is_digit; lia).
  destruct (Z.eqb_spec (n / 10) 0) as [E|E].
  - exists [48 + n mod 10]. split; [reflexivity|]. split; [unfold dec_val; cbn [fold_left]; lia|].
    split; [now constructor|discriminate].
  - rewrite Nat2Z.inj_succ, Z.pow_succ_r in Hn by lia.
    destruct fuel as [|fuel]; [cbn in Hn; lia|].
    destruct (IH (n / 10) ((48 + n mod 10) :: acc) ltac:(lia) ltac:(lia)) as (ds & E1 & E2 & E3 & E4).
    exists (ds ++ [48 + n mod 10]). rewrite E1, <- app_assoc. split; [reflexivity|]. split.
    + unfold dec_val in *. rewrite fold_left_app. cbn [fold_left]. rewrite E2. lia.
    + split; [|now destruct ds]. apply Forall_app. split; [exact E3|now constructor].
Qed.

Lemma dec_spec n : 0 <= n < 10 ^ 20 ->
  dec_val (dec n) = n /\ Forall (fun c => is_digit c = true) (dec n) /\ dec n <> [].
Proof.
  intros H. destruct (dec_go_spec 20 n [] H ltac:(lia)) as (ds & E & H1 & H2 & H3).
  unfold dec. rewrite E, app_nil_r. auto.
Qed.

Lemma dec_inj a b : 0 <= a < 10 ^ 20 -> 0 <= b < 10 ^ 20 -> dec a = dec b -> a = b.
Proof. intros Ha Hb E. destruct (dec_spec a Ha) as [A _], (dec_spec b Hb) as [B _]. congruence. Qed.

Example dec_example : dec 1203 = txt "1203" /\ dec 0 = txt "0" /\ dec (2 ^ 64 - 1) = txt "18446744073709551615".
Proof. vm_compute. auto. Qed.
