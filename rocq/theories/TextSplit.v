(** Splitting text at separator characters, as [str::split] does, and
    trimming, with the facts the parsers need.

    Text is a list of byte values. *)
From Coq Require Import String.
From Verif Require Import Base Text TextParse.
Local Open Scope Z_scope.

(** [str::split] with a character predicate: always at least one piece. *)
Fixpoint split_by (p : Z -> bool) (s : list Z) : list (list Z) :=
  match s with
  | [] => [[]]
  | c :: s =>
      if p c then [] :: split_by p s
      else match split_by p s with
           | h :: t => (c :: h) :: t
           | [] => [[c]]
           end
  end.

(** [str::split] with a character. *)
Definition split_at (x : Z) (s : list Z) : list (list Z) := split_by (Z.eqb x) s.

(** [str::split_terminator] with a character predicate: as [split_by], without
    a last empty piece. *)
Definition split_term (p : Z -> bool) (s : list Z) : list (list Z) :=
  match rev (split_by p s) with
  | [] :: r => rev r
  | _ => split_by p s
  end.

(** [str::trim] (ASCII white space only). *)
Fixpoint trim_start (s : list Z) : list Z :=
  match s with
  | c :: r => if is_ws c then trim_start r else s
  | [] => []
  end.
Definition trim (s : list Z) : list Z := rev (trim_start (rev (trim_start s))).

(** [str::split_once] with a text: what follows the first occurrence. *)
Fixpoint starts_with (p s : list Z) : bool :=
  match p, s with
  | [], _ => true
  | a :: p, b :: s => (a =? b) && starts_with p s
  | _ :: _, [] => false
  end.
Fixpoint after_first (p s : list Z) : option (list Z) :=
  if starts_with p s then Some (skipn (length p) s)
  else match s with
       | [] => None
       | _ :: s => after_first p s
       end.

(** * Facts *)

(** Pieces joined by a separator. *)
Fixpoint join (x : Z) (l : list (list Z)) : list Z :=
  match l with
  | [] => []
  | [a] => a
  | a :: l => a ++ x :: join x l
  end.

Lemma split_by_nonempty p s : split_by p s <> [].
Proof. destruct s as [|c s]; cbn [split_by]; [discriminate|]. destruct (p c); [discriminate|]. now destruct (split_by p s). Qed.

Lemma split_by_none p s : Forall (fun c => p c = false) s -> split_by p s = [s].
Proof. induction 1 as [|c s H _ IH]; [reflexivity|]. cbn [split_by]. now rewrite H, IH. Qed.

Lemma split_by_app p a c s : Forall (fun c => p c = false) a -> p c = true -> split_by p (a ++ c :: s) = a :: split_by p s.
Proof.
  intros H Hc. induction H as [|d a H _ IH]; cbn [app split_by]; [now rewrite Hc|]. now rewrite H, IH.
Qed.

Lemma split_at_join x l : l <> [] -> Forall (Forall (fun c => c <> x)) l -> split_at x (join x l) = l.
Proof.
  intros N H. induction H as [|a l Ha Hl IH]; [contradiction|].
  assert (Forall (fun c => (x =? c) = false) a) as F by (eapply Forall_impl; [|exact Ha]; cbn beta; intros; lia).
  destruct l as [|b l]; [now apply split_by_none|].
  change (join x (a :: b :: l)) with (a ++ x :: join x (b :: l)).
  unfold split_at. rewrite split_by_app; [|exact F|apply Z.eqb_refl]. f_equal. apply IH. discriminate.
Qed.

Lemma split_at_spec x s : join x (split_at x s) = s /\ Forall (Forall (fun c => c <> x)) (split_at x s).
Proof.
  unfold split_at. induction s as [|c s [IH1 IH2]]; cbn [split_by]; [now repeat constructor|].
  pose proof (split_by_nonempty (Z.eqb x) s) as N. destruct (Z.eqb_spec x c) as [<-|E].
  - destruct (split_by (Z.eqb x) s) as [|h t]; [contradiction|]. split; [cbn [join app] in *; now rewrite IH1|].
    constructor; [constructor|exact IH2].
  - destruct (split_by (Z.eqb x) s) as [|h t]; [contradiction|]. pose proof (Forall_inv IH2) as A. pose proof (Forall_inv_tail IH2) as B. split.
    + destruct t; cbn [join app] in *; now rewrite IH1.
    + constructor; [|exact B]. constructor; [congruence|exact A].
Qed.

Lemma split_at_inj x a b : split_at x a = split_at x b -> a = b.
Proof. intros H. destruct (split_at_spec x a) as [A _], (split_at_spec x b) as [B _]. congruence. Qed.

Lemma trim_start_ws w s : Forall (fun c => is_ws c = true) w -> trim_start (w ++ s) = trim_start s.
Proof. induction 1 as [|c w H _ IH]; [reflexivity|]. cbn [app trim_start]. now rewrite H. Qed.

(** White space around a text whose ends are not white space is removed. *)
Lemma trim_around w1 w2 s : Forall (fun c => is_ws c = true) w1 -> Forall (fun c => is_ws c = true) w2 ->
  Forall (fun c => is_ws c = false) s -> trim (w1 ++ s ++ w2) = s.
Proof.
  intros H1 H2 Hs. unfold trim. rewrite trim_start_ws by assumption.
  destruct s as [|c s]; [|inversion Hs; subst].
  - cbn [app]. rewrite <- (app_nil_r w2), trim_start_ws by assumption. reflexivity.
  - cbn [app trim_start]. rewrite H3. change (c :: s ++ w2) with ((c :: s) ++ w2). rewrite rev_app_distr.
    rewrite trim_start_ws by now apply Forall_rev.
    assert (Forall (fun c => is_ws c = false) (rev (c :: s))) as R by now apply Forall_rev.
    destruct (rev (c :: s)) as [|d r] eqn:E; [apply (f_equal (@length Z)) in E; rewrite rev_length in E; discriminate|].
    inversion R; subst. cbn [trim_start]. rewrite H5, <- E. apply rev_involutive.
Qed.

Lemma starts_with_app p s : starts_with p (p ++ s) = true.
Proof. induction p as [|a p IH]; [reflexivity|]. cbn [app starts_with]. now rewrite Z.eqb_refl, IH. Qed.

Lemma starts_with_iff p s : starts_with p s = true <-> exists r, s = p ++ r.
Proof.
  split.
  - revert s. induction p as [|a p IH]; intros s H; [now exists s|]. destruct s as [|b s]; [discriminate|]. cbn [starts_with] in H.
    apply andb_prop in H as [E H]. apply Z.eqb_eq in E as <-. destruct (IH s H) as [r ->]. now exists r.
  - intros [r ->]. apply starts_with_app.
Qed.

(** The numbers [parse_uint] accepts: decimal digits, after an optional plus
    sign, whose value is in range. *)
Lemma digits_val_inv max s : forall acc v, 0 <= acc -> digits_val 10 max acc s = Some v ->
  Forall (fun c => is_digit c = true) s /\ v = fold_left (fun a c => 10 * a + (c - 48)) s acc.
Proof.
  induction s as [|c s IH]; intros acc v Ha H; cbn [digits_val] in H; [apply some_inj in H; now split|].
  destruct (digit_val 10 c) as [d|] eqn:E; [|discriminate].
  assert (is_digit c = true /\ d = c - 48) as [D ->].
  { unfold digit_val in E. cbv zeta in E. unfold is_digit.
    destruct ((48 <=? c) && (c <=? 57)) eqn:A.
    - destruct (c - 48 <? 10); [|discriminate]. apply some_inj in E. now split.
    - exfalso. destruct ((97 <=? c) && (c <=? 122)) eqn:B; [destruct (Z.ltb_spec (c - 87) 10); [lia|discriminate]|].
      destruct ((65 <=? c) && (c <=? 90)) eqn:C; [destruct (Z.ltb_spec (c - 55) 10); [lia|discriminate]|]. discriminate. }
  destruct (acc * 10 + (c - 48) <? max); [|discriminate]. pose proof D as D'. unfold is_digit in D'.
  apply IH in H as [F ->]; [|lia]. split; [now constructor|]. cbn [fold_left]. now replace (acc * 10 + (c - 48)) with (10 * acc + (c - 48)) by ring.
Qed.

Lemma parse_uint_inv max s v : 0 < max -> parse_uint 10 max s = Some v ->
  exists d, (s = d \/ s = 43 :: d) /\ d <> [] /\ Forall (fun c => is_digit c = true) d /\ dec_val d = v /\ 0 <= v < max.
Proof.
  intros Hm H. pose proof (parse_uint_bound 10 max s v Hm ltac:(lia) H) as B. unfold parse_uint in H.
  destruct s as [|c r]; [discriminate|].
  assert (exists d, (c :: r = d \/ c :: r = 43 :: d) /\ d <> [] /\ digits_val 10 max 0 d = Some v) as (d & E & N & D).
  { destruct (Z.eqb_spec c 43) as [->|].
    - destruct r as [|x r]; [discriminate|]. exists (x :: r). split; [now right|]. split; [discriminate|exact H].
    - exists (c :: r). split; [now left|]. split; [discriminate|exact H]. }
  apply digits_val_inv in D as [F V]; [|lia]. exists d. unfold dec_val. auto.
Qed.

Lemma parse_uint_digits max d : d <> [] -> Forall (fun c => is_digit c = true) d -> dec_val d < max ->
  parse_uint 10 max d = Some (dec_val d) /\ parse_uint 10 max (43 :: d) = Some (dec_val d).
Proof.
  intros N F B. unfold parse_uint, dec_val in *. destruct d as [|c r]; [contradiction|].
  pose proof (Forall_inv F) as D. cbn beta in D. unfold is_digit in D. replace (c =? 43) with false by lia. rewrite Z.eqb_refl.
  now rewrite (digits_dec max (c :: r) 0 F ltac:(lia) B).
Qed.

Lemma parse_uint_nondigits max d c : In c d -> is_digit c = false -> c <> 43 -> 0 < max -> parse_uint 10 max d = None.
Proof.
  intros I D N Hm. destruct (parse_uint 10 max d) as [v|] eqn:E; [exfalso|reflexivity].
  apply parse_uint_inv in E as (e & Es & _ & F & _); [|exact Hm]. rewrite Forall_forall in F.
  destruct Es as [->| ->]; [|destruct I as [E|I]; [congruence|]]; specialize (F _ I); cbn beta in F; congruence.
Qed.

Lemma parse_uint_big max d : Forall (fun c => is_digit c = true) d -> max <= dec_val d -> 0 < max -> parse_uint 10 max d = None.
Proof.
  intros F B Hm. destruct (parse_uint 10 max d) as [v|] eqn:E; [exfalso|reflexivity].
  apply parse_uint_inv in E as (e & Es & _ & _ & V & R); [|exact Hm].
  destruct Es as [->| ->]; [lia|]. pose proof (Forall_inv F) as D. discriminate D.
Qed.

Example split_examples :
  split_at 44 (txt "0-3,5,,") = [txt "0-3"; txt "5"; []; []] /\ split_at 44 [] = [[]] /\
  split_term is_ws (txt "a  b ") = [txt "a"; []; txt "b"] /\ split_term is_ws [] = [] /\
  trim (txt " 0-3
") = txt "0-3" /\ after_first (txt "Debian ") (txt "#1 SMP Debian 4.9.2-1 Debian 5") = Some (txt "4.9.2-1 Debian 5") /\
  after_first (txt "Debian ") (txt "#1 SMP") = None.
Proof. vm_compute. repeat split. Qed.
