(** Kinds and panics. *)
From Verif Require Import Base Text Insn LinkModel BtfTypes BtfModel BtfExt CoreModel CoreSpec.
Local Open Scope Z_scope.

Lemma kinds_uapi n k : 0 <= n <= 11 -> (rkind_of n = k <-> In (n, k) uapi_kinds).
Proof.
  intro R. assert (C : n = 0 \/ n = 1 \/ n = 2 \/ n = 3 \/ n = 4 \/ n = 5 \/ n = 6 \/ n = 7 \/ n = 8 \/ n = 9 \/ n = 10 \/ n = 11) by lia.
  repeat (destruct C as [-> | C]); [.. | subst n];
    (split; [intros <-; vm_compute; tauto | intro H; vm_compute in H; decompose [or] H; try contradiction; vm_compute; congruence]).
Qed.

Lemma fatal_aborts e : fatal e = true <-> aborts e.
Proof.
  unfold aborts. split.
  - destruct e as [b | | | | | | | | | | | |]; try discriminate; [| now left | now (right; left)]. destruct b; try discriminate. intros _. now right; right.
  - intros [-> | [-> | ->]]; reflexivity.
Qed.

Lemma target_fails be lb tb k ls ts e c :
  kernel_value be tb k ls ts (Err e) -> compute be lb tb k ls ts = Ok c -> ~ aborts e /\ c_target c = None.
Proof.
  intros T H. unfold compute in H. cbv zeta in H.
  assert (E : exists l, bind (ok_opt (Err e : res rerr rval)) (fun t => Ok {| c_local := l; c_target := t |}) = Ok c).
  { destruct T as [[K T] | [[K T] | [K T]]]; rewrite K in H; rewrite T in H; (match type of H with bind ?x _ = _ => destruct x as [l |]; [exists l; exact H | discriminate H] end). }
  destruct E as [l E]. cbn [ok_opt] in E. destruct (fatal e) eqn:F; [discriminate E |]. split.
  - intro A. apply fatal_aborts in A. congruence.
  - cbn [bind] in E. injection E as <-. reflexivity.
Qed.

Lemma target_found be lb tb k ls ts v c :
  kernel_value be tb k ls ts (Ok v) -> compute be lb tb k ls ts = Ok c -> c_target c = Some v.
Proof.
  intros T H. unfold compute in H. cbv zeta in H.
  destruct T as [[K T] | [[K T] | [K T]]]; rewrite K in H; rewrite T in H;
    [destruct (compute_field be lb k (Some ls)) as [l |]; [| discriminate H] | | destruct (compute_enum lb k (Some ls)) as [l |]; [| discriminate H]];
    cbn [bind ok_opt] in H; injection H as <-; reflexivity.
Qed.

(** * Access strings *)

Lemma split_none s : ~ In 58 s -> split_on 58 s = [s].
Proof.
  induction s as [| c s IH]; intro N; [reflexivity |]. cbn [split_on]. replace (c =? 58) with false by (symmetry; apply Z.eqb_neq; intro; apply N; now left).
  rewrite IH by (intro H; apply N; now right). reflexivity.
Qed.
Lemma split_colon s r : ~ In 58 s -> split_on 58 (s ++ 58 :: r) = s :: split_on 58 r.
Proof.
  induction s as [| c s IH]; intro N; [reflexivity |]. cbn [split_on app]. replace (c =? 58) with false by (symmetry; apply Z.eqb_neq; intro; apply N; now left).
  rewrite IH by (intro H; apply N; now right). reflexivity.
Qed.
Lemma split_inv s : match split_on 58 s with
                    | [] => False
                    | [p] => s = p
                    | p :: ps => exists r, s = p ++ 58 :: r /\ split_on 58 r = ps
                    end.
Proof.
  induction s as [| c s IH]; [reflexivity |]. cbn [split_on]. destruct (Z.eqb_spec c 58) as [-> | N].
  - destruct (split_on 58 s) as [| q ps] eqn:E; [contradiction |]. exists s. split; [reflexivity | exact E].
  - destruct (split_on 58 s) as [| p [| q ps]]; [contradiction | now subst |]. destruct IH as (r & -> & E). exists r. split; [reflexivity | exact E].
Qed.

Lemma number_digits d v : digits_val d = Some v <-> d <> [] /\ (forall c, In c d -> 48 <= c <= 57) /\ v = dec_val d /\ v < 2 ^ 64.
Proof.
  unfold digits_val. destruct d as [| c d].
  - split; [discriminate | intros [N _]; contradiction].
  - set (l := c :: d). split.
    + destruct (forallb is_digit l) eqn:F; [| discriminate]. destruct (Z.ltb_spec (dec_val l) (2 ^ 64)); [| discriminate]. cbn [andb].
      intro E. apply some_inj in E. subst v. split; [discriminate |]. split; [| split; [reflexivity | assumption]].
      intros x X. rewrite forallb_forall in F. specialize (F x X). unfold is_digit in F. lia.
    + intros (_ & D & -> & B). replace (forallb is_digit l) with true.
      * apply Z.ltb_lt in B. rewrite B. reflexivity.
      * symmetry. apply forallb_forall. intros x X. specialize (D x X). unfold is_digit. lia.
Qed.
Lemma parse_usize_number s v : parse_usize s = Some v <-> number s v.
Proof.
  unfold number. split.
  - intro H. assert (X : digits_val s = Some v \/ exists d, s = 43 :: d /\ digits_val d = Some v).
    { unfold parse_usize in H. destruct s as [| c s]; [left; exact H |].
      destruct (Z.eqb_spec c 43) as [-> | N]; [right; now exists s |]. left. destruct c as [| p |]; try exact H. do 6 (destruct p; try exact H). contradiction. }
    destruct X as [X | (d & -> & X)]; apply number_digits in X; [exists s | exists d]; tauto.
  - intros (d & E & R). pose proof (proj2 (number_digits d v) R) as X. destruct R as (N & D & _). destruct E as [-> | ->]; [| exact X].
    destruct d as [| c d]; [contradiction |]. specialize (D c (or_introl eq_refl)). unfold parse_usize.
    destruct c as [| p |]; try exact X. do 6 (destruct p; try exact X). lia.
Qed.
Lemma number_no_colon s v : number s v -> ~ In 58 s.
Proof. intros (d & E & _ & D & _) H. destruct E as [-> | ->]; [| destruct H as [H | H]; [discriminate |]]; specialize (D 58 H); lia. Qed.

Lemma parts_indices s l : parse_parts s = Ok l <-> indices s l.
Proof.
  split.
  - unfold parse_parts. remember (split_on 58 s) as ps eqn:E. revert s l E. induction ps as [| p ps IH]; intros s l E H.
    { pose proof (split_inv s) as X. rewrite <- E in X. contradiction. }
    cbn [mapM] in H. destruct (parse_usize p) as [v |] eqn:P; [| discriminate]. cbn [bind] in H. apply parse_usize_number in P.
    pose proof (split_inv s) as X. rewrite <- E in X. destruct ps as [| q ps].
    + cbn [mapM bind] in H. injection H as <-. subst p. now constructor.
    + destruct X as (r & -> & X). destruct (mapM _ (q :: ps)) as [ys |] eqn:M; [| discriminate]. cbn [bind] in H. injection H as <-.
      constructor; [exact P |]. apply IH; [now symmetry | reflexivity].
  - unfold parse_parts. induction 1 as [s v N | s v r l N _ IH].
    + rewrite split_none by (eapply number_no_colon, N). cbn [mapM]. apply parse_usize_number in N. rewrite N. reflexivity.
    + rewrite split_colon by (eapply number_no_colon, N). cbn [mapM]. apply parse_usize_number in N. rewrite N. cbn [bind]. rewrite IH. reflexivity.
Qed.
Lemma parts_error s e : parse_parts s = Err e -> e = RInvalidAccessString.
Proof. intro H. apply mapM_err in H as (p & _ & H). destruct (parse_usize p); congruence. Qed.

Lemma parts_not s : (forall l, ~ indices s l) -> parse_parts s = Err RInvalidAccessString.
Proof.
  intro N. destruct (parse_parts s) as [l | e] eqn:E; [exfalso; apply (N l), parts_indices, E |]. f_equal. eapply parts_error, E.
Qed.

(** * Members and enumerators *)

Lemma members_aggregate t info ms : members_of t = Some (info, ms) <-> aggregate t info ms.
Proof.
  unfold aggregate. split.
  - destruct t; try discriminate; cbn [members_of]; intro E; injection E as <- <-; [left | right]; eauto.
  - intros [(h & -> & ->) | (h & fb & -> & ->)]; reflexivity.
Qed.

Lemma zget_nth {A} i (l : list A) x : zget i l = Some x <-> 0 <= i /\ nth_error l (Z.to_nat i) = Some x.
Proof.
  unfold zget. split.
  - destruct ((0 <=? i) && _) eqn:B; [| discriminate]. intro E. split; [lia | exact E].
  - intros [P E]. pose proof (proj1 (nth_error_Some l (Z.to_nat i)) ltac:(congruence)) as L.
    replace ((0 <=? i) && (i <? Z.of_nat (length l))) with true by lia. exact E.
Qed.
Lemma zget_map {A B} (f : A -> B) i l : zget i (map f l) = option_map f (zget i l).
Proof. unfold zget. rewrite map_length. destruct ((0 <=? i) && _); [apply nth_error_map | reflexivity]. Qed.

Lemma enum_names t es : enumerators t es -> variant_names t = Some (map fst es).
Proof. intro E. destruct E; cbn [variant_names]; rewrite ?map_map; reflexivity. Qed.
Lemma enum_none t : (forall es, ~ enumerators t es) -> variant_names t = None /\ forall i, variant_value t i = None.
Proof.
  intro N. destruct t; try (split; reflexivity); try (exfalso; eapply N; constructor).
  match goal with |- context [TUnion ?h ?m ?fb] => destruct fb; [exfalso; eapply N; constructor | split; reflexivity] end.
Qed.
Lemma enum_values t es i : enumerators t es -> variant_value t i = option_map snd (zget i es).
Proof.
  intro E. destruct E as [h vs | h vs | h ms fb]; cbn [variant_value]; rewrite ?zget_map; [destruct (zget i vs) | destruct (zget i vs) | destruct (zget i (fb_variants fb))]; try reflexivity.
  cbn [option_map snd]. rewrite Z.shiftl_mul_pow2 by lia. reflexivity.
Qed.
