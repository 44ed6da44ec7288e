(** Proofs about [UtilModel]. *)
From Coq Require Import String.
From Verif Require Import Base Text TextParse TextSplit UtilModel UtilSpec.
Local Open Scope Z_scope.

(** * Kernel versions *)

Lemma kver_cmp_val a b : kver_ok a -> kver_ok b -> kver_cmp a b = (kval a ?= kval b).
Proof.
  unfold kver_ok, kver_cmp, kval. intros Ha Hb. symmetry.
  destruct (Z.compare_spec (k_major a) (k_major b)); [|apply Z.compare_lt_iff; lia|apply Z.compare_gt_iff; lia].
  destruct (Z.compare_spec (k_minor a) (k_minor b)); [|apply Z.compare_lt_iff; lia|apply Z.compare_gt_iff; lia].
  destruct (Z.compare_spec (k_patch a) (k_patch b)); [apply Z.compare_eq_iff; lia|apply Z.compare_lt_iff; lia|apply Z.compare_gt_iff; lia].
Qed.

Lemma kver_eq a b : kver_ok a -> kver_ok b -> kval a = kval b -> a = b.
Proof.
  destruct a as [x y z], b as [x' y' z']. unfold kver_ok, kval. cbn [k_major k_minor k_patch]. intros Ha Hb H.
  assert (x = x') by lia. assert (y = y') by lia. assert (z = z') by lia. congruence.
Qed.

Lemma max_patch_spec v limit : stopped_at v limit -> max_patch (k_major v) (k_minor v) = limit.
Proof.
  unfold stopped_at, max_patch. intros H.
  destruct (Z.eqb_spec (k_major v) 4), (Z.eqb_spec (k_minor v) 4), (Z.eqb_spec (k_minor v) 9), (Z.eqb_spec (k_minor v) 14), (Z.eqb_spec (k_minor v) 19);
    cbn [andb orb]; lia.
Qed.

Lemma stopped_total v : exists limit, stopped_at v limit /\ 222 <= limit <= 257.
Proof.
  unfold stopped_at. destruct (Z.eq_dec (k_major v) 4); [|exists 255; lia].
  destruct (Z.eq_dec (k_minor v) 4); [exists 257; lia|]. destruct (Z.eq_dec (k_minor v) 9); [exists 257; lia|].
  destruct (Z.eq_dec (k_minor v) 14); [exists 252; lia|]. destruct (Z.eq_dec (k_minor v) 19); [exists 222; lia|exists 255; lia].
Qed.

Lemma code_eq v limit : stopped_at v limit ->
  code v = k_major v * 65536 + k_minor v * 256 + (if limit <=? k_patch v then 255 else k_patch v).
Proof.
  intros H. unfold code. rewrite (max_patch_spec v limit H), !Z.shiftl_mul_pow2 by lia.
  change (2 ^ 16) with 65536. change (2 ^ 8) with 256. reflexivity.
Qed.

Lemma code_spec v limit : stopped_at v limit ->
  (k_patch v < limit -> code v = k_major v * 65536 + k_minor v * 256 + k_patch v) /\
  (limit <= k_patch v -> code v = k_major v * 65536 + k_minor v * 256 + 255).
Proof.
  intros H. rewrite (code_eq v limit H). destruct (Z.leb_spec limit (k_patch v)); split; intros; try lia.
Qed.

Lemma code_monotone a b : kver_ok a -> kver_ok b -> ~ spilled a -> kver_cmp a b <> Gt -> code a <= code b.
Proof.
  intros Ha Hb Hs H. rewrite kver_cmp_val in H by assumption. apply -> Z.compare_le_iff in H.
  destruct (stopped_total a) as (la & La & Ra), (stopped_total b) as (lb & Lb & Rb).
  rewrite (code_eq a la La), (code_eq b lb Lb). unfold spilled, stopped_at, kver_ok, kval in *.
  destruct (Z.leb_spec la (k_patch a)), (Z.leb_spec lb (k_patch b)); lia.
Qed.

Lemma code_strict a b : kver_ok a -> kver_ok b -> (forall limit, stopped_at a limit -> k_patch a < Z.min 255 limit) ->
  kver_cmp a b = Lt -> code a < code b.
Proof.
  intros Ha Hb Hs H. rewrite kver_cmp_val in H by assumption. apply -> Z.compare_lt_iff in H.
  destruct (stopped_total a) as (la & La & Ra), (stopped_total b) as (lb & Lb & Rb). specialize (Hs la La).
  rewrite (code_eq a la La), (code_eq b lb Lb). unfold spilled, stopped_at, kver_ok, kval in *.
  destruct (Z.leb_spec la (k_patch a)), (Z.leb_spec lb (k_patch b)); lia.
Qed.

(** * Version texts *)

Definition nondigit (c : Z) : bool := (c =? 46) || negb (is_digit c).

Lemma digit_not_sep s : Forall (fun c => is_digit c = true) s -> Forall (fun c => nondigit c = false) s.
Proof.
  intros H. eapply Forall_impl; [|exact H]. intros c D. cbn beta in *. unfold nondigit. rewrite D. unfold is_digit in D.
  destruct (Z.eqb_spec c 46); [subst; discriminate|reflexivity].
Qed.

Lemma split_first s rest : Forall (fun c => is_digit c = true) s -> no_digit_first rest -> exists t, split_by nondigit (s ++ rest) = s :: t.
Proof.
  intros H R. destruct rest as [|c rest].
  - rewrite app_nil_r, split_by_none by now apply digit_not_sep. now exists [].
  - cbn [no_digit_first] in R. rewrite split_by_app; [now eexists|now apply digit_not_sep|]. unfold nondigit. rewrite R. now rewrite orb_true_r.
Qed.

Lemma version_split a b c rest : Forall (fun c => is_digit c = true) a -> Forall (fun c => is_digit c = true) b ->
  Forall (fun c => is_digit c = true) c -> no_digit_first rest ->
  exists t, split_by nondigit (a ++ 46 :: b ++ 46 :: c ++ rest) = a :: b :: c :: t.
Proof.
  intros A B C R. destruct (split_first c rest C R) as [t Et]. exists t.
  rewrite split_by_app; [|now apply digit_not_sep|reflexivity]. rewrite split_by_app; [|now apply digit_not_sep|reflexivity]. now rewrite Et.
Qed.

Lemma parse_version_ok v rest : kver_ok v -> no_digit_first rest ->
  parse_version (version_text (k_major v) (k_minor v) (k_patch v) rest) = Some v.
Proof.
  intros (A & B & C) R. unfold parse_version, version_text.
  destruct (dec_spec (k_major v) ltac:(lia)) as (_ & Fa & _), (dec_spec (k_minor v) ltac:(lia)) as (_ & Fb & _), (dec_spec (k_patch v) ltac:(lia)) as (_ & Fc & _).
  destruct (version_split _ _ _ rest Fa Fb Fc R) as [t E]. unfold nondigit in E. rewrite E.
  rewrite !parse_dec by lia. now destruct v.
Qed.

Lemma parse_version_big major minor patch rest : 0 <= major < 10 ^ 20 -> 0 <= minor < 10 ^ 20 -> 0 <= patch < 10 ^ 20 -> no_digit_first rest ->
  ~ (major < 256 /\ minor < 256 /\ patch < 65536) -> parse_version (version_text major minor patch rest) = None.
Proof.
  intros A B C R N. unfold parse_version, version_text.
  destruct (dec_spec major A) as (Va & Fa & _), (dec_spec minor B) as (Vb & Fb & _), (dec_spec patch C) as (Vc & Fc & _).
  destruct (version_split _ _ _ rest Fa Fb Fc R) as [t E]. unfold nondigit in E. rewrite E.
  destruct (Z.ltb_spec major 256); [|rewrite (parse_uint_big 256 (dec major)) by (assumption || lia); reflexivity].
  rewrite parse_dec by lia.
  destruct (Z.ltb_spec minor 256); [|rewrite (parse_uint_big 256 (dec minor)) by (assumption || lia); reflexivity].
  rewrite parse_dec by lia.
  rewrite (parse_uint_big 65536 (dec patch)) by (assumption || lia). reflexivity.
Qed.

(** Whatever is accepted is three numbers between single separators. *)
Lemma split_by_inv p s a t : split_by p s = a :: t ->
  Forall (fun c => p c = false) a /\ ((t = [] /\ s = a) \/ exists c r, p c = true /\ s = a ++ c :: r /\ t = split_by p r).
Proof.
  revert a t. induction s as [|c s IH]; intros a t H; cbn [split_by] in H.
  - injection H as <- <-. split; [constructor|now left].
  - destruct (p c) eqn:P.
    + injection H as <- <-. split; [constructor|]. right. now exists c, s.
    + destruct (split_by p s) as [|h u] eqn:E; [now apply split_by_nonempty in E|]. injection H as <- <-.
      destruct (IH h u eq_refl) as [F [[-> ->]|(d & r & D & -> & ->)]].
      * split; [now constructor|now left].
      * split; [now constructor|]. right. now exists d, r.
Qed.

Lemma no_digit_after p s a t : (forall c, p c = false -> is_digit c = true) -> (forall c, p c = true -> is_digit c = false) -> split_by p s = a :: t ->
  exists rest, s = a ++ rest /\ no_digit_first rest.
Proof.
  intros P1 P2 H. destruct (split_by_inv _ _ _ _ H) as [F [[-> ->]|(d & r & D & -> & ->)]].
  - exists []. now rewrite app_nil_r.
  - exists (d :: r). split; [reflexivity|]. cbn. auto.
Qed.

Lemma parse_version_inv s v : parse_version s = Some v ->
  exists a b c x y rest, s = a ++ x :: b ++ y :: c ++ rest /\ is_digit x = false /\ is_digit y = false /\ no_digit_first rest /\
    Forall (fun c => is_digit c = true) (a ++ b ++ c) /\ a <> [] /\ b <> [] /\ c <> [] /\
    dec_val a = k_major v /\ dec_val b = k_minor v /\ dec_val c = k_patch v /\ kver_ok v.
Proof.
  unfold parse_version. fold nondigit. intros H.
  assert (forall c, nondigit c = false -> is_digit c = true) as P1 by (intros c0; unfold nondigit; destruct (is_digit c0); [reflexivity|]; now rewrite orb_true_r).
  assert (forall c, nondigit c = true -> is_digit c = false) as P2.
  { intros c0; unfold nondigit. destruct (is_digit c0) eqn:D; [|reflexivity]. unfold is_digit in D. destruct (Z.eqb_spec c0 46); [lia|discriminate]. }
  change (fun c : Z => (c =? 46) || negb (is_digit c)) with nondigit in H.
  destruct (split_by nondigit s) as [|a [|b [|c t]]] eqn:E; try discriminate.
  destruct (parse_uint 10 256 a) as [major|] eqn:Ea; [|discriminate]. destruct (parse_uint 10 256 b) as [minor|] eqn:Eb; [|discriminate].
  destruct (parse_uint 10 65536 c) as [patch|] eqn:Ec; [|discriminate]. apply some_inj in H. subst v. cbn [k_major k_minor k_patch].
  destruct (split_by_inv _ _ _ _ E) as [Fa [[? ?]|(x & r1 & X & E1 & E2)]]; [discriminate|]. symmetry in E2.
  destruct (split_by_inv _ _ _ _ E2) as [Fb [[? ?]|(y & r2 & Y & E3 & E4)]]; [discriminate|]. symmetry in E4.
  destruct (no_digit_after _ _ _ _ P1 P2 E4) as (rest & E5 & R).
  destruct (split_by_inv _ _ _ _ E4) as [Fc _].
  assert (forall d max v, 0 < max -> Forall (fun c => nondigit c = false) d -> parse_uint 10 max d = Some v ->
    d <> [] /\ Forall (fun c => is_digit c = true) d /\ dec_val d = v /\ 0 <= v < max) as K.
  { intros d max w Hm F P. apply parse_uint_inv in P as (e & Es & N & D & V & B); [|exact Hm].
    destruct Es as [->| ->]; [auto|]. pose proof (Forall_inv F) as Z0. discriminate Z0. }
  destruct (K a 256 major eq_refl Fa Ea) as (Na & Da & Va & Ba), (K b 256 minor eq_refl Fb Eb) as (Nb & Db & Vb & Bb), (K c 65536 patch eq_refl Fc Ec) as (Nc & Dc & Vc & Bc).
  exists a, b, c, x, y, rest. split; [congruence|]. split; [auto|]. split; [auto|]. split; [exact R|].
  split; [apply Forall_app; split; [exact Da|apply Forall_app; now split]|].
  split; [exact Na|]. split; [exact Nb|]. split; [exact Nc|]. split; [exact Va|]. split; [exact Vb|]. split; [exact Vc|].
  unfold kver_ok. cbn [k_major k_minor k_patch]. auto.
Qed.

(** The text [Display] prints parses back. *)
Lemma kver_text_ok v : kver_ok v -> parse_version (kver_text v) = Some v.
Proof.
  intros H. pose proof (parse_version_ok v [] H I) as E. unfold version_text in E. now rewrite app_nil_r in E.
Qed.

(** Sources. *)
Lemma split_ws_word w s : Forall (fun c => is_ws c = false) w -> split_by is_ws (w ++ 32 :: s) = w :: split_by is_ws s.
Proof. intros H. now apply split_by_app. Qed.

Lemma rev_cons_inv {A} (l : list A) (x : A) r : rev l = x :: r -> l = rev r ++ [x].
Proof. intros H. rewrite <- (rev_involutive l), H. reflexivity. Qed.

Lemma ubuntu_third a b v rest w : Forall (fun c => is_ws c = false) a -> Forall (fun c => is_ws c = false) b ->
  Forall (fun c => is_ws c = false) v -> v <> [] -> is_ws w = true ->
  parse_ubuntu (a ++ 32 :: b ++ 32 :: v ++ w :: rest) = parse_version v.
Proof.
  intros A B V N W. unfold parse_ubuntu, split_term.
  assert (split_by is_ws (a ++ 32 :: b ++ 32 :: v ++ w :: rest) = a :: b :: v :: split_by is_ws rest) as E.
  { rewrite split_ws_word by assumption. rewrite split_ws_word by assumption. now rewrite split_by_app by assumption. }
  rewrite E. destruct (rev (a :: b :: v :: split_by is_ws rest)) as [|x r] eqn:R.
  { reflexivity. }
  destruct x as [|c x]; [|reflexivity]. apply rev_cons_inv in R.
  pose proof (split_by_nonempty is_ws rest) as Nr.
  destruct (exists_last Nr) as (l & z & El). rewrite El in R.
  change (a :: b :: v :: l ++ [z]) with ((a :: b :: v :: l) ++ [z]) in R. apply app_inj_tail in R as [R _]. now rewrite <- R.
Qed.

Lemma ubuntu_third_end a b v : Forall (fun c => is_ws c = false) a -> Forall (fun c => is_ws c = false) b ->
  Forall (fun c => is_ws c = false) v -> v <> [] -> parse_ubuntu (a ++ 32 :: b ++ 32 :: v) = parse_version v.
Proof.
  intros A B V N. unfold parse_ubuntu, split_term.
  assert (split_by is_ws (a ++ 32 :: b ++ 32 :: v) = [a; b; v]) as E.
  { rewrite split_ws_word by assumption. rewrite split_ws_word by assumption. now rewrite split_by_none by assumption. }
  rewrite E. cbn [rev app]. now destruct v.
Qed.

Lemma after_first_spec p s r : after_first p s = Some r -> exists pre, s = pre ++ p ++ r.
Proof.
  induction s as [|c s IH]; cbn [after_first].
  - destruct (starts_with p []) eqn:E; [|discriminate]. intros H. apply some_inj in H. apply starts_with_iff in E as [q E].
    exists []. cbn [app]. destruct p; [|discriminate]. now subst.
  - destruct (starts_with p (c :: s)) eqn:E.
    + intros H. apply some_inj in H. apply starts_with_iff in E as [q E]. exists []. cbn [app]. rewrite E in *.
      rewrite skipn_app_exact in H by reflexivity. now subst.
    + intros H. destruct (IH H) as [pre ->]. now exists (c :: pre).
Qed.

Lemma after_first_none p s : after_first p s = None <-> ~ exists pre r, s = pre ++ p ++ r.
Proof.
  split.
  - induction s as [|c s IH]; cbn [after_first]; intros H (pre & r & E).
    + symmetry in E. apply app_eq_nil in E as [-> E]. apply app_eq_nil in E as [-> ->]. discriminate.
    + destruct (starts_with p (c :: s)) eqn:S; [discriminate|]. destruct pre as [|d pre].
      * cbn [app] in E. rewrite E, starts_with_app in S. discriminate.
      * apply IH; [exact H|]. injection E as _ ->. now exists pre, r.
  - intros N. destruct (after_first p s) as [r|] eqn:E; [|reflexivity]. apply after_first_spec in E as [pre ->]. exfalso. apply N. now exists pre, r.
Qed.

Lemma after_first_first p a r : (forall pre r', a ++ p ++ r = pre ++ p ++ r' -> (length a <= length pre)%nat) -> p <> [] ->
  after_first p (a ++ p ++ r) = Some r.
Proof.
  intros M N. induction a as [|c a IH].
  - cbn [app]. destruct (p ++ r) as [|x y] eqn:E.
    + destruct p; [contradiction|discriminate].
    + cbn [after_first]. rewrite <- E, starts_with_app, skipn_app_exact by reflexivity. reflexivity.
  - cbn [app after_first]. destruct (starts_with p (c :: a ++ p ++ r)) eqn:S.
    + apply starts_with_iff in S as [q E]. specialize (M [] q). cbn [app length] in M. specialize (M E). lia.
    + apply IH. intros pre r' E. specialize (M (c :: pre) r'). cbn [app length] in M. rewrite E in M. specialize (M eq_refl). lia.
Qed.

(** * CPU lists *)

Lemma zrange_cpus a b : zrange a b = cpus (a, b).
Proof.
  unfold zrange, cpus. cbn [fst snd]. generalize (Z.to_nat (b - a + 1)) as n. intros n.
  assert (forall k, map (fun i => a + Z.of_nat i) (seq k n) = cpus_from (a + Z.of_nat k) n) as K.
  { induction n as [|n IH]; intros k; [reflexivity|]. cbn [seq map cpus_from]. f_equal.
    replace (a + Z.of_nat k + 1) with (a + Z.of_nat (S k)) by lia. apply IH. }
  rewrite K. f_equal. cbn. lia.
Qed.

Lemma in_cpus x ab : In x (cpus ab) <-> fst ab <= x <= snd ab.
Proof.
  unfold cpus. destruct ab as [a b]. cbn [fst snd].
  assert (forall n a, In x (cpus_from a n) <-> a <= x < a + Z.of_nat n) as K.
  { clear. induction n as [|n IH]; intros a; cbn [cpus_from In]; [lia|]. rewrite IH. lia. }
  rewrite K. lia.
Qed.

Lemma number_iff s n : dec_u32 s = Some n <-> number s n.
Proof.
  unfold dec_u32, number. split.
  - intros H. apply parse_uint_inv in H as (d & E & N & F & V & B); [|lia]. exists d. intuition.
  - intros (d & E & N & F & V & B). subst n. destruct (parse_uint_digits (2 ^ 32) d N F B) as [P Q]. destruct E as [->| ->]; assumption.
Qed.

Lemma number_no_dash s n : number s n -> Forall (fun c => c <> 45) s.
Proof.
  intros (d & E & _ & F & _). assert (Forall (fun c => c <> 45) d) as G by (eapply Forall_impl; [|exact F]; cbn beta; unfold is_digit; intros; lia).
  destruct E as [->| ->]; [exact G|constructor; [lia|exact G]].
Qed.

Lemma number_no_comma s n : number s n -> Forall (fun c => c <> 44) s.
Proof.
  intros (d & E & _ & F & _). assert (Forall (fun c => c <> 44) d) as G by (eapply Forall_impl; [|exact F]; cbn beta; unfold is_digit; intros; lia).
  destruct E as [->| ->]; [exact G|constructor; [lia|exact G]].
Qed.

Lemma parse_range_iff s a b : parse_range s = Some (a, b) <-> range_text s (a, b).
Proof.
  unfold parse_range, range_text. cbn [fst snd]. split.
  - destruct (split_at_spec 45 s) as [J _]. destruct (split_at 45 s) as [|x [|y [|z t]]]; try discriminate.
    + destruct (dec_u32 x) as [n|] eqn:E; [|discriminate]. intros H. apply some_inj, pair_equal_spec in H as [<- <-].
      left. apply number_iff in E. cbn in J. subst. auto.
    + destruct (dec_u32 x) as [n|] eqn:E; [|discriminate]. destruct (dec_u32 y) as [m|] eqn:E'; [|discriminate].
      intros H. apply some_inj, pair_equal_spec in H as [<- <-]. right. apply number_iff in E, E'. exists x, y. cbn in J. subst. auto.
  - intros [[N ->]|(x & y & -> & X & Y)].
    + replace (split_at 45 s) with [s] by (symmetry; apply (split_at_join 45 [s]); [discriminate|constructor; [eapply number_no_dash; exact N|constructor]]).
      apply number_iff in N. now rewrite N.
    + replace (split_at 45 (x ++ 45 :: y)) with [x; y] by (symmetry; apply (split_at_join 45 [x; y]); [discriminate|constructor; [eapply number_no_dash; exact X|constructor; [eapply number_no_dash; exact Y|constructor]]]).
      apply number_iff in X, Y. now rewrite X, Y.
Qed.

Lemma range_no_comma s ab : range_text s ab -> Forall (fun c => c <> 44) s.
Proof.
  intros [[N _]|(x & y & -> & X & Y)]; [eapply number_no_comma; exact N|].
  apply Forall_app. split; [eapply number_no_comma; exact X|constructor; [lia|eapply number_no_comma; exact Y]].
Qed.

Lemma parse_parts_iff l r : parse_parts l = Some r <-> exists rs, Forall2 range_text l rs /\ r = concat (map cpus rs).
Proof.
  revert r. induction l as [|s l IH]; intros r; cbn [parse_parts].
  - split; [intros H; apply some_inj in H; subst; exists []; now split|]. intros (rs & F & ->). inversion F; subst. reflexivity.
  - split.
    + destruct (parse_range s) as [[a b]|] eqn:E; [|discriminate]. destruct (parse_parts l) as [q|] eqn:Q; [|discriminate].
      intros H. apply some_inj in H. subst r. apply parse_range_iff in E. destruct (proj1 (IH q) eq_refl) as (rs & F & ->).
      exists ((a, b) :: rs). split; [now constructor|]. cbn [map concat]. now rewrite zrange_cpus.
    + intros (rs & F & ->). inversion F as [|? [a b] ? rs' H1 H2]; subst. apply parse_range_iff in H1. rewrite H1.
      rewrite (proj2 (IH (concat (map cpus rs')))); [|now exists rs']. cbn [map concat]. now rewrite zrange_cpus.
Qed.

(** Exactly the lists of ranges are accepted, with the CPUs they denote. *)
Lemma parse_cpu_ranges_iff s r : parse_cpu_ranges s = Some r <->
  exists parts rs, parts <> [] /\ s = join 44 parts /\ Forall2 range_text parts rs /\ r = concat (map cpus rs).
Proof.
  unfold parse_cpu_ranges. rewrite parse_parts_iff. split.
  - intros (rs & F & ->). exists (split_at 44 s), rs. destruct (split_at_spec 44 s) as [J _].
    split; [apply split_by_nonempty|]. split; [now symmetry|]. now split.
  - intros (parts & rs & N & -> & F & ->). exists rs. split; [|reflexivity]. rewrite split_at_join; [exact F|exact N|].
    clear N. induction F; constructor; [eapply range_no_comma; eassumption|assumption].
Qed.

Lemma dec_number n : 0 <= n < 2 ^ 32 -> number (dec n) n.
Proof. intros H. destruct (dec_spec n ltac:(lia)) as (V & F & N). exists (dec n). repeat split; auto. lia. Qed.

Lemma ranges_ok_each from l : 0 <= from -> ranges_ok from l -> Forall (fun ab => 0 <= fst ab <= snd ab /\ snd ab < 2 ^ 32) l.
Proof.
  revert from. induction l as [|[a b] l IH]; intros from Hf H; [constructor|]. cbn [ranges_ok] in H.
  constructor; [cbn [fst snd]; lia|]. apply (IH (b + 2)); [lia|tauto].
Qed.

Lemma print_cpus_ok l : l <> [] -> ranges_ok 0 l -> parse_cpu_ranges (print_cpus l) = Some (concat (map cpus l)).
Proof.
  intros N H. apply ranges_ok_each in H; [|lia]. apply parse_cpu_ranges_iff. exists (map print_range l), l.
  split; [now destruct l|]. split; [reflexivity|]. split; [|reflexivity]. clear N.
  induction H as [|[a b] l B _ IH]; cbn [map]; constructor; [|exact IH]. cbn [fst snd] in B. unfold print_range, range_text. cbn [fst snd].
  destruct (Z.eqb_spec a b) as [->|]; [left; split; [apply dec_number; lia|reflexivity]|].
  right. exists (dec a), (dec b). split; [reflexivity|]. split; apply dec_number; lia.
Qed.

Lemma number_not_ws s n : number s n -> Forall (fun c => is_ws c = false) s.
Proof.
  intros (d & E & _ & F & _). assert (Forall (fun c => is_ws c = false) d) as G by (eapply Forall_impl; [|exact F]; cbn beta; unfold is_digit, is_ws; intros; lia).
  destruct E as [->| ->]; [exact G|constructor; [reflexivity|exact G]].
Qed.

Lemma print_not_ws l : Forall (fun ab => 0 <= fst ab <= snd ab /\ snd ab < 2 ^ 32) l -> Forall (fun c => is_ws c = false) (print_cpus l).
Proof.
  intros H. unfold print_cpus. induction H as [|[a b] l B H IH]; [constructor|]. cbn [fst snd] in B.
  assert (Forall (fun c => is_ws c = false) (print_range (a, b))) as R.
  { unfold print_range. cbn [fst snd]. pose proof (number_not_ws _ _ (dec_number a ltac:(lia))) as A. pose proof (number_not_ws _ _ (dec_number b ltac:(lia))) as C.
    destruct (a =? b); [exact A|]. apply Forall_app. split; [exact A|constructor; [reflexivity|exact C]]. }
  cbn [map]. destruct (map print_range l) as [|y t] eqn:E; [exact R|].
  change (join 44 (print_range (a, b) :: y :: t)) with (print_range (a, b) ++ 44 :: join 44 (y :: t)).
  apply Forall_app. split; [exact R|constructor; [reflexivity|exact IH]].
Qed.

Lemma read_print l w : l <> [] -> ranges_ok 0 l -> Forall (fun c => is_ws c = true) w ->
  read_cpu_ranges (print_cpus l ++ w) = Some (concat (map cpus l)).
Proof.
  intros N H W. unfold read_cpu_ranges. change (print_cpus l ++ w) with ([] ++ print_cpus l ++ w). rewrite trim_around; [now apply print_cpus_ok|constructor|exact W|].
  apply print_not_ws. eapply ranges_ok_each; [|exact H]. lia.
Qed.

(** The printed CPUs are ascending, without repetition. *)
Lemma ranges_in from l x : 0 <= from -> ranges_ok from l -> In x (concat (map cpus l)) -> from <= x.
Proof.
  revert from. induction l as [|[a b] l IH]; intros from Hf H I; [contradiction|]. cbn [ranges_ok] in H. cbn [map concat] in I.
  apply in_app_or in I as [I|I]; [apply in_cpus in I; cbn [fst snd] in I; lia|]. specialize (IH (b + 2) ltac:(lia) ltac:(tauto) I). lia.
Qed.

Lemma cpus_nodup ab : NoDup (cpus ab).
Proof.
  unfold cpus. generalize (Z.to_nat (snd ab - fst ab + 1)) as n. generalize (fst ab) as a. intros a n. revert a. induction n as [|n IH]; intros a; cbn [cpus_from]; constructor; [|apply IH].
  assert (forall n a x, In x (cpus_from a n) -> a <= x) as K.
  { clear. induction n as [|n IH]; intros a x; cbn [cpus_from In]; [lia|]. intros [->|I]; [lia|]. apply IH in I. lia. }
  intros I. apply K in I. lia.
Qed.

Lemma nodup_app {A} (l m : list A) : NoDup l -> NoDup m -> (forall x, In x l -> ~ In x m) -> NoDup (l ++ m).
Proof.
  intros Hl Hm D. induction Hl as [|x l Nx Hl IH]; [exact Hm|]. cbn [app]. constructor.
  - intros I. apply in_app_or in I as [I|I]; [contradiction|]. apply (D x); [now left|exact I].
  - apply IH. intros y I. apply D. now right.
Qed.

Lemma ranges_nodup from l : 0 <= from -> ranges_ok from l -> NoDup (concat (map cpus l)).
Proof.
  revert from. induction l as [|[a b] l IH]; intros from Hf H; [constructor|]. cbn [ranges_ok] in H. cbn [map concat].
  apply nodup_app; [apply cpus_nodup|apply (IH (b + 2)); [lia|tauto]|].
  intros x I J. apply in_cpus in I. cbn [fst snd] in I. apply (ranges_in (b + 2)) in J; [lia|lia|tauto].
Qed.

(** * Ring buffer sizes *)

Lemma div_ceil_spec n p : 0 < p -> 0 <= n -> n <= p * div_ceil n p < n + p.
Proof. intros P N. unfold div_ceil. destruct (Z.ltb_spec 0 (n mod p)), (Z.ltb_spec 0 p); cbn [andb]; try lia; nia. Qed.

Lemma u32_checked_ok x r : u32_checked x = Ok r -> r = x /\ 0 <= x < 2 ^ 32.
Proof.
  unfold u32_checked. destruct (Z.leb_spec 0 x), (Z.ltb_spec x (2 ^ 32)); cbn [andb]; try discriminate.
  intros H'. apply ok_inj in H'. lia.
Qed.

Lemma npo2_spec n r : 0 < n -> next_power_of_two n = Ok r ->
  (exists k, 0 <= k /\ r = 2 ^ k) /\ n <= r /\ (forall k, 0 <= k -> n <= 2 ^ k -> r <= 2 ^ k).
Proof.
  intros N. unfold next_power_of_two. destruct (Z.leb_spec n 1).
  - intros H1. apply ok_inj in H1. subst r. split; [exists 0; now split|]. split; [lia|]. intros k K _. pose proof (Z.pow_pos_nonneg 2 k). lia.
  - intros H1. apply u32_checked_ok in H1 as [-> _]. pose proof (Z.log2_spec (n - 1) ltac:(lia)) as L.
    pose proof (Z.log2_nonneg (n - 1)). change (Z.succ (Z.log2 (n - 1))) with (Z.log2 (n - 1) + 1) in L.
    split; [exists (Z.log2 (n - 1) + 1); split; [lia|reflexivity]|]. split; [lia|]. intros k K Hk.
    apply Z.pow_le_mono_r; [lia|]. destruct (Z_lt_le_dec (Z.log2 (n - 1)) k); [lia|]. exfalso.
    assert (2 ^ k <= 2 ^ Z.log2 (n - 1)) by (apply Z.pow_le_mono_r; lia). lia.
Qed.

Lemma adjust_ok n p r : 0 < p -> 0 < n -> adjust_to_page_size n p = Ok r -> smallest_legal p n r.
Proof.
  intros P N. unfold adjust_to_page_size. destruct (Z.eqb_spec n 0); [lia|].
  destruct (next_power_of_two (div_ceil n p)) as [q|] eqn:E; [|discriminate]. cbn [bind]. intros H. apply u32_checked_ok in H as [-> _].
  pose proof (div_ceil_spec n p P ltac:(lia)) as D.
  assert (0 < div_ceil n p) as Dp by nia. destruct (npo2_spec _ _ Dp E) as ((k & K & ->) & L & M).
  split; [exists k; now split|]. split; [nia|]. intros r' (k' & K' & ->) R.
  assert (div_ceil n p <= 2 ^ k') as B by nia. specialize (M k' K' B). nia.
Qed.

Lemma adjust_fits n j : 0 <= j <= 31 -> 0 < n <= 2 ^ 31 -> exists r, adjust_to_page_size n (2 ^ j) = Ok r.
Proof.
  intros J N. unfold adjust_to_page_size. destruct (Z.eqb_spec n 0); [lia|].
  pose proof (Z.pow_pos_nonneg 2 j ltac:(lia) ltac:(lia)) as P. pose proof (div_ceil_spec n (2 ^ j) P ltac:(lia)) as D. set (d := div_ceil n (2 ^ j)) in *.
  assert (2 ^ 31 = 2 ^ j * 2 ^ (31 - j)) as S by (rewrite <- Z.pow_add_r by lia; f_equal; lia).
  assert (d <= 2 ^ (31 - j)) as B by nia.
  assert (next_power_of_two d = Ok (if d <=? 1 then 1 else 2 ^ (Z.log2 (d - 1) + 1)) /\ (if d <=? 1 then 1 else 2 ^ (Z.log2 (d - 1) + 1)) <= 2 ^ (31 - j)) as [E L].
  { unfold next_power_of_two. destruct (Z.leb_spec d 1); [split; [reflexivity|]; pose proof (Z.pow_pos_nonneg 2 (31 - j)); lia|].
    pose proof (Z.log2_nonneg (d - 1)) as L0. assert (Z.log2 (d - 1) < 31 - j) as L1 by (apply Z.log2_lt_pow2; lia).
    assert (2 ^ (Z.log2 (d - 1) + 1) <= 2 ^ (31 - j)) as L2 by (apply Z.pow_le_mono_r; lia).
    assert (2 ^ (31 - j) <= 2 ^ 31) by (apply Z.pow_le_mono_r; lia). pose proof (Z.pow_pos_nonneg 2 (Z.log2 (d - 1) + 1) ltac:(lia) ltac:(lia)).
    split; [|exact L2]. unfold u32_checked. destruct (Z.leb_spec 0 (2 ^ (Z.log2 (d - 1) + 1))), (Z.ltb_spec (2 ^ (Z.log2 (d - 1) + 1)) (2 ^ 32)); cbn [andb]; try reflexivity; lia. }
  rewrite E. cbn [bind]. set (q := if d <=? 1 then 1 else 2 ^ (Z.log2 (d - 1) + 1)) in *.
  assert (0 < q) by (unfold q; destruct (d <=? 1); [lia|apply Z.pow_pos_nonneg; [lia|pose proof (Z.log2_nonneg (d - 1)); lia]]).
  exists (2 ^ j * q). unfold u32_checked. destruct (Z.leb_spec 0 (2 ^ j * q)), (Z.ltb_spec (2 ^ j * q) (2 ^ 32)); cbn [andb]; try reflexivity; exfalso; [|nia|nia].
  assert (2 ^ 32 = 2 * 2 ^ 31) as D2 by (rewrite <- Z.pow_succ_r by lia; reflexivity). nia.
Qed.

(** Above half of the range there is no size to choose. *)
Lemma adjust_overflow n j : 0 <= j <= 31 -> 2 ^ 31 < n < 2 ^ 32 -> adjust_to_page_size n (2 ^ j) = Err tt.
Proof.
  intros J N. pose proof (Z.pow_pos_nonneg 2 j ltac:(lia) ltac:(lia)) as P.
  destruct (adjust_to_page_size n (2 ^ j)) as [r|[]] eqn:E; [exfalso|reflexivity].
  assert (r < 2 ^ 32) as B.
  { unfold adjust_to_page_size in E. destruct (Z.eqb_spec n 0); [lia|]. destruct (next_power_of_two (div_ceil n (2 ^ j))) as [q|] eqn:Q; [|discriminate].
    cbn [bind] in E. apply u32_checked_ok in E as [-> B]. lia. }
  apply adjust_ok in E as ((k & K & ->) & L & _); [|exact P|lia]. rewrite <- Z.pow_add_r in * by lia.
  assert (31 < j + k) by (apply (Z.pow_lt_mono_r_iff 2); lia). assert (j + k < 32) by (apply (Z.pow_lt_mono_r_iff 2); lia). lia.
Qed.

Lemma sizes_ringbuf user cur vs cpus page cp dp n v : 0 < page ->
  map_sizes RINGBUF user cur vs cpus page cp dp = Ok (n, v) ->
  let wanted := match user with Some u => u | None => cur end in
  v = 0 /\ (wanted = 0 -> n = 0) /\ (0 < wanted -> smallest_legal page wanted n).
Proof.
  intros P. unfold map_sizes, max_entries_override. cbv zeta. set (w := match user with Some u => u | None => cur end).
  replace (RINGBUF =? PERF_EVENT_ARRAY) with false by reflexivity. rewrite Z.eqb_refl. cbn [andb].
  destruct (adjust_to_page_size w page) as [a|] eqn:E; [|discriminate]. cbn [bind]. intros H. apply ok_inj, pair_equal_spec in H as [<- <-].
  split; [reflexivity|].
  assert ((match (if a =? w then user else Some a) with Some v => v | None => cur end) = a) as ->.
  { destruct (Z.eqb_spec a w); [|reflexivity]. unfold w in *. destruct user; now symmetry. }
  split; [|intros W; now apply adjust_ok]. intros W. rewrite W in E. now apply ok_inj in E.
Qed.

Lemma sizes_ringbuf_total user cur vs cpus j cp dp : 0 <= j <= 31 ->
  (0 <= match user with Some u => u | None => cur end <= 2 ^ 31) -> exists r, map_sizes RINGBUF user cur vs cpus (2 ^ j) cp dp = Ok r.
Proof.
  intros J. unfold map_sizes, max_entries_override. cbv zeta. set (w := match user with Some u => u | None => cur end). intros W.
  replace (RINGBUF =? PERF_EVENT_ARRAY) with false by reflexivity. rewrite Z.eqb_refl. cbn [andb].
  assert (exists a, adjust_to_page_size w (2 ^ j) = Ok a) as [a ->].
  { destruct (Z.eq_dec w 0) as [->|]; [exists 0; reflexivity|apply adjust_fits; lia]. }
  cbn [bind]. now eexists.
Qed.

Lemma sizes_perf user cur vs n page cp dp :
  map_sizes PERF_EVENT_ARRAY user cur vs (Some n) page cp dp =
  Ok (let w := match user with Some u => u | None => cur end in if w =? 0 then n else w, vs).
Proof.
  unfold map_sizes, max_entries_override. cbv zeta. rewrite Z.eqb_refl. cbn [andb].
  replace (PERF_EVENT_ARRAY =? RINGBUF) with false by reflexivity.
  replace (value_size_override PERF_EVENT_ARRAY cp dp) with (@None Z) by reflexivity.
  destruct (match user with Some u => u | None => cur end =? 0) eqn:E; cbn [bind]; [reflexivity|]. now destruct user.
Qed.

Lemma sizes_other t user cur vs cpus page cp dp : t <> PERF_EVENT_ARRAY -> t <> RINGBUF -> t <> CPUMAP -> t <> DEVMAP -> t <> DEVMAP_HASH ->
  map_sizes t user cur vs cpus page cp dp = Ok (match user with Some u => u | None => cur end, vs).
Proof.
  intros A B C D E. unfold map_sizes, max_entries_override, value_size_override. cbv zeta.
  destruct (Z.eqb_spec t PERF_EVENT_ARRAY), (Z.eqb_spec t RINGBUF), (Z.eqb_spec t CPUMAP), (Z.eqb_spec t DEVMAP), (Z.eqb_spec t DEVMAP_HASH); try contradiction.
  reflexivity.
Qed.

(** * TC handles *)

Lemma handle_u32_eq h : 0 <= h_minor h < 2 ^ 16 -> 0 <= h_major h -> handle_u32 h = h_major h * 2 ^ 16 + h_minor h.
Proof.
  intros B M. unfold handle_u32. rewrite Z.shiftl_mul_pow2 by lia.
  assert (Z.land (h_major h * 2 ^ 16) (h_minor h) = 0) as L.
  { apply Z.bits_inj'. intros i I. rewrite Z.land_spec, Z.bits_0. destruct (Z_lt_le_dec i 16).
    - rewrite Z.mul_pow2_bits_low by lia. reflexivity.
    - rewrite (Z.bits_above_log2 (h_minor h)); [apply andb_false_r|lia|]. destruct (Z.eq_dec (h_minor h) 0) as [->|]; [cbn; lia|].
      apply Z.log2_lt_pow2; [lia|]. assert (2 ^ 16 <= 2 ^ i) by (apply Z.pow_le_mono_r; lia). lia. }
  rewrite <- (Z.lxor_lor _ _ L). symmetry. now apply Z.add_nocarry_lxor.
Qed.

Lemma handle_round h : 0 <= h_major h < 2 ^ 16 -> 0 <= h_minor h < 2 ^ 16 -> handle_of (handle_u32 h) = h /\ 0 <= handle_u32 h < 2 ^ 32.
Proof.
  intros A B. rewrite handle_u32_eq by lia. unfold handle_of, u16, wrap. rewrite Z.shiftr_div_pow2 by lia. destruct h as [x y]. cbn [h_major h_minor] in *.
  split; [|lia]. f_equal; lia.
Qed.

Lemma handle_back v : 0 <= v < 2 ^ 32 -> handle_u32 (handle_of v) = v /\ 0 <= h_major (handle_of v) < 2 ^ 16 /\ 0 <= h_minor (handle_of v) < 2 ^ 16.
Proof.
  intros V. assert (0 <= h_major (handle_of v) < 2 ^ 16 /\ 0 <= h_minor (handle_of v) < 2 ^ 16) as [A B] by (unfold handle_of, u16, wrap; cbn [h_major h_minor]; lia).
  split; [|now split]. rewrite handle_u32_eq by lia. unfold handle_of, u16, wrap. cbn [h_major h_minor]. rewrite Z.shiftr_div_pow2 by lia. lia.
Qed.

(** * Link order *)

Lemma order_places fd id : 0 < fd < 2 ^ 31 -> 0 <= id < 2 ^ 32 ->
  kernel_place (order_request order_default) = Some Last /\
  kernel_place (order_request order_first) = Some First /\
  kernel_place (order_request order_last) = Some Last /\
  kernel_place (order_request (order_before_link fd)) = Some (Before (TLinkFd fd)) /\
  kernel_place (order_request (order_after_link fd)) = Some (After (TLinkFd fd)) /\
  kernel_place (order_request (order_before_program fd)) = Some (Before (TProgFd fd)) /\
  kernel_place (order_request (order_after_program fd)) = Some (After (TProgFd fd)) /\
  kernel_place (order_request (order_before_program_id id)) = Some (Before (TProgId id)) /\
  kernel_place (order_request (order_after_program_id id)) = Some (After (TProgId id)).
Proof.
  intros F I. assert (u32 fd = fd) as U by (unfold u32, wrap; lia). assert (u32 id = id) as V by (unfold u32, wrap; lia).
  assert ((fd =? 0) = false) as Z0 by lia.
  unfold order_request, order_default, order_first, order_last, order_before_link, order_after_link, order_before_program, order_after_program,
    order_before_program_id, order_after_program_id. cbn [o_ref o_flags]. rewrite U, V.
  split; [reflexivity|]. split; [reflexivity|]. split; [reflexivity|]. split; [reflexivity|]. split; [reflexivity|].
  unfold kernel_place, kernel_target. rewrite Z0. repeat split; reflexivity.
Qed.

(** * Kernel symbols *)

Lemma ksym_lines_app l m : ksym_lines (l ++ m) =
  match ksym_lines l, ksym_lines m with Some a, Some b => Some (a ++ b) | _, _ => None end.
Proof.
  induction l as [|s l IH]; cbn [app ksym_lines]; [now destruct (ksym_lines m)|].
  destruct (ksym_line s); [|reflexivity]. rewrite IH. destruct (ksym_lines l); [|reflexivity]. now destruct (ksym_lines m).
Qed.

(** A line as the kernel prints it: address, kind, name, and for module
    symbols a tab and the module. *)
Lemma ksym_line_ok addr kind name : 0 <= addr < 2 ^ 64 -> kind <> 32 ->
  Forall (fun c => c <> 32) name ->
  ksym_line (hex_fixed 16 addr ++ 32 :: [kind] ++ 32 :: name) = Some (addr, name).
Proof.
  intros A K N. unfold ksym_line.
  assert (Forall (fun c => c <> 32) (hex_fixed 16 addr)) as H.
  { generalize 16%nat as n. generalize addr as x. clear. intros x n. revert x. induction n as [|n IH]; intros x; cbn [hex_fixed]; [constructor|].
    apply Forall_app. split; [apply IH|]. constructor; [|constructor]. unfold hex_char. destruct (Z.ltb_spec (x mod 16) 10); lia. }
  replace (split_at 32 (hex_fixed 16 addr ++ 32 :: [kind] ++ 32 :: name)) with [hex_fixed 16 addr; [kind]; name].
  - unfold hex_u64. rewrite (parse_hex (2 ^ 64) 15) by (cbn; lia). reflexivity.
  - symmetry. apply (split_at_join 32 [hex_fixed 16 addr; [kind]; name]); [discriminate|]. constructor; [exact H|]. constructor; [constructor; [exact K|constructor]|]. constructor; [exact N|constructor].
Qed.

Lemma kernel_symbols_ok l : Forall ksym_ok l ->
  parse_kernel_symbols (unlines (map print_ksym l)) = Some (map (fun s => (s_addr s, s_name s ++ print_module (s_module s))) l).
Proof.
  intros H. unfold parse_kernel_symbols. rewrite lines_unlines.
  - induction H as [|s l S _ IH]; [reflexivity|]. cbn [map ksym_lines]. destruct S as (A & K & _ & N & M).
    unfold print_ksym at 1. rewrite ksym_line_ok; [|exact A|exact K|].
    + now rewrite IH.
    + apply Forall_app. split; [eapply Forall_impl; [|exact N]; cbn beta; tauto|]. unfold print_module. destruct (s_module s) as [m|]; [|constructor].
      constructor; [lia|]. constructor; [lia|]. apply Forall_app. split; [eapply Forall_impl; [|exact M]; cbn beta; tauto|]. constructor; [lia|constructor].
  - induction H as [|s l S _ IH]; [constructor|]. cbn [map]. constructor; [|exact IH]. destruct S as (A & K & K' & N & M).
    unfold print_ksym. intros I. apply in_app_or in I as [I|I].
    + revert I. generalize 16%nat as n. generalize (s_addr s) as x. clear. intros x n. revert x. induction n as [|n IH]; intros x; cbn [hex_fixed]; [tauto|].
      intros I. apply in_app_or in I as [I|[I|[]]]; [now apply IH in I|]. unfold hex_char in I. destruct (Z.ltb_spec (x mod 16) 10); lia.
    + cbn [app In] in I. destruct I as [I|[I|[I|I]]]; [lia|contradiction|lia|].
      apply in_app_or in I as [I|I]; [rewrite Forall_forall in N; specialize (N _ I); tauto|].
      unfold print_module in I. destruct (s_module s) as [m|]; [|contradiction]. cbn [In] in I. destruct I as [I|[I|I]]; [lia|lia|].
      apply in_app_or in I as [I|[I|[]]]; [rewrite Forall_forall in M; specialize (M _ I); tauto|lia].
Qed.

Lemma ksym_at_last addr l : ksym_at addr l = match find (fun e => fst e =? addr) (rev l) with Some e => Some (snd e) | None => None end.
Proof.
  unfold ksym_at. induction l as [|e l IH] using rev_ind; [reflexivity|]. rewrite fold_left_app, rev_app_distr. cbn [fold_left rev app find].
  destruct (fst e =? addr); [reflexivity|exact IH].
Qed.

Lemma kernel_symbols_bad s line : In line (lines s) -> ksym_line line = None -> parse_kernel_symbols s = None.
Proof.
  unfold parse_kernel_symbols. induction (lines s) as [|x l IH]; intros I E; [contradiction|]. cbn [ksym_lines].
  destruct I as [->|I]; [now rewrite E|]. destruct (ksym_line x); [|reflexivity]. now rewrite IH.
Qed.

Lemma ksym_line_bad line : ksym_line line = None <->
  ~ exists a k n rest v, line = a ++ 32 :: k ++ 32 :: n ++ rest /\ hex_u64 a = Some v /\
      Forall (fun c => c <> 32) (a ++ k ++ n) /\ match rest with [] => True | c :: _ => c = 32 end.
Proof.
  unfold ksym_line. split.
  - intros H (a & k & n & rest & v & -> & A & F & R). apply Forall_app in F as [Fa F]. apply Forall_app in F as [Fk Fn].
    assert (forall w, Forall (fun c => c <> 32) w -> Forall (fun c => (32 =? c) = false) w) as W by (intros w F0; eapply Forall_impl; [|exact F0]; cbn beta; intros; lia).
    unfold split_at in H. rewrite split_by_app in H by (auto; reflexivity). rewrite split_by_app in H by (auto; reflexivity).
    destruct rest as [|c r].
    + rewrite app_nil_r, split_by_none in H by auto. now rewrite A in H.
    + subst c. rewrite split_by_app in H by (auto; reflexivity). now rewrite A in H.
  - intros N. destruct (split_at_spec 32 line) as [J F]. destruct (split_at 32 line) as [|a [|k [|n t]]]; try reflexivity.
    destruct (hex_u64 a) as [v|] eqn:A; [exfalso|reflexivity]. apply N. inversion F; subst. inversion H2; subst. inversion H4; subst.
    exists a, k, n, (match t with [] => [] | _ => 32 :: join 32 t end), v. split; [|split; [exact A|]].
    + destruct t as [|x t]; [cbn [join]; now rewrite app_nil_r|reflexivity].
    + split; [apply Forall_app; split; [assumption|apply Forall_app; now split]|]. now destruct t.
Qed.

(** * Assembled statements *)

Lemma kver_order a b : kver_ok a -> kver_ok b ->
  kver_cmp a b = (kval a ?= kval b) /\ (kver_ge a b = true <-> kval b <= kval a) /\ (kver_cmp a b = Eq <-> a = b).
Proof.
  intros Ha Hb. pose proof (kver_cmp_val a b Ha Hb) as E. split; [exact E|]. split.
  - unfold kver_ge. rewrite E. destruct (Z.compare_spec (kval a) (kval b)); split; intros; (discriminate || lia || reflexivity).
  - rewrite E, Z.compare_eq_iff. split; [now apply kver_eq|now intros ->].
Qed.

Lemma cpus_round_trip l w : l <> [] -> ranges_ok 0 l -> Forall (fun c => is_ws c = true) w ->
  read_cpu_ranges (print_cpus l ++ w) = Some (concat (map cpus l)) /\
  (forall x, In x (concat (map cpus l)) <-> Exists (fun ab => fst ab <= x <= snd ab) l) /\
  NoDup (concat (map cpus l)).
Proof.
  intros N H W. split; [now apply read_print|]. split; [|eapply ranges_nodup; [|exact H]; lia].
  intros x. rewrite in_concat, Exists_exists. split.
  - intros (c & I & X). apply in_map_iff in I as (ab & <- & I). exists ab. split; [exact I|now apply in_cpus].
  - intros (ab & I & X). exists (cpus ab). split; [now apply in_map|now apply in_cpus].
Qed.

Lemma kver_sources :
  (forall a b v w rest version release, Forall (fun c => is_ws c = false) a -> Forall (fun c => is_ws c = false) b -> kver_ok v -> is_ws w = true ->
     get_kernel_version (Some (a ++ 32 :: b ++ 32 :: kver_text v ++ w :: rest)) version release = Some v) /\
  (forall a v rest release, kver_ok v -> no_digit_first rest ->
     (forall pre r, a ++ txt "Debian " ++ version_text (k_major v) (k_minor v) (k_patch v) rest = pre ++ txt "Debian " ++ r -> (length a <= length pre)%nat) ->
     get_kernel_version None (a ++ txt "Debian " ++ version_text (k_major v) (k_minor v) (k_patch v) rest) release = Some v) /\
  (forall version release, (~ exists pre r, version = pre ++ txt "Debian " ++ r) ->
     get_kernel_version None version release = parse_version release).
Proof.
  split; [|split].
  - intros a b v w rest version release A B K W. unfold get_kernel_version.
    assert (Forall (fun c => is_ws c = false) (kver_text v) /\ kver_text v <> []) as [F N].
    { destruct K as (K1 & K2 & K3). unfold kver_text.
      pose proof (number_not_ws _ _ (dec_number (k_major v) ltac:(lia))). pose proof (number_not_ws _ _ (dec_number (k_minor v) ltac:(lia))).
      pose proof (number_not_ws _ _ (dec_number (k_patch v) ltac:(lia))).
      split; [|now destruct (dec (k_major v))]. apply Forall_app. split; [assumption|]. constructor; [reflexivity|]. apply Forall_app. split; [assumption|].
      constructor; [reflexivity|assumption]. }
    rewrite ubuntu_third by assumption. now rewrite kver_text_ok.
  - intros a v rest release K R M. unfold get_kernel_version. rewrite after_first_first; [|exact M|discriminate]. now apply parse_version_ok.
  - intros version release N. unfold get_kernel_version. now rewrite (proj2 (after_first_none _ _) N).
Qed.

(** * The number of CPUs *)

Lemma cpus_from_length a n : length (cpus_from a n) = n.
Proof. revert a. induction n as [|n IH]; intros a; cbn [cpus_from length]; [reflexivity|]. now rewrite IH. Qed.

Lemma cpus_count l w : l <> [] -> ranges_ok 0 l -> Forall (fun c => is_ws c = true) w ->
  nr_cpus (print_cpus l ++ w) = Some (fold_right (fun ab n => snd ab - fst ab + 1 + n) 0 l).
Proof.
  intros N R W. unfold nr_cpus. destruct (cpus_round_trip l w N R W) as (-> & _). f_equal. clear N W. revert R. generalize 0 at 1 as from.
  induction l as [|[a b] l IH]; intros from R; [reflexivity|]. cbn [ranges_ok] in R. destruct R as (A & B & _ & R).
  cbn [map concat fold_right fst snd]. rewrite app_length. unfold cpus at 1. cbn [fst snd]. rewrite cpus_from_length, Nat2Z.inj_add, (IH _ R). lia.
Qed.
