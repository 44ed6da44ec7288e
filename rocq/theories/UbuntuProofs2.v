(** Choosing the kernel to test: addresses and builds. *)
From Coq Require Import String.
From Verif Require Import Base Text TextParse LogModel TextSplit KmodModel KmodProofs UbuntuModel UbuntuSpec UbuntuProofs.
Local Open Scope Z_scope.

(** * Addresses *)

Lemma scheme_some s a b : scheme_of s = Some (a, b) -> s = a ++ txt "://" ++ b.
Proof.
  revert a. induction s as [|c s IH]; intros a E.
  - discriminate E.
  - cbn [scheme_of] in E. destruct (strip_prefix (txt "://") (c :: s)) as [r|] eqn:P.
    + apply some_inj in E. apply pair_equal_spec in E as [<- <-]. apply strip_prefix_iff in P. exact P.
    + destruct (scheme_of s) as [(x, y)|]; [|discriminate E]. apply some_inj in E. apply pair_equal_spec in E as [<- <-]. cbn [app]. f_equal. apply IH. reflexivity.
Qed.
Lemma scheme_none s : scheme_of s = None <-> ~ has_scheme s.
Proof.
  induction s as [|c s IH].
  - split; [intros _ (a & b & E); destruct a; discriminate E|reflexivity].
  - cbn [scheme_of]. destruct (strip_prefix (txt "://") (c :: s)) as [r|] eqn:P.
    + split; [discriminate|]. intros H. exfalso. apply H. apply strip_prefix_iff in P. exists [], r. exact P.
    + destruct (scheme_of s) as [(x, y)|] eqn:Q.
      * split; [discriminate|]. intros H. exfalso. apply H. apply scheme_some in Q. exists (c :: x), y. rewrite Q. reflexivity.
      * split; [|reflexivity]. intros _ (a & b & E). destruct a as [|d a].
        -- assert (X : strip_prefix (txt "://") (c :: s) = Some b) by (apply strip_prefix_iff; exact E). rewrite P in X. discriminate X.
        -- cbn [app] in E. apply cons_inj in E as [_ E]. apply (proj1 IH eq_refl). exists a, b. exact E.
Qed.
Lemma scheme_first a b : ~ In 58 a -> scheme_of (a ++ txt "://" ++ b) = Some (a, b).
Proof.
  induction a as [|c a IH]; intros N; [cbn [app scheme_of]; reflexivity|]. rewrite <- app_comm_cons. cbn [scheme_of].
  replace (strip_prefix (txt "://") (c :: a ++ txt "://" ++ b)) with (@None str).
  - rewrite IH; [reflexivity|]. intros I. apply N. right. exact I.
  - symmetry. apply strip_prefix_none. intros r E. change (txt "://" ++ r) with (58 :: txt "//" ++ r) in E. apply cons_inj in E as [E _]. apply N. left. exact E.
Qed.
Lemma drop_repeat x k s : drop_char x (repeat x k ++ s) = drop_char x s.
Proof. induction k as [|k IH]; [reflexivity|]. cbn [repeat app drop_char]. rewrite Z.eqb_refl. exact IH. Qed.
Lemma drop_spec x s : exists k, s = repeat x k ++ drop_char x s /\ forall r, drop_char x s <> x :: r.
Proof.
  induction s as [|c s (k & E & N)]; [exists 0%nat; split; [reflexivity|discriminate]|]. cbn [drop_char]. destruct (Z.eqb_spec c x) as [-> |D].
  - exists (S k). split; [cbn [repeat app]; f_equal; exact E|exact N].
  - exists 0%nat. split; [reflexivity|]. intros r Q. apply cons_inj in Q as [Q _]. contradiction.
Qed.
Lemma drop_not x c s : c <> x -> drop_char x (c :: s) = c :: s.
Proof. intros H. cbn [drop_char]. apply Z.eqb_neq in H. rewrite H. reflexivity. Qed.
Lemma rev_repeat {A} (x : A) k : rev (repeat x k) = repeat x k.
Proof. induction k as [|k IH]; [reflexivity|]. cbn [repeat rev]. rewrite IH. clear. induction k as [|k IH]; [reflexivity|]. cbn [repeat app]. rewrite IH. reflexivity. Qed.
Lemma trim_end_char_spec x s : exists k, s = trim_end_char x s ++ repeat x k /\ forall r, trim_end_char x s <> r ++ [x].
Proof.
  unfold trim_end_char. destruct (drop_spec x (rev s)) as (k & E & N). exists k. split.
  - rewrite <- (rev_involutive s), E at 1. rewrite rev_app_distr, rev_repeat. reflexivity.
  - intros r Q. apply (f_equal (@rev Z)) in Q. rewrite rev_involutive, rev_app_distr in Q. exact (N _ Q).
Qed.
Lemma trim_end_char_app x s c k : c <> x -> trim_end_char x ((s ++ [c]) ++ repeat x k) = s ++ [c].
Proof. intros H. unfold trim_end_char. rewrite rev_app_distr, rev_repeat, drop_repeat, rev_app_distr. cbn [rev app]. rewrite drop_not by exact H. cbn [rev]. rewrite rev_involutive. reflexivity. Qed.

Lemma absolute_root scheme host path h : ~ In 58 scheme -> ~ In 47 host -> absolute (directory scheme host path) (47 :: h) = scheme ++ txt "://" ++ host ++ 47 :: h.
Proof.
  intros S H. unfold absolute, directory. change (starts_with [47] (47 :: h)) with true. cbv iota.
  rewrite scheme_first by exact S. assert (E : once 47 (host ++ [47] ++ path ++ [47]) = Some (host, path ++ [47])) by (apply once_some; auto). rewrite E. reflexivity.
Qed.
Lemma absolute_whole base s r : s = txt "http" \/ s = txt "https" -> absolute base (s ++ txt "://" ++ r) = s ++ txt "://" ++ r.
Proof.
  intros H. unfold absolute. replace (starts_with [47] (s ++ txt "://" ++ r)) with false by (destruct H as [-> | ->]; reflexivity).
  rewrite scheme_first by (destruct H as [-> | ->]; vm_compute; intuition discriminate). destruct H as [-> | ->]; reflexivity.
Qed.
Lemma absolute_below dir x h : x <> 47 -> (forall r, h <> 47 :: r) -> ~ has_scheme h -> absolute ((dir ++ [x]) ++ [47]) h = (dir ++ [x]) ++ [47] ++ h.
Proof.
  intros X H N. unfold absolute. replace (starts_with [47] h) with false.
  - apply scheme_none in N. rewrite N. change [47] with (repeat 47 1) at 1. rewrite trim_end_char_app by exact X. reflexivity.
  - destruct h as [|c h]; [reflexivity|]. cbn [starts_with]. destruct (Z.eqb_spec 47 c) as [<- |Y]; [|reflexivity]. exfalso. exact (H h eq_refl).
Qed.

Lemma last_join x l d : l <> [] -> (length l = 1%nat /\ join x l = last l d) \/ exists pre, join x l = pre ++ [x] ++ last l d.
Proof.
  induction l as [|a l IH]; intros H; [contradiction|]. destruct l as [|b l]; [left; split; reflexivity|]. right.
  destruct (IH ltac:(discriminate)) as [(L & E)|(pre & E)].
  - exists a. change (join x (a :: b :: l)) with (a ++ x :: join x (b :: l)). rewrite E. reflexivity.
  - exists (a ++ x :: pre). change (join x (a :: b :: l)) with (a ++ x :: join x (b :: l)). rewrite E, <- app_assoc. reflexivity.
Qed.
Lemma last_in {A} (l : list A) d : l <> [] -> In (last l d) l.
Proof. induction l as [|a l IH]; intros H; [contradiction|]. destruct l as [|b l]; [left; reflexivity|]. right. apply IH. discriminate. Qed.
Lemma last_app {A} (l : list A) x d : last (l ++ [x]) d = x.
Proof. apply last_last. Qed.
Lemma split_last pre n : ~ In 47 n -> last (split_at 47 (pre ++ 47 :: n)) [] = n.
Proof.
  intros N. pose proof (split_at_spec 47 pre) as (E & F).
  assert (X : pre ++ 47 :: n = join 47 (split_at 47 pre ++ [n])).
  { rewrite <- E at 1. pose proof (split_by_nonempty (Z.eqb 47) pre) as Q. fold (split_at 47 pre) in Q. clear E F. induction (split_at 47 pre) as [|a l IH]; [contradiction|].
    destruct l as [|b l]; [reflexivity|]. change (join 47 (a :: b :: l)) with (a ++ 47 :: join 47 (b :: l)). rewrite <- app_assoc, <- app_comm_cons, IH by discriminate. reflexivity. }
  rewrite X, split_at_join.
  - apply last_last.
  - destruct (split_at 47 pre); discriminate.
  - apply Forall_app. split; [exact F|]. constructor; [|constructor]. apply Forall_forall. intros c I ->. contradiction.
Qed.
Lemma named_ends n : n <> [] -> ~ In 47 n -> exists s c, n = s ++ [c] /\ c <> 47.
Proof. intros H N. destruct (exists_last H) as (s & c & ->). exists s, c. split; [reflexivity|]. intros ->. apply N. apply in_app_iff. right. left. reflexivity. Qed.
Lemma file_name_iff url n : url_file_name url = Some n <-> named url n.
Proof.
  unfold url_file_name. split.
  - intros H. set (t := trim_end_char 47 url) in *. pose proof (split_at_spec 47 t) as (J & F). pose proof (split_by_nonempty (Z.eqb 47) t) as Q. fold (split_at 47 t) in Q.
    assert (E : last (split_at 47 t) [] = n /\ n <> []) by (destruct (last (split_at 47 t) []) as [|c r]; [discriminate H|]; apply some_inj in H; subst n; split; [reflexivity|discriminate]).
    clear H. destruct E as (E & N). destruct (trim_end_char_spec 47 url) as (k & U & _). fold t in U. split; [exact N|]. split.
    + rewrite Forall_forall in F. pose proof (F _ (last_in _ [] Q)) as G. rewrite E, Forall_forall in G. intros I. exact (G 47 I eq_refl).
    + exists k. destruct (last_join 47 (split_at 47 t) [] Q) as [(_ & L)|(pre & L)]; rewrite J, E in L.
      * left. rewrite U, L. reflexivity.
      * right. exists pre. rewrite U, L, <- !app_assoc. reflexivity.
  - intros (N & I & k & [-> |(pre & ->)]); destruct (named_ends n N I) as (s & c & E & C).
    + rewrite E, trim_end_char_app by exact C. rewrite <- E. unfold split_at. rewrite split_by_none by (apply not_in_forall; exact I). cbn [last]. destruct n; [contradiction|reflexivity].
    + replace (pre ++ [47] ++ n ++ repeat 47 k) with (((pre ++ [47] ++ s) ++ [c]) ++ repeat 47 k) by (rewrite E, <- !app_assoc; reflexivity).
      rewrite trim_end_char_app by exact C. replace ((pre ++ [47] ++ s) ++ [c]) with (pre ++ 47 :: n) by (rewrite E, <- !app_assoc; reflexivity).
      rewrite split_last by exact I. destruct n; [contradiction|reflexivity].
Qed.

(** * Builds *)

Lemma digit_iff c : is_digit c = true <-> 48 <= c <= 57.
Proof. unfold is_digit. rewrite andb_true_iff, !Z.leb_le. reflexivity. Qed.
Lemma build_iff version url n name : build_of version url = Some (n, name) <->
  named url name /\ exists d, name = txt "v" ++ version ++ txt "." ++ d /\ d <> [] /\ Forall (fun c => 48 <= c <= 57) d /\ dec_val d = n /\ n < 2 ^ 64.
Proof.
  unfold build_of. split.
  - intros H. destruct (url_file_name url) as [m|] eqn:U; [|discriminate H]. destruct (strip_prefix _ m) as [d|] eqn:P; [|discriminate H].
    destruct (forallb is_digit d) eqn:D; [|discriminate H]. destruct (dec_u64 d) as [v|] eqn:V; [|discriminate H]. apply some_inj in H. apply pair_equal_spec in H as [<- <-].
    apply file_name_iff in U. split; [exact U|]. apply strip_prefix_iff in P. rewrite <- !app_assoc in P. exists d. split; [exact P|].
    assert (Fd : Forall (fun c => is_digit c = true) d) by (apply Forall_forall; intros c I; rewrite forallb_forall in D; exact (D c I)).
    assert (Nd : d <> []) by (intros ->; discriminate V). split; [exact Nd|]. split; [apply Forall_forall; intros c I; rewrite Forall_forall in Fd; apply digit_iff; exact (Fd c I)|].
    unfold dec_u64 in V. destruct (Z_lt_le_dec (dec_val d) (2 ^ 64)) as [L|L].
    + rewrite (proj1 (parse_uint_digits (2 ^ 64) d Nd Fd L)) in V. apply some_inj in V. subst v. split; [reflexivity|exact L].
    + rewrite parse_uint_big in V by (first [assumption|lia]). discriminate V.
  - intros (U & d & E & N & F & <- & L). apply file_name_iff in U. rewrite U.
    assert (P : strip_prefix (txt "v" ++ version ++ txt ".") name = Some d) by (apply strip_prefix_iff; rewrite <- !app_assoc; exact E). rewrite P.
    assert (Fd : Forall (fun c => is_digit c = true) d) by (apply Forall_forall; intros c I; rewrite Forall_forall in F; apply digit_iff; exact (F c I)).
    replace (forallb is_digit d) with true by (symmetry; apply forallb_forall; intros c I; rewrite Forall_forall in Fd; exact (Fd c I)).
    unfold dec_u64. rewrite (proj1 (parse_uint_digits (2 ^ 64) d N Fd L)). reflexivity.
Qed.

Fixpoint ascending (l : list (Z * str)) : Prop := match l with [] => True | x :: r => Forall (fun y => fst x <= fst y) r /\ ascending r end.
Lemma insert_in x l y : In y (insert x l) <-> y = x \/ In y l.
Proof.
  induction l as [|z l IH]; cbn [insert]; [cbn [In]; intuition|]. destruct (fst z <=? fst x); cbn [In]; [rewrite IH|]; intuition.
Qed.
Lemma insert_ascending x l : ascending l -> ascending (insert x l).
Proof.
  induction l as [|z l IH]; cbn [insert ascending]; [intros _; split; [constructor|exact I]|]. intros (F & A). destruct (Z.leb_spec (fst z) (fst x)).
  - cbn [ascending]. split; [|apply IH; exact A]. apply Forall_forall. intros y J. apply insert_in in J as [-> |J]; [exact H|]. rewrite Forall_forall in F. exact (F y J).
  - cbn [ascending]. split; [|split; assumption]. constructor; [lia|]. eapply Forall_impl; [|exact F]. cbn beta. intros y. lia.
Qed.
Lemma sort_spec l : forall acc, ascending acc -> ascending (fold_left (fun acc x => insert x acc) l acc) /\
  forall y, In y (fold_left (fun acc x => insert x acc) l acc) <-> In y acc \/ In y l.
Proof.
  induction l as [|x l IH]; intros acc A; cbn [fold_left]; [split; [exact A|cbn [In]; intuition]|].
  destruct (IH (insert x acc) (insert_ascending x acc A)) as (B & C). split; [exact B|]. intros y. rewrite C, insert_in. cbn [In]. intuition.
Qed.
Fixpoint descending (l : list (Z * str)) : Prop := match l with [] => True | x :: r => Forall (fun y => fst y <= fst x) r /\ descending r end.
Lemma descending_app l x : descending l -> Forall (fun y => fst x <= fst y) l -> descending (l ++ [x]).
Proof.
  induction l as [|y l IH]; cbn [app descending]; [intros _ _; split; [constructor|exact I]|]. intros (F & D) G. inversion G; subst.
  split; [apply Forall_app; split; [exact F|constructor; [assumption|constructor]]|apply IH; assumption].
Qed.
Lemma rev_descending l : ascending l -> descending (rev l).
Proof. induction l as [|x l IH]; cbn [rev ascending]; [trivial|]. intros (F & A). apply descending_app; [apply IH; exact A|apply Forall_rev; exact F]. Qed.
Lemma descending_cut a b : descending (a ++ b) -> descending a /\ forall x y, In x a -> In y b -> fst y <= fst x.
Proof.
  induction a as [|z a IH]; cbn [app descending]; [intros _; split; [exact I|intros x y []]|]. intros (F & D). destruct (IH D) as (A & B). apply Forall_app in F as (F1 & F2). split; [split; assumption|].
  intros x y [<- |J] K; [rewrite Forall_forall in F2; exact (F2 y K)|exact (B x y J K)].
Qed.
(** The candidates with their numbers. *)
Lemma candidates_spec page version : exists l, candidates page version = map snd l /\ descending l /\ (length l <= 10)%nat /\
  (forall n b, In (n, b) l -> listed_build page version n b) /\
  forall n b, listed_build page version n b -> In (n, b) l \/ length l = 10%nat /\ Forall (fun x => n <= fst x) l.
Proof.
  unfold candidates. set (found := flat_map _ (listing page mainline_url)). exists (firstn max_candidates (rev (sort_builds found))).
  destruct (sort_spec found [] I) as (A & B). fold (sort_builds found) in A, B. pose proof (rev_descending _ A) as D. set (r := rev (sort_builds found)) in *.
  assert (J : forall n b, In (n, b) r <-> listed_build page version n b).
  { intros n b. unfold r. rewrite <- in_rev, B. unfold found. rewrite in_flat_map. unfold listed_build. change (txt "https://kernel.ubuntu.com/mainline/") with mainline_url. split.
    - intros [[]|(u & U & K)]. destruct (build_of version u) as [x|] eqn:E; [|destruct K]. destruct K as [-> |[]]. apply build_iff in E as (E1 & d & E2). exists u, d. auto.
    - intros (u & d & U & N & R). right. exists u. split; [exact U|]. replace (build_of version u) with (Some (n, b)); [left; reflexivity|]. symmetry. apply build_iff. split; [exact N|]. exists d. exact R. }
  rewrite <- (firstn_skipn max_candidates r) in D. apply descending_cut in D as (D1 & D2).
  split; [reflexivity|]. split; [exact D1|]. split; [apply firstn_le_length|]. split.
  - intros n b K. apply J. rewrite <- (firstn_skipn max_candidates r). apply in_app_iff. left. exact K.
  - intros n b K. apply J in K. rewrite <- (firstn_skipn max_candidates r) in K. apply in_app_iff in K as [K|K]; [left; exact K|right]. split.
    + apply firstn_length_le. destruct (Nat.le_gt_cases max_candidates (length r)) as [L|L]; [exact L|]. rewrite skipn_all2 in K by lia. destruct K.
    + apply Forall_forall. intros x X. exact (D2 x (n, b) X K).
Qed.
