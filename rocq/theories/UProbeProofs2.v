(** Proofs about [UProbeModel]: process maps, the library cache, targets. *)
From Coq Require Import String.
From Verif Require Import Base Text TextParse TextSplit LogModel UProbeModel UProbeSpec.
Local Open Scope Z_scope.
Local Notation join := TextSplit.join.

(** * White space *)

Lemma is_aws_iff c : is_aws c = true <-> blank c.
Proof. unfold is_aws, blank. rewrite !orb_true_iff, !Z.eqb_eq. tauto. Qed.
Lemma is_aws_not c : is_aws c = false <-> ~ blank c.
Proof. rewrite <- is_aws_iff. destruct (is_aws c); split; congruence. Qed.

Lemma ltrim_blank w s : Forall (fun c => is_aws c = true) w -> ltrim (w ++ s) = ltrim s.
Proof. induction 1 as [|c w H _ IH]; [reflexivity|]. cbn [app ltrim]. now rewrite H. Qed.
Lemma ltrim_keep c s : is_aws c = false -> ltrim (c :: s) = c :: s.
Proof. intros H. cbn [ltrim]. now rewrite H. Qed.
Lemma ltrim_idem s : ltrim (ltrim s) = ltrim s.
Proof. induction s as [|c s IH]; [reflexivity|]. cbn [ltrim]. destruct (is_aws c) eqn:E; [exact IH|]. cbn [ltrim]. now rewrite E. Qed.
Lemma rtrim_blank s w : Forall (fun c => is_aws c = true) w -> rtrim (s ++ w) = rtrim s.
Proof. intros H. unfold rtrim. rewrite rev_app_distr, ltrim_blank; [reflexivity|]. now apply Forall_rev. Qed.
Lemma rtrim_keep s c : is_aws c = false -> rtrim (s ++ [c]) = s ++ [c].
Proof. intros H. unfold rtrim. rewrite rev_app_distr. cbn [rev app]. rewrite (ltrim_keep c _ H). cbn [rev]. now rewrite rev_involutive. Qed.
Lemma rtrim_idem s : rtrim (rtrim s) = rtrim s.
Proof. unfold rtrim. now rewrite rev_involutive, ltrim_idem. Qed.

Lemma position_none p s : Forall (fun c => p c = false) s -> position p s = None.
Proof. induction 1 as [|c s H _ IH]; [reflexivity|]. cbn [position]. now rewrite H, IH. Qed.
Lemma position_app p w c s : Forall (fun c => p c = false) w -> p c = true -> position p (w ++ c :: s) = Some (length w).
Proof. intros H Hc. induction H as [|d w H _ IH]; cbn [app position length]; [now rewrite Hc|]. now rewrite H, IH. Qed.

Lemma word_aws w : word w -> w <> [] /\ Forall (fun c => is_aws c = false) w.
Proof. intros [N F]. split; [exact N|]. eapply Forall_impl; [|exact F]. intros c. apply is_aws_not. Qed.

(** One field of a line. *)
Lemma split_word n w s : word w -> split_n_go (S (S n)) (w ++ 32 :: s) = w :: split_n_go (S n) s.
Proof.
  intros H. destruct (word_aws w H) as [N F]. destruct w as [|c w]; [contradiction|]. cbn [split_n_go].
  change ((c :: w) ++ 32 :: s) with (c :: (w ++ 32 :: s)). rewrite ltrim_keep by now apply Forall_inv in F. change (c :: (w ++ 32 :: s)) with ((c :: w) ++ 32 :: s).
  rewrite position_app; [|exact F|reflexivity]. rewrite firstn_app_exact, skipn_app_exact by reflexivity. reflexivity.
Qed.
Lemma split_only n w : word w -> split_n_go (S (S n)) w = [w].
Proof.
  intros H. destruct (word_aws w H) as [N F]. destruct w as [|c w]; [contradiction|]. cbn [split_n_go]. rewrite ltrim_keep by now apply Forall_inv in F.
  now rewrite position_none.
Qed.

Lemma hex_word w x s : hex_text w x s -> word s /\ ~ In 45 s /\ exists v, v = x /\ 0 <= x < 2 ^ 64 /\ parse_uint 16 (2 ^ 64) s = Some v.
Proof.
  intros (n & L & B & ->). pose proof (hex_fixed_chars (S n) x) as C.
  split.
  { split; [apply hex_fixed_nil|]. eapply Forall_impl; [|exact C]. intros c Hc. unfold blank. cbn beta in Hc. lia. }
  split. { intros I. eapply Forall_forall in C; [|exact I]. cbn beta in C. lia. }
  exists x. assert (x < 2 ^ 64). { apply Z.lt_le_trans with (16 ^ Z.of_nat (S n)); [lia|]. change (2 ^ 64) with (16 ^ 16). apply Z.pow_le_mono_r; lia. }
  split; [reflexivity|]. split; [lia|]. now apply parse_hex.
Qed.
Lemma dec_word n : 0 <= n < 2 ^ 32 -> word (dec n) /\ parse_uint 10 (2 ^ 32) (dec n) = Some n.
Proof.
  intros B. assert (0 <= n < 10 ^ 20) as B' by (assert (2 ^ 32 < 10 ^ 20) by reflexivity; lia). destruct (dec_spec n B') as (_ & F & N).
  split; [|apply parse_dec; lia]. split; [exact N|]. eapply Forall_impl; [|exact F]. intros c Hc. cbn beta in Hc. unfold is_digit in Hc. apply andb_true_iff in Hc as [H1 H2].
  unfold blank. lia.
Qed.
Lemma addr_word a b wa wb x y : hex_text wa x a -> hex_text wb y b -> word (a ++ 45 :: b).
Proof.
  intros Ha Hb. destruct (hex_word _ _ _ Ha) as [[Na Fa] _], (hex_word _ _ _ Hb) as [[Nb Fb] _].
  split; [destruct a; discriminate|]. apply Forall_app. split; [exact Fa|]. constructor; [unfold blank; lia|exact Fb].
Qed.
Lemma addr_split a b : ~ In 45 a -> ~ In 45 b -> split_at 45 (a ++ 45 :: b) = [a; b].
Proof.
  intros Ha Hb. unfold split_at. rewrite split_by_app; [|apply Forall_forall; intros c I; apply Z.eqb_neq; intros <-; contradiction|reflexivity].
  rewrite split_by_none; [reflexivity|]. apply Forall_forall. intros c I. apply Z.eqb_neq. intros <-. contradiction.
Qed.
Lemma keep_word (w : list Z) l : w <> [] -> filter (fun p : list Z => match p with [] => false | _ => true end) (w :: l) = w :: filter (fun p : list Z => match p with [] => false | _ => true end) l.
Proof. intros H. destruct w; [contradiction|reflexivity]. Qed.

Lemma fields_none a b perms o dev ino pad : word (a ++ 45 :: b) -> word perms -> word o -> word dev -> word ino -> Forall (fun c => c = 32) pad ->
  split_n (a ++ 45 :: b ++ 32 :: perms ++ 32 :: o ++ 32 :: dev ++ 32 :: ino ++ 32 :: pad) 6 = [a ++ 45 :: b; perms; o; dev; ino].
Proof.
  intros Ha Hp Ho Hd Hi Hs. unfold split_n.
  replace (a ++ 45 :: b ++ 32 :: perms ++ 32 :: o ++ 32 :: dev ++ 32 :: ino ++ 32 :: pad)
    with (((a ++ 45 :: b) ++ 32 :: perms ++ 32 :: o ++ 32 :: dev ++ 32 :: ino) ++ 32 :: pad) by (repeat (rewrite <- ?app_assoc; cbn [app]); reflexivity).
  rewrite rtrim_blank by (constructor; [reflexivity|]; eapply Forall_impl; [|exact Hs]; intros c ->; reflexivity).
  assert (exists i d, ino = i ++ [d] /\ is_aws d = false) as (i & d & Ei & Hd').
  { destruct (word_aws ino Hi) as [N F]. destruct (exists_last N) as (i & d & E). exists i, d. split; [exact E|]. rewrite E in F. apply Forall_app in F as [_ F]. now apply Forall_inv in F. }
  replace ((a ++ 45 :: b) ++ 32 :: perms ++ 32 :: o ++ 32 :: dev ++ 32 :: ino) with (((a ++ 45 :: b) ++ 32 :: perms ++ 32 :: o ++ 32 :: dev ++ 32 :: i) ++ [d])
    by (rewrite Ei; repeat (rewrite <- ?app_assoc; cbn [app]); reflexivity).
  rewrite rtrim_keep by exact Hd'.
  replace (((a ++ 45 :: b) ++ 32 :: perms ++ 32 :: o ++ 32 :: dev ++ 32 :: i) ++ [d]) with ((a ++ 45 :: b) ++ 32 :: perms ++ 32 :: o ++ 32 :: dev ++ 32 :: ino)
    by (rewrite Ei; repeat (rewrite <- ?app_assoc; cbn [app]); reflexivity).
  rewrite (split_word 4), (split_word 3), (split_word 2), (split_word 1), (split_only 0); auto.
Qed.
Lemma path_ends p : path_text p -> p <> [] /\ ~ In 10 p /\ ltrim p = p /\ exists q c, p = q ++ [c] /\ is_aws c = false.
Proof.
  intros (N & a & b & m & Ha & Hb & [-> | ->]); (split; [discriminate|split; [exact N|]]).
  - split; [apply ltrim_keep; now apply is_aws_not|]. exists [], a. split; [reflexivity|now apply is_aws_not].
  - split; [apply ltrim_keep; now apply is_aws_not|]. exists (a :: m), b. split; [reflexivity|now apply is_aws_not].
Qed.
Lemma fields_some a b perms o dev ino pad p : word (a ++ 45 :: b) -> word perms -> word o -> word dev -> word ino -> Forall (fun c => c = 32) pad -> path_text p ->
  split_n (a ++ 45 :: b ++ 32 :: perms ++ 32 :: o ++ 32 :: dev ++ 32 :: ino ++ 32 :: pad ++ p) 6 = [a ++ 45 :: b; perms; o; dev; ino; p].
Proof.
  intros Ha Hp Ho Hd Hi Hs Hpath. destruct (path_ends p Hpath) as (_ & _ & Lp & q & c & Eq & Hc). unfold split_n.
  replace (a ++ 45 :: b ++ 32 :: perms ++ 32 :: o ++ 32 :: dev ++ 32 :: ino ++ 32 :: pad ++ p)
    with ((a ++ 45 :: b ++ 32 :: perms ++ 32 :: o ++ 32 :: dev ++ 32 :: ino ++ 32 :: pad ++ q) ++ [c]) by (rewrite Eq; repeat (rewrite <- ?app_assoc; cbn [app]); reflexivity).
  rewrite rtrim_keep by exact Hc.
  replace ((a ++ 45 :: b ++ 32 :: perms ++ 32 :: o ++ 32 :: dev ++ 32 :: ino ++ 32 :: pad ++ q) ++ [c])
    with ((a ++ 45 :: b) ++ 32 :: perms ++ 32 :: o ++ 32 :: dev ++ 32 :: ino ++ 32 :: pad ++ p) by (rewrite Eq; repeat (rewrite <- ?app_assoc; cbn [app]); reflexivity).
  rewrite (split_word 4), (split_word 3), (split_word 2), (split_word 1), (split_word 0) by assumption. cbn [split_n_go].
  rewrite ltrim_blank by (eapply Forall_impl; [|exact Hs]; intros x ->; reflexivity). now rewrite Lp.
Qed.

Lemma parse_line e line : map_line e line -> parse_entry line = Some e.
Proof.
  destruct e as [st en perms off dev ino path]. intros (a & b & o & pad & Ha & Hb & Ho & Hp & Hd & Hi & Hs & Hl). cbn [me_start me_end me_perms me_offset me_dev me_inode me_path] in *.
  destruct (hex_word _ _ _ Ha) as ([_ _] & Da & va & -> & _ & Pa), (hex_word _ _ _ Hb) as ([_ _] & Db & vb & -> & _ & Pb), (hex_word _ _ _ Ho) as (Wo & _ & vo & -> & _ & Po).
  destruct (dec_word ino Hi) as [Wi Pi]. pose proof (addr_word _ _ _ _ _ _ Ha Hb) as Wa. pose proof (addr_split a b Da Db) as Sa.
  unfold parse_entry. destruct path as [p|].
  - destruct Hl as [Hpath ->]. rewrite fields_some by assumption. destruct (path_ends p Hpath) as (Np & _).
    rewrite !keep_word; try (apply Wa || apply Hp || apply Wo || apply Hd || apply Wi || exact Np). cbn [filter]. now rewrite Sa, Pa, Pb, Po, Pi.
  - rewrite Hl, fields_none by assumption.
    rewrite !keep_word; try (apply Wa || apply Hp || apply Wo || apply Hd || apply Wi). cbn [filter]. now rewrite Sa, Pa, Pb, Po, Pi.
Qed.

Lemma parse_entry_rtrim line : parse_entry (rtrim line) = parse_entry line.
Proof. unfold parse_entry, split_n. now rewrite rtrim_idem. Qed.

(** * The whole file *)

Lemma word_no_newline w : word w -> ~ In 10 w.
Proof. intros [_ F] I. eapply Forall_forall in F; [|exact I]. apply F. unfold blank. lia. Qed.
Lemma map_line_shape e line : map_line e line -> ~ In 10 line /\ (exists c r, line = c :: r /\ is_aws c = false) /\ ~ In 10 (rtrim line) /\ rtrim line <> [].
Proof.
  intros (a & b & o & pad & Ha & Hb & Ho & Hp & Hd & Hi & Hs & Hl). destruct (hex_word _ _ _ Ha) as (Wa & _), (hex_word _ _ _ Hb) as (Wb & _), (hex_word _ _ _ Ho) as (Wo & _).
  destruct (dec_word _ Hi) as [Wi _].
  assert (~ In 10 pad) as Np by (intros I; eapply Forall_forall in Hs; [|exact I]; cbn beta in Hs; lia).
  assert (~ In 10 line) as N.
  { apply word_no_newline in Wa, Wb, Wo, Wi, Hp, Hd. destruct (me_path e) as [p|].
    - destruct Hl as [Hpath ->]. destruct (path_ends p Hpath) as (_ & Nq & _). intros I. repeat (rewrite ?in_app_iff in I; cbn [In] in I). intuition lia.
    - subst line. intros I. repeat (rewrite ?in_app_iff in I; cbn [In] in I). intuition lia. }
  assert (exists c r, line = c :: r /\ is_aws c = false) as (c & r & El & Hc).
  { destruct (word_aws a Wa) as [Na Fa]. destruct a as [|c a]; [contradiction|]. apply Forall_inv in Fa. destruct (me_path e) as [p|]; [destruct Hl as [_ ->]|subst line]; eexists _, _; (split; [reflexivity|exact Fa]). }
  split; [exact N|]. split; [now exists c, r|]. 
  assert (forall s, exists t, s = rtrim s ++ t) as R.
  { intros s. unfold rtrim. assert (forall u, exists t, u = t ++ ltrim u) as L.
    { induction u as [|x u [t IH]]; [now exists []|]. cbn [ltrim]. destruct (is_aws x); [|now exists []]. exists (x :: t). cbn [app]. now rewrite <- IH. }
    destruct (L (rev s)) as [t E]. exists (rev t). rewrite <- rev_app_distr, <- E. now rewrite rev_involutive. }
  split.
  - intros I. destruct (R line) as [t E]. apply N. rewrite E. apply in_or_app. now left.
  - intros E. assert (forall u, In c u -> ltrim u <> []) as L.
    { induction u as [|x u IH]; [intros []|]. intros [->|I]; cbn [ltrim]; [now rewrite Hc|]. destruct (is_aws x); [now apply IH|discriminate]. }
    apply (L (rev line)); [rewrite El; apply in_rev; rewrite rev_involutive; now left|]. unfold rtrim in E. destruct (ltrim (rev line)) as [|x u]; [reflexivity|].
    apply (f_equal (@rev Z)) in E. rewrite rev_involutive in E. discriminate.
Qed.

Lemma rtrim_app_keep s t : rtrim t <> [] -> rtrim (s ++ t) = s ++ rtrim t.
Proof.
  unfold rtrim. rewrite rev_app_distr. intros H. assert (forall u v, ltrim u <> [] -> ltrim (u ++ v) = ltrim u ++ v) as L.
  { clear. induction u as [|x u IH]; intros v H; [now destruct H|]. cbn [app ltrim] in *. destruct (is_aws x); [now apply IH|reflexivity]. }
  rewrite L; [|intros E; apply H; now rewrite E]. now rewrite rev_app_distr, rev_involutive.
Qed.

Lemma join_cons (x : Z) a l : l <> [] -> join x (a :: l) = a ++ x :: join x l.
Proof. destruct l; [contradiction|reflexivity]. Qed.
Lemma unlines_join ls last : unlines (ls ++ [last]) = join 10 (ls ++ [last]) ++ [10].
Proof.
  induction ls as [|a ls IH]; [cbn; now rewrite app_nil_r|]. cbn [app unlines flat_map]. fold (unlines (ls ++ [last])). rewrite IH.
  rewrite join_cons by (destruct ls; discriminate). repeat (rewrite <- ?app_assoc; cbn [app]). reflexivity.
Qed.
Lemma join_prefix ls : exists pre, (forall t, join 10 (ls ++ [t]) = pre ++ t) /\ match ls with [] => pre = [] | a :: _ => exists r, pre = a ++ r end.
Proof.
  induction ls as [|a ls [pre [IH _]]]; [now exists []|]. exists (a ++ 10 :: pre). split; [|now exists (10 :: pre)]. intros t. cbn [app].
  rewrite join_cons by (destruct ls; discriminate). now rewrite (IH t), <- app_assoc.
Qed.

Lemma map_ext2 {A B C} (R : A -> B -> Prop) (f : B -> C) (g : A -> C) l r : (forall x y, R x y -> f y = g x) -> Forall2 R l r -> map f r = map g l.
Proof. intros H. induction 1 as [|x y l r Hx _ IH]; [reflexivity|]. cbn [map]. now rewrite (H x y Hx), IH. Qed.

Lemma libs_spec es ls : es <> [] -> Forall2 map_line es ls -> libs (unlines ls) = map Some es.
Proof.
  intros N F. assert (exists es0 e ls0 l, es = es0 ++ [e] /\ ls = ls0 ++ [l] /\ Forall2 map_line es0 ls0 /\ map_line e l) as (es0 & e & ls0 & l & -> & -> & F0 & Fl).
  { destruct (exists_last N) as (es0 & e & ->). apply Forall2_app_inv_l in F as (ls0 & lx & F0 & Fx & ->). inversion Fx as [|x y l1 l2 Hx Hn]; subst. inversion Hn; subst. exists es0, e, ls0, y. auto. }
  clear N F. unfold libs. rewrite unlines_join, rtrim_blank by (repeat constructor).
  destruct (map_line_shape e l Fl) as (Nl & (c & r & El & Hc) & Nr & Ner).
  destruct (join_prefix ls0) as (pre & Hpre & Hfirst). rewrite Hpre, rtrim_app_keep by exact Ner. rewrite <- (Hpre (rtrim l)).
  assert (ltrim (join 10 (ls0 ++ [rtrim l])) = join 10 (ls0 ++ [rtrim l])) as ->.
  { rewrite Hpre. destruct ls0 as [|l1 ls0].
    - subst pre. cbn [app]. rewrite El in *. assert (exists r', rtrim (c :: r) = c :: r') as [r' ->]; [|now apply ltrim_keep].
      change (c :: r) with ([c] ++ r) in *. unfold rtrim in *. rewrite rev_app_distr in *. cbn [rev app] in *.
      assert (forall u, exists v, ltrim (u ++ [c]) = v ++ [c]) as L.
      { induction u as [|x u [v IH]]; cbn [app ltrim]; [rewrite Hc; now exists []|]. destruct (is_aws x); [now exists v|now exists (x :: u)]. }
      destruct (L (rev r)) as [v ->]. rewrite rev_app_distr. cbn [rev app]. eauto.
    - destruct Hfirst as [q ->]. inversion F0 as [|x y u v Hx _]; subst. destruct (map_line_shape _ _ Hx) as (_ & (d & w & -> & Hd) & _). cbn [app]. now apply ltrim_keep. }
  rewrite split_at_join.
  - rewrite !map_app. cbn [map]. rewrite parse_entry_rtrim, (parse_line e l Fl). f_equal. exact (map_ext2 map_line parse_entry Some es0 ls0 parse_line F0).
  - destruct ls0; discriminate.
  - apply Forall_app. split; [|constructor; [apply Forall_forall; intros x I ->; contradiction|constructor]].
    clear - F0. induction F0 as [|x y u v Hx _ IH]; constructor; [|exact IH]. destruct (map_line_shape _ _ Hx) as (Ny & _). apply Forall_forall. intros z I ->. contradiction.
Qed.

(** * Library names *)

Lemma stem_spec lib s : stem_of lib s <-> stem lib = s.
Proof.
  unfold stem_of, stem, strip_prefix. fold dot_so. destruct (starts_with (rev dot_so) (rev lib)) eqn:E.
  - apply starts_with_iff in E as [r E]. rewrite E, skipn_app_exact by reflexivity.
    assert (lib = rev r ++ dot_so) as L. { rewrite <- (rev_involutive lib), E, rev_app_distr. now rewrite rev_involutive. }
    split.
    + intros [H|[-> H]]; [|destruct H; now exists (rev r)]. rewrite L in H. now apply app_inv_tail in H.
    + intros <-. now left.
  - assert (~ exists r, lib = r ++ dot_so) as N.
    { intros [r ->]. rewrite rev_app_distr, starts_with_app in E. discriminate. }
    split; [intros [H|[-> _]]; [destruct N; now exists s|reflexivity]|]. intros <-. now right.
Qed.

Lemma lib_matches_spec s p : lib_matches s p = true <-> names_lib s p.
Proof.
  unfold lib_matches, names_lib, strip_prefix. fold dot_so. destruct (file_name p) as [f|]; [|split; [discriminate|intros (f & E & _); discriminate]].
  destruct (starts_with s f) eqn:E.
  - apply starts_with_iff in E as [r ->]. rewrite skipn_app_exact by reflexivity. split.
    + intros H. exists (s ++ r). split; [reflexivity|]. destruct r as [|c r]; [left; apply app_nil_r|]. apply orb_true_iff in H as [H|H]; apply starts_with_iff in H as [q Hq]; right; [left|right]; exists q; now rewrite Hq.
    + intros (f & Ef & H). apply some_inj in Ef. subst f. destruct H as [H|[[q H]|[q H]]].
      * assert (r = []) as -> by (apply (app_inv_head s); now rewrite H, app_nil_r). reflexivity.
      * apply app_inv_head in H. subst r. rewrite starts_with_app. reflexivity.
      * apply app_inv_head in H. subst r. reflexivity.
  - split; [discriminate|]. intros (f' & Ef & H). apply some_inj in Ef. subst f'.
    assert (exists r, f = s ++ r) as P by (destruct H as [->|[[q ->]|[q ->]]]; [exists []; now rewrite app_nil_r|eauto|eauto]).
    apply starts_with_iff in P. congruence.
Qed.
Lemma cache_matches_spec s k : cache_matches s k = true <-> key_names s k.
Proof.
  unfold cache_matches, key_names, strip_prefix. fold dot_so. destruct (starts_with s k) eqn:E.
  - apply starts_with_iff in E as [r ->]. rewrite skipn_app_exact by reflexivity. rewrite starts_with_iff. split; intros [q H].
    + exists q. now rewrite H.
    + exists q. now apply app_inv_head in H.
  - split; [discriminate|]. intros [q ->]. rewrite starts_with_app in E. discriminate.
Qed.

(** The last component of a path. *)
Lemma split_last x a f : ~ In x f -> exists l, split_at x (a ++ x :: f) = l ++ [f].
Proof.
  intros N. unfold split_at. induction a as [|c a [l IH]]; cbn [app split_by].
  - rewrite Z.eqb_refl. exists [[]]. rewrite split_by_none; [reflexivity|]. apply Forall_forall. intros c I. apply Z.eqb_neq. intros <-. contradiction.
  - destruct (x =? c); [rewrite IH; now exists ([] :: l)|]. rewrite IH. destruct l as [|h l]; cbn [app].
    + exfalso. clear - IH. assert (forall s, length (split_by (Z.eqb x) (s ++ x :: f)) = 1%nat -> False) as L.
      { induction s as [|c s IHs]; cbn [app split_by].
        - rewrite Z.eqb_refl. cbn [length]. pose proof (split_by_nonempty (Z.eqb x) f). destruct (split_by (Z.eqb x) f); [contradiction|discriminate].
        - destruct (x =? c); cbn [length]; [pose proof (split_by_nonempty (Z.eqb x) (s ++ x :: f)); destruct (split_by (Z.eqb x) (s ++ x :: f)); [contradiction|discriminate]|].
          destruct (split_by (Z.eqb x) (s ++ x :: f)) eqn:E; [intros _; now apply (split_by_nonempty (Z.eqb x) (s ++ x :: f))|]. exact IHs. }
      apply (L a). now rewrite IH.
    + now exists ((c :: h) :: l).
Qed.
Lemma file_name_last dir f : ~ In 47 f -> f <> [] -> f <> [46] -> f <> [46; 46] -> file_name (dir ++ 47 :: f) = Some f /\ file_name f = Some f.
Proof.
  intros N N0 N1 N2. assert (forall l, filter (fun c => negb (str_eqb c []) && negb (str_eqb c [46])) (l ++ [f]) = filter (fun c => negb (str_eqb c []) && negb (str_eqb c [46])) l ++ [f]) as K.
  { intros l. rewrite filter_app. cbn [filter]. now rewrite (proj2 (str_eqb_neq f []) N0), (proj2 (str_eqb_neq f [46]) N1). }
  unfold file_name, components. split.
  - destruct (split_last 47 dir f N) as [l ->]. rewrite K, rev_app_distr. cbn [rev app]. now rewrite (proj2 (str_eqb_neq f [46; 46]) N2).
  - unfold split_at. rewrite split_by_none by (apply Forall_forall; intros c I; apply Z.eqb_neq; intros <-; contradiction). pose proof (K []) as K0. cbn [app] in K0. rewrite K0. cbn [filter app rev].
    now rewrite (proj2 (str_eqb_neq f [46; 46]) N2).
Qed.

(** The first mapping that names the library. *)
Definition first_path (s : list Z) (es : list map_entry) (p : list Z) : Prop :=
  exists pre e post, es = pre ++ e :: post /\ me_path e = Some p /\ names_lib s p /\ Forall (fun x => forall q, me_path x = Some q -> ~ names_lib s q) pre.
Definition no_path (s : list Z) (es : list map_entry) : Prop := Forall (fun x => forall q, me_path x = Some q -> ~ names_lib s q) es.
Lemma find_go_spec s es : match find_library_go s (map Some es) with
  | Some (Some p) => first_path s es p
  | Some None => no_path s es
  | None => False
  end.
Proof.
  induction es as [|e es IH]; cbn [map find_library_go]; [constructor|].
  assert (forall (N : forall q, me_path e = Some q -> ~ names_lib s q), match find_library_go s (map Some es) with Some (Some p) => first_path s (e :: es) p | Some None => no_path s (e :: es) | None => False end) as Skip.
  { intros N. destruct (find_library_go s (map Some es)) as [[p|]|]; [| |exact IH].
    - destruct IH as (pre & e1 & post & -> & A & B & C). exists (e :: pre), e1, post. split; [reflexivity|]. split; [exact A|]. split; [exact B|]. now constructor.
    - now constructor. }
  destruct (me_path e) as [p|] eqn:E; [|apply Skip; discriminate]. destruct (lib_matches s p) eqn:M.
  - exists [], e, es. split; [reflexivity|]. split; [exact E|]. split; [now apply lib_matches_spec|constructor].
  - apply Skip. intros q Hq. apply some_inj in Hq. subst q. rewrite <- lib_matches_spec. congruence.
Qed.
Lemma first_path_unique s es p q : first_path s es p -> first_path s es q -> p = q.
Proof.
  intros (pre & e & post & -> & A & B & C). intros (pre' & e' & post' & E & A' & B' & C').
  revert pre' E C'. induction pre as [|x pre IH]; intros [|x' pre'] E C'; cbn [app] in E.
  - injection E as <- _. congruence.
  - injection E as <- _. apply Forall_inv in C'. now destruct (C' p A).
  - injection E as -> _. apply Forall_inv in C. now destruct (C q A').
  - injection E as _ E. apply (IH (Forall_inv_tail C) pre' E (Forall_inv_tail C')).
Qed.
Lemma first_path_no s es p : first_path s es p -> no_path s es -> False.
Proof.
  intros (pre & e & post & -> & A & B & C) H. unfold no_path in H. rewrite Forall_forall in H. apply (H e) with p; [|exact A|exact B]. apply in_or_app. right. now left.
Qed.
Lemma find_library_spec es ls lib s : es <> [] -> Forall2 map_line es ls -> stem_of lib s ->
  (forall p, find_library (unlines ls) lib = Some (Some p) <-> first_path s es p) /\
  (find_library (unlines ls) lib = Some None <-> no_path s es).
Proof.
  intros N F S. apply stem_spec in S. unfold find_library. rewrite (libs_spec es ls N F), S. pose proof (find_go_spec s es) as H.
  destruct (find_library_go s (map Some es)) as [[p|]|]; [| |destruct H]; split.
  - intros q. split; [intros E; now assert (q = p) as -> by congruence|]. intros H'. now rewrite (first_path_unique s es q p).
  - split; [discriminate|]. intros H'. destruct (first_path_no _ _ _ H H').
  - intros q. split; [discriminate|]. intros H'. destruct (first_path_no _ _ _ H' H).
  - split; auto.
Qed.

(** * The cache *)

Lemma read_word_at before w rest : length w = 4%nat -> read_word (before ++ w ++ rest) (Z.of_nat (length before)) = Ok (le_dec w).
Proof.
  intros L. unfold read_word. rewrite !app_length, L. destruct (Z.leb_spec (Z.of_nat (length before) + 4) (Z.of_nat (length before + (4 + length rest)))); [|lia].
  rewrite Nat2Z.id, <- L. now rewrite slice_app_exact.
Qed.
Lemma read_word_from data pos before w rest x : data = before ++ w ++ rest -> pos = Z.of_nat (length before) -> length w = 4%nat -> le_dec w = x -> read_word data pos = Ok x.
Proof. intros -> -> L <-. now apply read_word_at. Qed.
Lemma read_str_at data pos s : string_at data pos s -> read_str data pos = Ok s.
Proof.
  intros (P & F & before & rest & -> & <-). unfold read_str. rewrite app_length. destruct (Z.ltb_spec (Z.of_nat (length before + length (s ++ 0 :: rest))) (Z.of_nat (length before))); [lia|].
  rewrite Nat2Z.id, skipn_app_exact by reflexivity. rewrite position_app; [|eapply Forall_impl; [|exact F]; intros c Hc; cbn beta in Hc; lia|reflexivity].
  now rewrite firstn_app_exact.
Qed.
Lemma i32_word x : - 2 ^ 31 <= x < 2 ^ 31 -> i32 (le_dec (le_enc 4 x)) = x.
Proof. intros B. rewrite le_dec_enc. change (256 ^ Z.of_nat 4) with (2 ^ 32). unfold i32, swrap. rewrite Z.mod_mod by lia. change (32 - 1) with 31. destruct (Z.ltb_spec (x mod 2 ^ 32) (2 ^ 31)); lia. Qed.

Lemma read_rows data (is_new : bool) base rows l : Forall2 (entry_row data base (if is_new then 12 else 0)%nat) rows l -> forall before rest, data = before ++ concat rows ++ rest ->
  read_entries (length l) data is_new base (Z.of_nat (length before)) = Ok l.
Proof.
  induction 1 as [|row e rows l He _ IH]; intros before rest E; [reflexivity|]. cbn [length read_entries].
  destruct He as (k & v & ext & Bk & Bv & Bf & Le & Er & Sk & Sv). cbn [concat] in E. rewrite Er in E.
  rewrite <- !app_assoc in E.
  assert (read_word data (Z.of_nat (length before)) = Ok (le_dec (le_enc 4 (ce_flags e)))) as ->.
  { eapply read_word_from; [exact E|reflexivity|apply le_enc_length|reflexivity]. }
  assert (read_word data (Z.of_nat (length before) + 4) = Ok k) as ->.
  { apply (read_word_from _ _ (before ++ le_enc 4 (ce_flags e)) (le_enc 4 k) (le_enc 4 v ++ ext ++ concat rows ++ rest)); [rewrite E, <- app_assoc; reflexivity|rewrite app_length, le_enc_length; lia|apply le_enc_length|apply le_dec_enc_small; exact Bk]. }
  assert (read_word data (Z.of_nat (length before) + 8) = Ok v) as ->.
  { apply (read_word_from _ _ (before ++ le_enc 4 (ce_flags e) ++ le_enc 4 k) (le_enc 4 v) (ext ++ concat rows ++ rest)); [rewrite E, <- !app_assoc; reflexivity|rewrite !app_length, !le_enc_length; lia|apply le_enc_length|apply le_dec_enc_small; exact Bv]. }
  cbn [bind]. rewrite (read_str_at _ _ _ Sk), (read_str_at _ _ _ Sv). cbn [bind].
  replace (Z.of_nat (length before) + 12 + (if is_new then 12 else 0)) with (Z.of_nat (length (before ++ row))).
  2:{ rewrite app_length, Er, !app_length, !le_enc_length, Le. destruct is_new; lia. }
  rewrite (IH (before ++ row) rest); [|rewrite Er, <- !app_assoc; exact E]. cbn [bind]. rewrite i32_word by exact Bf. now destruct e.
Qed.

Lemma parse_new data l : new_cache data l -> parse_cache data = Ok l.
Proof.
  intros (header & rows & rest & Lh & Ll & B & E & F). unfold parse_cache.
  assert (length data = 20 + (4 + (24 + length (concat rows ++ rest))))%nat as Ld by (rewrite E, !app_length, le_enc_length, Lh; reflexivity).
  rewrite Ld. destruct (Z.ltb_spec (Z.of_nat (20 + (4 + (24 + length (concat rows ++ rest))))) 20); [lia|].
  assert (firstn 20 data = magic_new) as -> by (rewrite E; now apply firstn_app_exact). change (utf8 magic_new) with true. cbn [negb]. rewrite str_eqb_refl. cbn [negb andb].
  assert (read_word data 20 = Ok (Z.of_nat (length l))) as ->.
  { rewrite E. change 20 with (Z.of_nat (length (txt "glibc-ld.so.cache1.1"))). rewrite read_word_at by apply le_enc_length. f_equal. apply le_dec_enc_small. change (256 ^ Z.of_nat 4) with (2 ^ 32). lia. }
  cbn [bind]. rewrite Nat2Z.id. change (20 + 4 + 24) with (Z.of_nat (20 + (4 + 24))).
  replace (20 + (4 + 24))%nat with (length (txt "glibc-ld.so.cache1.1" ++ le_enc 4 (Z.of_nat (length l)) ++ header)) by (rewrite !app_length, le_enc_length, Lh; reflexivity).
  apply (read_rows data true 0 rows l F) with rest. rewrite E at 1. now rewrite <- !app_assoc.
Qed.
Lemma parse_old data l : old_cache data l -> (20 <= length data)%nat -> utf8 (firstn 20 data) = true -> parse_cache data = Ok l.
Proof.
  intros (rows & rest & Ll & B & E & F) L20 U. unfold parse_cache. destruct (Z.ltb_spec (Z.of_nat (length data)) 20); [lia|]. rewrite U. cbn [negb].
  assert (firstn 12 data = magic_old) as F12.
  { rewrite E. change (txt "ld.so-1.7.0" ++ 0 :: le_enc 4 (Z.of_nat (length l)) ++ concat rows ++ rest) with (magic_old ++ le_enc 4 (Z.of_nat (length l)) ++ concat rows ++ rest). now apply firstn_app_exact. }
  assert (str_eqb (firstn 20 data) magic_new = false) as ->.
  { apply str_eqb_neq. intros H1. apply (f_equal (firstn 12)) in H1. rewrite firstn_firstn in H1. change (Nat.min 12 20) with 12%nat in H1. rewrite F12 in H1. discriminate. }
  rewrite F12, str_eqb_refl. cbn [negb andb].
  assert (data = magic_old ++ le_enc 4 (Z.of_nat (length l)) ++ concat rows ++ rest) as E' by (rewrite E; reflexivity).
  assert (read_word data 12 = Ok (Z.of_nat (length l))) as ->.
  { rewrite E'. change 12 with (Z.of_nat (length magic_old)). rewrite read_word_at by apply le_enc_length. f_equal. apply le_dec_enc_small. change (256 ^ Z.of_nat 4) with (2 ^ 32). lia. }
  cbn [bind]. rewrite Nat2Z.id. change (12 + 4 + 0) with (Z.of_nat (12 + 4)).
  replace (Z.of_nat (12 + 4) + Z.of_nat (length l) * 12) with (16 + 12 * Z.of_nat (length l)) by lia.
  replace (12 + 4)%nat with (length (magic_old ++ le_enc 4 (Z.of_nat (length l)))) by (rewrite !app_length, le_enc_length; reflexivity).
  apply (read_rows data false _ rows l F) with rest. rewrite E' at 1. now rewrite <- !app_assoc.
Qed.

(** Texts are never read past a final zero. *)
Lemma position_some p s : Exists (fun c => p c = true) s -> exists n, position p s = Some n.
Proof. induction 1 as [c s H|c s _ [n IH]]; cbn [position]; [rewrite H; eauto|]. destruct (p c); [eauto|]. rewrite IH. eauto. Qed.
Lemma read_str_zero data pos : 0 <= pos < Z.of_nat (length data) -> (exists d, data = d ++ [0]) -> exists s, read_str data pos = Ok s.
Proof.
  intros P [d ->]. unfold read_str. rewrite app_length in *. cbn [length] in *. destruct (Z.ltb_spec (Z.of_nat (length d + 1)) pos); [lia|].
  destruct (position_some (Z.eqb 0) (skipn (Z.to_nat pos) (d ++ [0]))) as [n ->]; [|eauto].
  apply Exists_exists. exists 0. split; [|reflexivity]. rewrite skipn_app. apply in_or_app. right. replace (Z.to_nat pos - length d)%nat with 0%nat by lia. now left.
Qed.
(** The positions an entry table refers to. *)
Definition word_at (data : list Z) (pos : Z) : Z := le_dec (slice (Z.to_nat pos) 4 data).
Definition stride (is_new : bool) : Z := if is_new then 24 else 12.
Definition positions_inside (data : list Z) (is_new : bool) (base pos : Z) (n : nat) : Prop :=
  forall i, 0 <= i < Z.of_nat n -> let at_ := pos + i * stride is_new in at_ + 12 <= Z.of_nat (length data) ->
    base + word_at data (at_ + 4) < Z.of_nat (length data) /\ base + word_at data (at_ + 8) < Z.of_nat (length data).
Lemma read_word_inv data pos : read_word data pos = Ok (word_at data pos) /\ pos + 4 <= Z.of_nat (length data) \/ read_word data pos = Err CEof /\ Z.of_nat (length data) < pos + 4.
Proof. unfold read_word, word_at. destruct (Z.leb_spec (pos + 4) (Z.of_nat (length data))); [left|right]; auto. Qed.
Lemma word_at_nonneg data pos : bytes_ok data = true -> 0 <= word_at data pos.
Proof. intros B. unfold word_at. apply le_dec_bound. now apply bytes_ok_slice. Qed.
Lemma read_entries_safe data is_new base n : bytes_ok data = true -> (exists d, data = d ++ [0]) -> 0 <= base -> forall pos, 0 <= pos -> positions_inside data is_new base pos n ->
  (exists l, read_entries n data is_new base pos = Ok l) \/ read_entries n data is_new base pos = Err CEof.
Proof.
  intros B Z0 Hb. induction n as [|n IH]; intros pos Hp H; [left; now exists []|]. cbn [read_entries].
  destruct (read_word_inv data pos) as [[-> L0]|[-> _]]; cbn [bind]; [|now right].
  destruct (read_word_inv data (pos + 4)) as [[-> L4]|[-> _]]; cbn [bind]; [|now right].
  destruct (read_word_inv data (pos + 8)) as [[-> L8]|[-> _]]; cbn [bind]; [|now right].
  destruct (H 0) as [Hk Hv]; [lia|lia|]. replace (pos + 0 * stride is_new) with pos in Hk, Hv by lia.
  pose proof (word_at_nonneg data (pos + 4) B). pose proof (word_at_nonneg data (pos + 8) B).
  destruct (read_str_zero data (base + word_at data (pos + 4))) as [k ->]; [lia|exact Z0|]. destruct (read_str_zero data (base + word_at data (pos + 8))) as [v ->]; [lia|exact Z0|]. cbn [bind].
  destruct (IH (pos + 12 + (if is_new then 12 else 0))) as [[l ->]| ->]; [destruct is_new; lia| |cbn [bind]; left; eauto|cbn [bind]; now right].
  intros i Hi. specialize (H (i + 1) ltac:(lia)). cbn zeta in *. replace (pos + 12 + (if is_new then 12 else 0) + i * stride is_new) with (pos + (i + 1) * stride is_new) by (unfold stride; destruct is_new; lia). exact H.
Qed.
(** Where a cache's table and its texts are. *)
Definition cache_inside (data : list Z) : Prop :=
  let is_new := str_eqb (firstn 20 data) (txt "glibc-ld.so.cache1.1") in
  let n := word_at data (if is_new then 20 else 12) in
  positions_inside data is_new (if is_new then 0 else 16 + 12 * n) (if is_new then 48 else 16) (Z.to_nat n).
Lemma parse_safe data : bytes_ok data = true -> (exists d, data = d ++ [0]) -> cache_inside data ->
  (exists l, parse_cache data = Ok l) \/ parse_cache data = Err CEof \/ parse_cache data = Err CInvalid.
Proof.
  intros B Z0 H. unfold parse_cache. destruct (Z.of_nat (length data) <? 20); [auto|]. destruct (utf8 (firstn 20 data)); cbn [negb]; [|auto].
  unfold cache_inside in H. fold magic_new in H. destruct (str_eqb (firstn 20 data) magic_new); cbn [negb andb] in *.
  - destruct (read_word_inv data 20) as [[-> L]|[-> _]]; cbn [bind]; [|auto].
    destruct (read_entries_safe data true 0 (Z.to_nat (word_at data 20)) B Z0 ltac:(lia) (20 + 4 + 24) ltac:(lia) H) as [[l ->]| ->]; eauto.
  - destruct (str_eqb (firstn 12 data) magic_old); cbn [negb]; [|auto].
    destruct (read_word_inv data 12) as [[-> L]|[-> _]]; cbn [bind]; [|auto]. pose proof (word_at_nonneg data 12 B).
    replace (12 + 4 + 0 + word_at data 12 * 12) with (16 + 12 * word_at data 12) by lia.
    destruct (read_entries_safe data false (16 + 12 * word_at data 12) (Z.to_nat (word_at data 12)) B Z0 ltac:(lia) (12 + 4 + 0) ltac:(lia) H) as [[l ->]| ->]; eauto.
Qed.

(** The first entry that names the library. *)
Lemma resolve_spec l lib s : stem_of lib s ->
  (forall v, cache_resolve l lib = Some v <-> exists pre e post, l = pre ++ e :: post /\ ce_value e = v /\ key_names s (ce_key e) /\ Forall (fun x => ~ key_names s (ce_key x)) pre) /\
  (cache_resolve l lib = None <-> Forall (fun x => ~ key_names s (ce_key x)) l).
Proof.
  intros S. apply stem_spec in S. unfold cache_resolve. rewrite S. clear S. induction l as [|e l [IH1 IH2]]; cbn [find].
  - split; [intros v; split; [discriminate|intros ([|] & e & post & E & _); discriminate]|split; [constructor|reflexivity]].
  - destruct (cache_matches s (ce_key e)) eqn:M.
    + apply cache_matches_spec in M. split.
      * intros v. split.
        -- intros E. apply some_inj in E. exists [], e, l. auto.
        -- intros ([|x pre] & e' & post & E & Ev & K & N); cbn [app] in E; injection E as -> E; [now rewrite Ev|]. apply Forall_inv in N. contradiction.
      * split; [discriminate|]. intros H. apply Forall_inv in H. contradiction.
    + assert (~ key_names s (ce_key e)) as N by (rewrite <- cache_matches_spec; congruence). split.
      * intros v. rewrite IH1. split.
        -- intros (pre & e' & post & -> & Ev & K & F). exists (e :: pre), e', post. repeat split; auto.
        -- intros ([|x pre] & e' & post & E & Ev & K & F); cbn [app] in E; injection E as -> E; [contradiction|]. exists pre, e', post. apply Forall_inv_tail in F. auto.
      * rewrite IH2. split; intros H; [now constructor|now apply Forall_inv_tail in H].
Qed.

(** * Targets *)

Lemma basename_iff t : is_basename t = true -> ~ In 47 t /\ t <> [].
Proof.
  unfold is_basename, file_name, components. destruct (split_at_spec 47 t) as [_ F].
  destruct (rev (filter _ (split_at 47 t))) as [|c r] eqn:E; [discriminate|]. destruct (str_eqb c [46; 46]); [discriminate|]. intros H. apply str_eqb_eq in H. subst c.
  assert (In t (filter (fun c => negb (str_eqb c []) && negb (str_eqb c [46])) (split_at 47 t))) as I by (apply in_rev; rewrite E; now left).
  apply filter_In in I as [I K]. rewrite Forall_forall in F. specialize (F t I). rewrite Forall_forall in F. split.
  - intros I2. now apply (F 47 I2).
  - intros ->. discriminate.
Qed.
Lemma basename_names t : ~ In 47 t -> t <> [] -> t <> [46] -> t <> [46; 46] -> is_basename t = true.
Proof. intros A B C D. unfold is_basename. destruct (file_name_last [] t A B C D) as [_ ->]. apply str_eqb_refl. Qed.

Lemma target_path t maps cache : In 47 t -> resolve_target t maps cache = Ok t.
Proof. intros I. unfold resolve_target. destruct (is_basename t) eqn:E; [|reflexivity]. apply basename_iff in E. tauto. Qed.
Lemma target_maps t maps cache p : is_basename t = true -> find_library maps t = Some (Some p) -> resolve_target t (Some maps) cache = Ok p.
Proof. intros B F. unfold resolve_target, resolve_basename. now rewrite B, F. Qed.
Lemma target_cache t maps l : is_basename t = true -> match maps with Some m => find_library m t = Some None | None => True end ->
  resolve_target t maps (Ok l) = match cache_resolve l t with Some p => Ok p | None => Err TInvalid end.
Proof. intros B F. unfold resolve_target, resolve_basename. rewrite B. destruct maps; [now rewrite F|reflexivity]. Qed.

(** * Witnesses *)

Lemma forall2_repeat {A B} (R : A -> B -> Prop) x y n : R x y -> Forall2 R (repeat x n) (repeat y n).
Proof. intros H. induction n; constructor; auto. Qed.
Lemma old_200 : exists data l, old_cache data l /\ parse_cache data = Err CInvalid.
Proof.
  exists (txt "ld.so-1.7.0" ++ 0 :: le_enc 4 200 ++ concat (repeat (repeat 0 12) 200) ++ [0]), (repeat {| ce_key := []; ce_value := []; ce_flags := 0 |} 200).
  split; [|vm_compute; reflexivity]. exists (repeat (repeat 0 12) 200), [0]. split; [vm_compute; reflexivity|]. split; [vm_compute; reflexivity|]. split; [rewrite repeat_length; reflexivity|].
  apply forall2_repeat. assert (forall data, data = txt "ld.so-1.7.0" ++ 0 :: le_enc 4 200 ++ concat (repeat (repeat 0 12) 200) ++ [0] ->
    string_at data (16 + 12 * Z.of_nat (length (repeat {| ce_key := []; ce_value := []; ce_flags := 0 |} 200)) + 0) []) as S.
  { intros data ->. split; [rewrite repeat_length; lia|]. split; [constructor|]. exists (txt "ld.so-1.7.0" ++ 0 :: le_enc 4 200 ++ concat (repeat (repeat 0 12) 200)), [].
    split; [now rewrite <- !app_assoc; cbn [app]; rewrite <- !app_assoc|]. vm_compute. reflexivity. }
  exists 0, 0, []. split; [lia|]. split; [lia|]. split; [cbn [ce_flags]; lia|]. split; [reflexivity|]. split; [reflexivity|]. split; apply S; reflexivity.
Qed.
Lemma new_one : exists data l, new_cache data l /\ length l = 1%nat.
Proof.
  exists (txt "glibc-ld.so.cache1.1" ++ le_enc 4 1 ++ repeat 0 24 ++ (le_enc 4 3 ++ le_enc 4 72 ++ le_enc 4 74 ++ repeat 0 12) ++ [97; 0; 98; 0]), [{| ce_key := [97]; ce_value := [98]; ce_flags := 3 |}].
  split; [|reflexivity]. exists (repeat 0 24), [le_enc 4 3 ++ le_enc 4 72 ++ le_enc 4 74 ++ repeat 0 12], [97; 0; 98; 0]. split; [reflexivity|]. split; [reflexivity|]. split; [reflexivity|].
  split; [reflexivity|]. constructor; [|constructor]. exists 72, 74, (repeat 0 12). split; [lia|]. split; [lia|]. split; [cbn [ce_flags]; lia|]. split; [reflexivity|]. split; [reflexivity|].
  split; (split; [lia|]; split; [repeat constructor; lia|]).
  - exists (txt "glibc-ld.so.cache1.1" ++ le_enc 4 1 ++ repeat 0 24 ++ (le_enc 4 3 ++ le_enc 4 72 ++ le_enc 4 74 ++ repeat 0 12)), [98; 0]. split; reflexivity.
  - exists (txt "glibc-ld.so.cache1.1" ++ le_enc 4 1 ++ repeat 0 24 ++ (le_enc 4 3 ++ le_enc 4 72 ++ le_enc 4 74 ++ repeat 0 12) ++ [97; 0]), []. split; reflexivity.
Qed.
Lemma word_check w : match w with [] => false | _ => forallb (fun c => negb (is_aws c)) w end = true -> word w.
Proof.
  destruct w as [|x w]; [discriminate|]. intros H. split; [discriminate|]. rewrite forallb_forall in H. apply Forall_forall. intros c I. specialize (H c I).
  apply is_aws_not. now apply negb_true_iff.
Qed.
Lemma libc_line : exists e, map_line e (txt "7f0000000000-7f0000001000 r-xp 00000000 08:01 77 /lib/libc.so.6") /\ me_path e = Some (txt "/lib/libc.so.6") /\ me_inode e = 77.
Proof.
  exists {| me_start := 139637976727552; me_end := 139637976731648; me_perms := txt "r-xp"; me_offset := 0; me_dev := txt "08:01"; me_inode := 77; me_path := Some (txt "/lib/libc.so.6") |}.
  split; [|split; reflexivity]. exists (txt "7f0000000000"), (txt "7f0000001000"), (txt "00000000"), []. cbn [me_start me_end me_perms me_offset me_dev me_inode me_path].
  split; [exists 11%nat; split; [lia|]; split; [vm_compute; split; congruence|reflexivity]|].
  split; [exists 11%nat; split; [lia|]; split; [vm_compute; split; congruence|reflexivity]|].
  split; [exists 7%nat; split; [lia|]; split; [vm_compute; split; congruence|reflexivity]|].
  split; [apply word_check; reflexivity|]. split; [apply word_check; reflexivity|]. split; [lia|]. split; [constructor|].
  split; [|reflexivity]. split; [cbn; intuition lia|]. exists 47, 54, (txt "lib/libc.so."). unfold blank. split; [lia|]. split; [lia|]. right. reflexivity.
Qed.
