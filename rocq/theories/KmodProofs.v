(** Proofs about finding kernel modules: the pieces. *)
From Coq Require Import String.
From Verif Require Import Base Text TextParse TextSplit LogModel LogFmtProofs KmodModel KmodSpec.
Local Open Scope Z_scope.

(** * Text *)

Lemma strip_prefix_iff p s r : strip_prefix p s = Some r <-> s = p ++ r.
Proof.
  unfold strip_prefix. split.
  - destruct (starts_with p s) eqn:E; [|discriminate]. intros H. apply some_inj in H. subst r.
    apply starts_with_iff in E as [r ->]. rewrite skipn_app, skipn_all, Nat.sub_diag. reflexivity.
  - intros ->. rewrite starts_with_app, skipn_app, skipn_all, Nat.sub_diag. reflexivity.
Qed.
Lemma strip_prefix_none p s : strip_prefix p s = None <-> forall r, s <> p ++ r.
Proof.
  split.
  - intros H r E. apply (proj2 (strip_prefix_iff p s r)) in E. congruence.
  - intros H. destruct (strip_prefix p s) as [r|] eqn:E; [|reflexivity]. apply strip_prefix_iff in E. destruct (H r E).
Qed.
Lemma strip_suffix_iff p s r : strip_suffix p s = Some r <-> s = r ++ p.
Proof.
  unfold strip_suffix. split.
  - destruct (strip_prefix (rev p) (rev s)) as [q|] eqn:E; [|discriminate]. intros H. apply some_inj in H. subst r.
    apply strip_prefix_iff in E. rewrite <- (rev_involutive s), E, rev_app_distr, rev_involutive. reflexivity.
  - intros ->. rewrite rev_app_distr, (proj2 (strip_prefix_iff _ _ (rev r)) eq_refl), rev_involutive. reflexivity.
Qed.
Lemma cons_inj {A} (a b : A) l m : a :: l = b :: m -> a = b /\ l = m.
Proof. intros H. split; [exact (f_equal (hd a) H)|exact (f_equal (@tl A) H)]. Qed.
Lemma once_some x s : forall a b, once x s = Some (a, b) <-> s = a ++ x :: b /\ ~ In x a.
Proof.
  induction s as [|c s IH]; intros a b; cbn [once].
  - split; [discriminate|]. intros [E _]. now destruct a.
  - destruct (Z.eqb_spec c x) as [-> | Ne].
    + split.
      * intros H. apply some_inj in H. apply pair_equal_spec in H as [<- <-]. split; [reflexivity|intros []].
      * intros [E N]. destruct a as [|y a]; cbn [app] in E; apply cons_inj in E as [E1 E2]; [now subst|]. subst y. destruct N. now left.
    + destruct (once x s) as [[a' b']|] eqn:O.
      * split.
        -- intros H. apply some_inj in H. apply pair_equal_spec in H as [<- <-]. destruct (proj1 (IH a' b') eq_refl) as [-> N].
           split; [reflexivity|]. intros [E | I]; [now apply Ne|exact (N I)].
        -- intros [E N]. destruct a as [|y a]; cbn [app] in E; apply cons_inj in E as [E1 E2]; [subst; contradiction|]. subst y.
           assert (Some (a', b') = Some (a, b)) as Q by (apply IH; split; [exact E2|]; intros I; apply N; now right).
           apply some_inj in Q. apply pair_equal_spec in Q as [-> ->]. reflexivity.
      * split; [discriminate|]. intros [E N]. destruct a as [|y a]; cbn [app] in E; apply cons_inj in E as [E1 E2]; [subst; contradiction|].
        assert (None = Some (a, b)) as Q by (apply IH; split; [exact E2|]; intros I; apply N; now right). discriminate Q.
Qed.
Lemma ronce_some x s a b : ronce x s = Some (a, b) <-> s = a ++ x :: b /\ ~ In x b.
Proof.
  unfold ronce. split.
  - destruct (once x (rev s)) as [[p q]|] eqn:O; [|discriminate]. intros H. apply some_inj in H. apply pair_equal_spec in H as [<- <-].
    apply once_some in O as [E N]. split; [|rewrite <- in_rev; exact N].
    rewrite <- (rev_involutive s), E, rev_app_distr. cbn [rev]. rewrite <- app_assoc. reflexivity.
  - intros [-> N]. replace (once x (rev (a ++ x :: b))) with (Some (rev b, rev a)); [now rewrite !rev_involutive|].
    symmetry. apply once_some. split; [rewrite rev_app_distr; cbn [rev]; rewrite <- app_assoc; reflexivity|]. rewrite <- in_rev. exact N.
Qed.

(** * Names of files *)

Lemma module_of_iff n m c : module_of n = Some (m, c) <-> n = file_name_of m c.
Proof.
  unfold module_of, file_name_of. split.
  - intros H. destruct (ronce 46 n) as [[a b]|] eqn:R.
    + apply ronce_some in R as [-> _].
      destruct (str_eqb b (txt "xz")) eqn:X; [|destruct (str_eqb b (txt "zst")) eqn:Z].
      * apply str_eqb_eq in X. subst b. destruct (strip_suffix (txt ".ko") a) as [q|] eqn:S; [|discriminate H].
        apply some_inj in H. apply pair_equal_spec in H as [-> <-]. apply strip_suffix_iff in S. subst a. rewrite <- app_assoc. reflexivity.
      * apply str_eqb_eq in Z. subst b. destruct (strip_suffix (txt ".ko") a) as [q|] eqn:S; [|discriminate H].
        apply some_inj in H. apply pair_equal_spec in H as [-> <-]. apply strip_suffix_iff in S. subst a. rewrite <- app_assoc. reflexivity.
      * destruct (strip_suffix (txt ".ko") (a ++ 46 :: b)) as [q|] eqn:S; [|discriminate H].
        apply some_inj in H. apply pair_equal_spec in H as [-> <-]. apply strip_suffix_iff in S. rewrite S, app_nil_r. reflexivity.
    + destruct (strip_suffix (txt ".ko") n) as [q|] eqn:S; [|discriminate H].
      apply some_inj in H. apply pair_equal_spec in H as [-> <-]. apply strip_suffix_iff in S. rewrite S, app_nil_r. reflexivity.
  - intros ->. destruct c.
    + rewrite app_nil_r. replace (ronce 46 (m ++ txt ".ko")) with (Some (m, txt "ko")).
      * replace (str_eqb (txt "ko") (txt "xz")) with false by reflexivity. replace (str_eqb (txt "ko") (txt "zst")) with false by reflexivity.
        rewrite (proj2 (strip_suffix_iff (txt ".ko") _ m) eq_refl). reflexivity.
      * symmetry. apply ronce_some. split; [reflexivity|]. cbn. lia.
    + replace (ronce 46 (m ++ txt ".ko" ++ txt ".xz")) with (Some (m ++ txt ".ko", txt "xz")).
      * replace (str_eqb (txt "xz") (txt "xz")) with true by reflexivity. rewrite (proj2 (strip_suffix_iff (txt ".ko") _ m) eq_refl). reflexivity.
      * symmetry. apply ronce_some. split; [rewrite <- app_assoc; reflexivity|]. cbn. lia.
    + replace (ronce 46 (m ++ txt ".ko" ++ txt ".zst")) with (Some (m ++ txt ".ko", txt "zst")).
      * replace (str_eqb (txt "zst") (txt "xz")) with false by reflexivity. replace (str_eqb (txt "zst") (txt "zst")) with true by reflexivity.
        rewrite (proj2 (strip_suffix_iff (txt ".ko") _ m) eq_refl). reflexivity.
      * symmetry. apply ronce_some. split; [rewrite <- app_assoc; reflexivity|]. cbn. lia.
Qed.
Lemma module_of_none n : module_of n = None -> forall m c, n <> file_name_of m c.
Proof. intros H m c E. apply (proj2 (module_of_iff n m c)) in E. congruence. Qed.
Lemma rev_last {A} (l : list A) x r : rev l = x :: r <-> l = rev r ++ [x].
Proof.
  split; intros H.
  - rewrite <- (rev_involutive l), H. reflexivity.
  - rewrite H, rev_app_distr, rev_involutive. reflexivity.
Qed.

(** * UTF-8 *)

Lemma utf8_cat n : forall a b, (length a <= n)%nat -> utf8 a = true -> utf8 b = true -> utf8 (a ++ b) = true.
Proof.
  induction n as [|n IH]; intros a b L A B; destruct a as [|w a]; try exact B; cbn [length] in L; [lia|].
  cbn [utf8 app] in A |- *. destruct (cont 0 127 w); [apply IH; [lia|exact A|exact B]|].
  destruct a as [|x a]; [discriminate A|]. cbn [app]. cbn [length] in L.
  destruct (cont 194 223 w && cont 128 191 x); [apply IH; [lia|exact A|exact B]|].
  destruct a as [|y a]; [discriminate A|]. cbn [app]. cbn [length] in L.
  destruct (((w =? 224) && cont 160 191 x || cont 225 236 w && cont 128 191 x || (w =? 237) && cont 128 159 x || cont 238 239 w && cont 128 191 x) && cont 128 191 y);
    [apply IH; [lia|exact A|exact B]|].
  destruct a as [|z a]; [discriminate A|]. cbn [app]. cbn [length] in L.
  match type of A with (if ?b then _ else _) = true => destruct b; [apply IH; [lia|exact A|exact B]|discriminate A] end.
Qed.
Lemma utf8_app a b : utf8 a = true -> utf8 b = true -> utf8 (a ++ b) = true.
Proof. exact (utf8_cat (length a) a b (le_n _)). Qed.

(** * depmod *)

Lemma find_modinfo_iff l d : find_modinfo l = Ok (Some d) <-> modinfo_is l d.
Proof.
  split.
  - induction l as [|[[n|] x] l IH]; cbn [find_modinfo]; intros H; try discriminate H.
    destruct (str_eqb n (txt ".modinfo")) eqn:E.
    + apply str_eqb_eq in E. apply ok_inj in H. subst. constructor.
    + apply modinfo_later; [intros ->; rewrite str_eqb_refl in E; discriminate E|exact (IH H)].
  - intros H. induction H as [d l|n x d l N H IH]; cbn [find_modinfo].
    + rewrite str_eqb_refl. reflexivity.
    + destruct (str_eqb n (txt ".modinfo")) eqn:E; [apply str_eqb_eq in E; contradiction|exact IH].
Qed.

Definition the_aliases (l : list str) : list str := flat_map (fun e => match strip_prefix (txt "alias=") e with Some a => [a] | None => [] end) l.
Lemma aliases_iff l : forall al, aliases_are l al <-> al = the_aliases l.
Proof.
  induction l as [|x l IH]; intros al.
  - split; [intros H; inversion H; reflexivity|intros ->; constructor].
  - unfold the_aliases. cbn [flat_map]. fold (the_aliases l). destruct (strip_prefix (txt "alias=") x) as [a|] eqn:S.
    + apply strip_prefix_iff in S. subst x. cbn [app]. split.
      * intros H. inversion H as [|a' p l' H' E1 E2|x p l' N H' E1 E2].
        -- subst. f_equal. apply IH. exact H'.
        -- destruct (N a eq_refl).
      * intros ->. constructor. apply IH. reflexivity.
    + pose proof (proj1 (strip_prefix_none _ _) S) as N. cbn [app]. split.
      * intros H. inversion H as [|a' p l' H' E1 E2|x' p l' N' H' E1 E2].
        -- symmetry in E1. destruct (N _ E1).
        -- apply IH. exact H'.
      * intros ->. apply no_alias; [exact N|]. apply IH. reflexivity.
Qed.
Lemma filtered_aliases l : the_aliases (filter (fun e => match e with [] => false | _ => true end) l) = the_aliases l.
Proof. induction l as [|[|c x] l IH]; [reflexivity| |]; unfold the_aliases in *; cbn [filter flat_map]; rewrite IH; reflexivity. Qed.
Lemma filtered_utf8 l : forallb utf8 (filter (fun e => match e with [] => false | _ => true end) l) = forallb utf8 l.
Proof. induction l as [|[|c x] l IH]; [reflexivity| |]; cbn [filter forallb]; rewrite IH; reflexivity. Qed.
Lemma flat_lines l m : flat_map (fun e => match strip_prefix (txt "alias=") e with Some a => txt "alias " ++ a ++ [32] ++ m ++ [10] | None => [] end) l =
  flat_map alias_line (map (fun a => (a, m)) (the_aliases l)).
Proof.
  induction l as [|x l IH]; [reflexivity|]. unfold the_aliases. cbn [flat_map]. fold (the_aliases l). rewrite IH.
  destruct (strip_prefix (txt "alias=") x) as [a|]; reflexivity.
Qed.
Lemma write_aliases_iff d m o : write_aliases d m = Some o <->
  Forall (fun p => utf8 p = true) (split_at 0 d) /\ o = flat_map alias_line (map (fun a => (a, m)) (the_aliases (split_at 0 d))).
Proof.
  unfold write_aliases, modinfo_entries. cbv zeta. rewrite filtered_utf8.
  rewrite Forall_forall, <- forallb_forall. destruct (forallb utf8 (split_at 0 d)).
  - rewrite flat_lines, filtered_aliases. split; [intros H; apply some_inj in H; auto|intros [_ ->]; reflexivity].
  - split; [discriminate|intros [X _]; discriminate X].
Qed.
Lemma read_aliases_iff V contents m o : read_aliases V contents m = Ok o <->
  exists secs d, v_sections V contents = Some secs /\ modinfo_is secs d /\ Forall (fun p => utf8 p = true) (split_at 0 d) /\
    o = flat_map alias_line (map (fun a => (a, m)) (the_aliases (split_at 0 d))).
Proof.
  unfold read_aliases. split.
  - destruct (v_sections V contents) as [l|]; [|discriminate]. destruct (find_modinfo l) as [[d|]|] eqn:F; try discriminate.
    cbn [bind]. destruct (write_aliases d m) as [w|] eqn:W; [|discriminate]. intros H. apply ok_inj in H. subst w.
    apply write_aliases_iff in W as [U W]. apply find_modinfo_iff in F. exists l, d. auto.
  - intros (l & d & -> & M & U & E). apply find_modinfo_iff in M. rewrite M. cbn [bind].
    rewrite (proj2 (write_aliases_iff d m o) (conj U E)). reflexivity.
Qed.

Lemma path_name e name r : rev (e_path e) = name :: r -> exists dirs, e_path e = dirs ++ [name].
Proof. intros H. apply rev_last in H. eauto. Qed.

Lemma depmod_sound V tree : forall out, depmod V tree = (out, None) -> exists l, listed V tree l /\ out = flat_map alias_line l.
Proof.
  induction tree as [|e tree IH]; intros out H; cbn [depmod] in H.
  - apply pair_equal_spec in H as [<- _]. exists []. split; [constructor|reflexivity].
  - destruct (e_file e) eqn:F; cbn [negb] in H.
    2: { destruct (IH _ H) as (l & L & E). exists l. split; [now apply listed_dir|exact E]. }
    destruct (rev (e_path e)) as [|name r] eqn:R; [discriminate H|]. destruct (path_name _ _ _ R) as (dirs & P).
    destruct (utf8 name) eqn:U; cbn [negb] in H; [|discriminate H].
    assert (name_ok e) as No by (exists dirs, name; auto).
    destruct (module_of name) as [[m c]|] eqn:M.
    + apply module_of_iff in M. subst name.
      destruct (v_unpack V c (e_data e)) as [contents|] eqn:C; [|discriminate H].
      destruct (read_aliases V contents m) as [o|x] eqn:Ra; [|discriminate H].
      destruct (depmod V tree) as [rest q] eqn:D. apply pair_equal_spec in H as [<- ->].
      destruct (IH _ eq_refl) as (l & L & ->). apply read_aliases_iff in Ra as (secs & d & S & Mi & Uf & ->).
      exists (map (fun a => (a, m)) (the_aliases (split_at 0 d)) ++ l). split; [|now rewrite flat_map_app].
      apply (listed_module V e m c); [split; [exact F|eauto]|exact No| |exact L].
      exists contents, secs, d. repeat (split; [assumption|]). apply aliases_iff. reflexivity.
    + destruct (IH _ H) as (l & L & E). exists l. split; [|exact E]. apply listed_other; [exact F|exact No| |exact L].
      intros m c (_ & dirs' & P'). rewrite P in P'. apply app_inj_tail in P' as [_ P']. exact (module_of_none _ M m c P').
Qed.
Lemma depmod_complete V tree l : listed V tree l -> depmod V tree = (flat_map alias_line l, None).
Proof.
  intros H. induction H as [|e t l F H IH|e t l F (dirs & n & P & U) N H IH|e m c al t l (F & dirs & P) (dirs' & n & P' & U) (contents & secs & d & C & S & M & Uf & A) H IH].
  - reflexivity.
  - cbn [depmod]. rewrite F. exact IH.
  - cbn [depmod]. rewrite F, P, rev_app_distr. cbn [negb rev app]. rewrite U. cbn [negb].
    destruct (module_of n) as [[m c]|] eqn:M; [|exact IH]. apply module_of_iff in M. subst n. destruct (N m c). split; [exact F|eauto].
  - rewrite P in P'. apply app_inj_tail in P' as [_ <-]. cbn [depmod]. rewrite F, P, rev_app_distr. cbn [negb rev app]. rewrite U. cbn [negb].
    rewrite (proj2 (module_of_iff _ m c) eq_refl). unfold contents_of in C. rewrite C.
    apply aliases_iff in A. subst al.
    rewrite (proj2 (read_aliases_iff V contents m (flat_map alias_line (map (fun a => (a, m)) (the_aliases (split_at 0 d)))))).
    + rewrite IH, flat_map_app. reflexivity.
    + exists secs, d. auto.
Qed.
