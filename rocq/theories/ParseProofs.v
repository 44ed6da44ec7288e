(** Tables, symbols and sections for C97. *)
From Coq Require Import String Permutation.
From Verif Require Import Base Text Insn LinkModel BtfTypes BtfModel BtfExt BtfSanitize ExternModel ObjModel ObjSpec ObjProofs ObjProofs2 ObjProofs3 ObjProofs4 LoaderModel ParseModel ParseSpec.
Local Open Scope Z_scope.

Lemma bind_ok {E A B} (r : res E A) (f : A -> res E B) b : bind r f = Ok b <-> exists a, r = Ok a /\ f a = Ok b.
Proof. destruct r as [a|x]; cbn [bind]; split; [eauto|intros (a' & H & H'); apply ok_inj in H; now subst|discriminate|intros (a & H & _); discriminate H]. Qed.

(** * Tables *)
Section Tables.
Context {K V : Type} (eqb : K -> K -> bool) (E : forall a b, eqb a b = true <-> a = b).
Lemma eqb_no a b : a <> b -> eqb a b = false.
Proof. intros N. destruct (eqb a b) eqn:H; [apply E in H; contradiction|reflexivity]. Qed.
Lemma put_keys k v (l : list (K * V)) x : In x (map fst (put eqb k v l)) <-> x = k \/ In x (map fst l).
Proof.
  induction l as [|[k' v'] l IH]; cbn [put map fst In]; [firstorder congruence|]. destruct (eqb k k') eqn:H; cbn [map fst In].
  - apply E in H. subst k'. firstorder congruence.
  - rewrite IH. tauto.
Qed.
Lemma put_nodup k v (l : list (K * V)) : NoDup (map fst l) -> NoDup (map fst (put eqb k v l)).
Proof.
  induction l as [|[k' v'] l IH]; cbn [put map fst]; intros H; [repeat constructor; auto|].
  apply NoDup_cons_iff in H as [H1 H2]. destruct (eqb k k') eqn:Q; cbn [map fst]; constructor; auto.
  - apply E in Q. now subst k'.
  - rewrite put_keys. intros [-> | X]; [|contradiction]. rewrite (proj2 (E k k) eq_refl) in Q. discriminate Q.
Qed.
Lemma put_in k v (l : list (K * V)) : NoDup (map fst l) -> forall k' v', In (k', v') (put eqb k v l) <-> k' = k /\ v' = v \/ k' <> k /\ In (k', v') l.
Proof.
  induction l as [|[k1 v1] l IH]; cbn [put map fst]; intros H k' v'.
  - cbn [In]. split; [intros [X|[]]; injection X as <- <-; auto|intros [[-> ->]|[_ []]]; auto].
  - apply NoDup_cons_iff in H as [H1 H2]. destruct (eqb k k1) eqn:Q; cbn [In].
    + apply E in Q. subst k1. split.
      * intros [X|X]; [injection X as <- <-; auto|]. right. split; [|auto]. intros ->. apply H1. now apply (in_map fst) in X.
      * intros [[-> ->]|[N [X|X]]]; auto. injection X as <- <-. contradiction.
    + rewrite (IH H2). split.
      * intros [X|[X|[X Y]]]; auto. injection X as <- <-. right. split; [|auto]. intros ->. rewrite (proj2 (E k k) eq_refl) in Q. discriminate Q.
      * intros [X|[N [X|X]]]; auto.
Qed.
Lemma puts_nodup new : forall l : list (K * V), NoDup (map fst l) -> NoDup (map fst (puts eqb new l)).
Proof. induction new as [|[k v] new IH]; intros l H; cbn [puts]; [exact H|]. apply IH, put_nodup, H. Qed.
Lemma last_cons (l : list (K * V)) k0 v0 k v : (last_of ((k0, v0) :: l) k v <-> last_of l k v \/ k = k0 /\ v = v0 /\ ~ In k (map fst l)).
Proof.
  split.
  - intros (a & b & H & N). destruct a as [|[ka va] a]; cbn in H.
    + apply (f_equal (fun x => match x with [] => (k0, v0, l) | (p, q) :: r => (p, q, r) end)) in H. cbn in H. injection H as -> -> ->. right. auto.
    + injection H as -> -> ->. left. exists a, b. auto.
  - intros [(a & b & -> & N)|(-> & -> & N)]; [exists ((k0, v0) :: a), b; auto|exists [], l; auto].
Qed.
Lemma last_in (l : list (K * V)) k v : last_of l k v -> In (k, v) l.
Proof. intros (a & b & -> & _). rewrite in_app_iff. right. now left. Qed.
Lemma puts_in new : forall l : list (K * V), NoDup (map fst l) -> forall k v, In (k, v) (puts eqb new l) <-> last_of new k v \/ ~ In k (map fst new) /\ In (k, v) l.
Proof.
  induction new as [|[k0 v0] new IH]; intros l H k v; cbn [puts].
  - split; [intros X; right; split; [intros []|exact X]|intros [(a & b & X & _)|[_ X]]; [destruct a; discriminate X|exact X]].
  - rewrite (IH _ (put_nodup k0 v0 l H)), (put_in k0 v0 l H), last_cons. cbn [map fst In]. split.
    + intros [X|[X [[-> ->]|[Y Z]]]]; [tauto| |]; [left; right; auto|]. right. split; [|exact Z]. intros [Q|Q]; [now apply Y|contradiction].
    + intros [[X|(-> & -> & X)]|[X Y]]; [tauto| |]; right; (split; [tauto|]); [left; auto|right; split; [intros ->; apply X; now left|exact Y]].
Qed.
Lemma table_in (new : list (K * V)) k v : In (k, v) (puts eqb new []) <-> last_of new k v.
Proof. rewrite (puts_in new [] (NoDup_nil _)). split; [intros [X|[_ []]]; exact X|auto]. Qed.
Lemma table_nodup (new : list (K * V)) : NoDup (map fst (puts eqb new [])).
Proof. apply puts_nodup. constructor. Qed.
Lemma last_some (dec : forall a b : K, {a = b} + {a <> b}) (l : list (K * V)) k : In k (map fst l) -> exists v, last_of l k v.
Proof.
  induction l as [|[k0 v0] l IH]; cbn [map fst In]; [intros []|]. intros H. destruct (in_dec dec k (map fst l)) as [I|N].
  - destruct (IH I) as (v & X). exists v. apply last_cons. auto.
  - destruct H as [<-|H]; [|contradiction]. exists v0. apply last_cons. auto.
Qed.
Lemma last_fun (l : list (K * V)) k v v' : last_of l k v -> last_of l k v' -> v = v'.
Proof. intros X Y. apply table_in in X, Y. pose proof (table_nodup l) as N. pose proof (assoc_nodup eqb _ _ _ E N X) as P. rewrite (assoc_nodup eqb _ _ _ E N Y) in P. now injection P as ->. Qed.
Lemma last_unique (l : list (K * V)) k v : NoDup (map fst l) -> In (k, v) l -> last_of l k v.
Proof.
  intros N I. apply in_split in I as (a & b & ->). exists a, b. split; [reflexivity|]. rewrite map_app in N. cbn [map fst] in N.
  apply NoDup_remove_2 in N. rewrite in_app_iff in N. tauto.
Qed.
(** Entries that agree whenever their keys do. *)
Lemma last_agree (dec : forall a b : K, {a = b} + {a <> b}) (l : list (K * V)) k v :
  (forall v', In (k, v') l -> v' = v) -> In (k, v) l -> last_of l k v.
Proof. intros A I. destruct (last_some dec l k (in_map fst _ _ I)) as (v' & L). rewrite <- (A v' (last_in _ _ _ L)). exact L. Qed.
Lemma puts_keys new : forall (l : list (K * V)) x, In x (map fst (puts eqb new l)) <-> In x (map fst new) \/ In x (map fst l).
Proof.
  induction new as [|[k v] new IH]; intros l x; cbn [puts map fst In]; [tauto|]. rewrite IH, put_keys. split; [intros [H|[->|H]]|intros [[H|H]|H]]; auto.
Qed.
Lemma assoc_none k (l : list (K * V)) : assoc eqb k l = None <-> ~ In k (map fst l).
Proof.
  induction l as [|[k' v'] l IH]; cbn [assoc map fst In]; [tauto|]. destruct (eqb k k') eqn:H.
  - apply E in H. subst k'. split; [discriminate|intros X; exfalso; auto].
  - rewrite IH. split; [intros X [Y|Y]; [|auto]|tauto]. subst k'. rewrite (proj2 (E k k) eq_refl) in H. discriminate H.
Qed.
Lemma table_none (new : list (K * V)) k : assoc eqb k (puts eqb new []) = None <-> ~ In k (map fst new).
Proof. rewrite assoc_none, puts_keys. cbn [map In]. tauto. Qed.
Lemma table_some (new : list (K * V)) k v : assoc eqb k (puts eqb new []) = Some v <-> last_of new k v.
Proof.
  rewrite <- table_in. split; [apply (assoc_in eqb k _ v E)|]. intros I. exact (assoc_nodup eqb k _ v E (table_nodup new) I).
Qed.
End Tables.

Lemma natz_eqb a b : nat_z_eqb a b = true <-> a = b.
Proof.
  unfold nat_z_eqb. destruct a as [x y], b as [z w]. cbn [fst snd]. rewrite andb_true_iff, Nat.eqb_eq, Z.eqb_eq.
  split; [intros [-> ->]; reflexivity|intros H; injection H as -> ->; auto].
Qed.
Definition name_dec : forall a b : list Z, {a = b} + {a <> b} := list_eq_dec Z.eq_dec.
Definition natz_dec : forall a b : nat * Z, {a = b} + {a <> b}.
Proof. decide equality; [apply Z.eq_dec|apply Nat.eq_dec]. Defined.

(** * Symbols *)
Lemma numbered_in e i s : In (i, s) (numbered e) <-> symbol_is e i s.
Proof.
  unfold numbered, symbol_is, syms. 
  assert (forall l n, In (i, s) (combine (seq n (length (map es_sym l))) (map es_sym l)) <-> (n <= i)%nat /\ exists x, nth_error l (i - n) = Some x /\ es_sym x = s) as G.
  { induction l as [|x l IH]; intros n; cbn [map length seq combine In].
    - split; [intros []|intros (_ & y & H & _)]. destruct (i - n)%nat; discriminate H.
    - rewrite IH. split.
      + intros [H|(H & y & H1 & H2)]; [injection H as -> <-; split; [lia|]; exists x; now rewrite Nat.sub_diag|].
        split; [lia|]. exists y. split; [|exact H2]. now replace (i - n)%nat with (S (i - S n)) by lia.
      + intros (H & y & H1 & H2). destruct (Nat.eq_dec n i) as [<-|N].
        * left. rewrite Nat.sub_diag in H1. apply some_inj in H1. now subst.
        * right. split; [lia|]. exists y. split; [|exact H2]. now replace (i - n)%nat with (S (i - S n)) in H1 by lia. }
  rewrite G. rewrite Nat.sub_0_r. split; [tauto|]. intros H. split; [lia|exact H].
Qed.
Lemma here_in e sec i s : In (i, s) (by_section e (os_index sec)) <-> lies_in e sec i s.
Proof.
  unfold by_section, lies_in, in_section. rewrite filter_In, numbered_in. cbn [snd]. destruct (s_section s) as [j|].
  - rewrite Nat.eqb_eq. split; [intros [H ->]; auto|intros [H X]; injection X as ->; auto].
  - split; [intros [_ H]; discriminate H|intros [_ H]; discriminate H].
Qed.
Lemma symbol_fun e i s s' : symbol_is e i s -> symbol_is e i s' -> s = s'.
Proof. intros (x & H & <-) (y & H' & <-). rewrite H in H'. now injection H' as ->. Qed.
Lemma symbol_in e i s : symbol_is e i s -> exists x, In x (el_syms e) /\ es_sym x = s.
Proof. intros (x & H & <-). exists x. split; [exact (nth_error_In _ _ H)|reflexivity]. Qed.
Lemma symbol_words e i s : regular e -> symbol_is e i s -> sym_ok s.
Proof. intros R H. destruct (symbol_in _ _ _ H) as (x & I & <-). exact (rg_words e R x I). Qed.
Lemma numbered_nodup e : NoDup (map fst (numbered e)).
Proof.
  unfold numbered. generalize (syms e). intros l. generalize 0%nat. induction l as [|x l IH]; intros n; cbn [length seq combine map fst]; constructor; [|apply IH].
  intros H. apply in_map_iff in H as ((j & s) & <- & H). apply in_combine_l in H. apply in_seq in H. cbn in H. lia.
Qed.

(** * Sections *)
Lemma named_first e n s : section_named n e = Some s <-> first_named e n s.
Proof.
  unfold section_named, first_named. induction (el_secs e) as [|x l IH]; cbn [find].
  - split; [discriminate|intros (a & b & H & _); destruct a; discriminate H].
  - destruct (str_eqb (os_name x) n) eqn:Q.
    + apply str_eqb_eq in Q. split.
      * intros H. apply some_inj in H. subst s. exists [], l. auto.
      * intros (a & b & H & H1 & H2). destruct a as [|y a]; cbn in H; injection H as -> ->; [reflexivity|]. inversion H2. contradiction.
    + assert (os_name x <> n) as N by (intros X; apply str_eqb_eq in X; rewrite X in Q; discriminate Q). rewrite IH. split.
      * intros (a & b & -> & H1 & H2). exists (x :: a), b. auto.
      * intros (a & b & H & H1 & H2). destruct a as [|y a]; cbn in H; injection H as -> ->; [contradiction|]. exists a, b. split; [reflexivity|]. split; [exact H1|]. now inversion H2.
Qed.
Lemma named_none e n : section_named n e = None <-> none_named e n.
Proof.
  unfold section_named, none_named. induction (el_secs e) as [|x l IH]; cbn [find]; [split; [constructor|reflexivity]|].
  destruct (str_eqb (os_name x) n) eqn:Q.
  - apply str_eqb_eq in Q. split; [discriminate|intros H; inversion H; contradiction].
  - rewrite IH. split; [intros H; constructor; [|exact H]|intros H; now inversion H]. intros X. apply str_eqb_eq in X. rewrite X in Q. discriminate Q.
Qed.
Lemma others_in e sec : In sec (others e) <-> of_object e sec.
Proof.
  unfold others, of_object, is_btf_name. rewrite filter_In, negb_true_iff, orb_false_iff. 
  assert (forall a b : list Z, str_eqb a b = false <-> a <> b) as G.
  { intros a b. rewrite <- not_true_iff_false, str_eqb_eq. tauto. }
  rewrite !G. tauto.
Qed.
Lemma license_read e l : the_license e = Ok l <-> license_is e l.
Proof.
  unfold the_license, license_is. destruct (section_named (txt "license") e) as [s|] eqn:Q.
  - pose proof (proj1 (named_first _ _ _) Q) as F. split.
    + intros H. left. exists s. auto.
    + intros [(s' & F' & H)|[N _]]; [|apply named_none in N; congruence]. apply named_first in F'. congruence.
  - pose proof (proj1 (named_none _ _) Q) as F. split.
    + intros H. apply ok_inj in H. auto.
    + intros [(s' & F' & H)|[_ ->]]; [apply named_first in F'; congruence|reflexivity].
Qed.
Lemma version_read e v : the_version e = Ok v <-> version_is e v.
Proof.
  unfold the_version, version_is. destruct (section_named (txt "version") e) as [s|] eqn:Q.
  - pose proof (proj1 (named_first _ _ _) Q) as F. split.
    + intros H. left. exists s. auto.
    + intros [(s' & F' & H)|[N _]]; [|apply named_none in N; congruence]. apply named_first in F'. congruence.
  - pose proof (proj1 (named_none _ _) Q) as F. split.
    + intros H. apply ok_inj in H. auto.
    + intros [(s' & F' & H)|[_ ->]]; [apply named_first in F'; congruence|reflexivity].
Qed.
Lemma all_named_ok e : all_named e = Ok tt <-> symbols_named e.
Proof.
  unfold all_named, symbols_named, syms. destruct (forallb _ _) eqn:F.
  - split; [|reflexivity]. intros _ s I. rewrite forallb_forall in F. pose proof (F _ (in_map es_sym _ _ I)) as X. destruct (s_name (es_sym s)); [discriminate|discriminate X].
  - split; [discriminate|]. intros H. exfalso. apply not_true_iff_false in F. apply F. apply forallb_forall. intros s I. apply in_map_iff in I as (x & <- & I).
    pose proof (H x I) as X. destruct (s_name (es_sym x)); [reflexivity|contradiction].
Qed.

(** The steps of [parse]. *)
Lemma parse_steps e q : parse e = Ok q <->
  exists t l, the_license e = Ok (q_license q) /\ the_version e = Ok (q_version q) /\ all_named e = Ok tt /\ the_types e = Ok t /\
    mapM (parse_section e t) (others e) = Ok l /\ q_obj q = assemble e t l.
Proof.
  unfold parse. destruct (the_license e) as [lic|x]; cbn [bind]; [|split; [discriminate|intros (t & l & H & _); discriminate H]].
  destruct (the_version e) as [ver|x]; cbn [bind]; [|split; [discriminate|intros (t & l & _ & H & _); discriminate H]].
  destruct (all_named e) as [[]|x]; cbn [bind]; [|split; [discriminate|intros (t & l & _ & _ & H & _); discriminate H]].
  destruct (the_types e) as [t|x]; cbn [bind]; [|split; [discriminate|intros (t & l & _ & _ & _ & H & _); discriminate H]].
  destruct (mapM (parse_section e t) (others e)) as [l|x] eqn:M; cbn [bind].
  - split.
    + intros H. apply ok_inj in H. subst q. exists t, l. auto 10.
    + intros (t' & l' & H1 & H2 & _ & H4 & H5 & H6). apply ok_inj in H1, H2, H4. subst t'. rewrite M in H5. apply ok_inj in H5. subst l'.
      destruct q as [a b c]. cbn in *. now subst.
  - split; [discriminate|]. intros (t' & l' & _ & _ & _ & H4 & H5 & _). apply ok_inj in H4. subst t'. rewrite M in H5. discriminate H5.
Qed.
