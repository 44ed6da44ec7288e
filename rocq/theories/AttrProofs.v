(** Proofs about reading attribute arguments. *)
From Coq Require Import String Permutation.
From Verif Require Import Base Text TextParse ObjModel AttrModel AttrSpec.
Local Open Scope Z_scope.

(** Reading lists of arguments. *)
Lemma reads_parse t l : reads t l -> parse_list t = Some l.
Proof.
  induction 1 as [|x|x t l R IH]; [reflexivity|destruct x; reflexivity|].
  destruct x; cbn [spell app parse_list]; now rewrite IH.
Qed.

Lemma parse_reads : forall k t l, (length t <= k)%nat -> parse_list t = Some l -> reads t l.
Proof.
  induction k as [|k IH]; intros t l L H.
  { destruct t; [|cbn in L; lia]. inversion H. constructor. }
  destruct t as [|[n| | | |] r]; cbn [parse_list] in H; try discriminate H; [inversion H; constructor|].
  destruct r as [|[m| | |v|] r]; try discriminate H.
  - apply some_inj in H. subst. exact (r_last (ABool n)).
  - destruct (parse_list r) as [l'|] eqn:E; cbn in H; [|discriminate H]. apply some_inj in H. subst.
    apply (r_more (ABool n)). apply IH; [cbn in L; lia|exact E].
  - destruct r as [|[m| | |v|] r]; try discriminate H.
    destruct r as [|[m| | |w|] r]; try discriminate H.
    + apply some_inj in H. subst. exact (r_last (AString n v)).
    + destruct (parse_list r) as [l'|] eqn:E; cbn in H; [|discriminate H]. apply some_inj in H. subst.
      apply (r_more (AString n v)). apply IH; [cbn in L; lia|exact E].
Qed.
Lemma parse_iff t l : parse_list t = Some l <-> reads t l.
Proof. split; [apply (parse_reads (length t)); lia|apply reads_parse]. Qed.

(** The arguments that are left, in some order. *)
Definition left (a : args) : list arg := map (fun p => AString (fst p) (snd p)) (strings a) ++ map ABool (bools a).

Lemma left_sort l : Permutation l (left (sort l)).
Proof.
  unfold left. induction l as [|[n v|n] l IH]; [constructor| |].
  - change (strings (sort (AString n v :: l))) with ((n, v) :: strings (sort l)). change (bools (sort (AString n v :: l))) with (bools (sort l)).
    cbn [map app fst snd]. now constructor.
  - change (strings (sort (ABool n :: l))) with (strings (sort l)). change (bools (sort (ABool n :: l))) with (n :: bools (sort l)).
    cbn [map]. now apply Permutation_cons_app.
Qed.

Lemma position_some {A} (f : A -> bool) l i : position f l = Some i -> exists x, nth_error l i = Some x /\ f x = true.
Proof.
  revert i. induction l as [|x l IH]; intros i H; [discriminate H|]. cbn [position] in H. destruct (f x) eqn:E.
  - apply some_inj in H. subst. now exists x.
  - destruct (position f l) as [j|]; [|discriminate H]. apply some_inj in H. subst. exact (IH j eq_refl).
Qed.
Lemma position_none {A} (f : A -> bool) l : position f l = None -> forall x, In x l -> f x = false.
Proof.
  induction l as [|y l IH]; intros H x I; [contradiction|]. cbn [position] in H. destruct (f y) eqn:E; [discriminate H|].
  destruct I as [<-|I]; [exact E|]. apply IH; [|exact I]. destruct (position f l); [discriminate H|reflexivity].
Qed.

Lemma upd_perm {A} (x y : A) l : forall i, nth_error l i = Some y -> Permutation (x :: l) (y :: upd i x l).
Proof.
  induction l as [|z l IH]; intros [|i] H; cbn [nth_error] in H; try discriminate H.
  - apply some_inj in H. subst. cbn [upd]. apply perm_swap.
  - cbn [upd]. rewrite perm_swap, (IH i H). apply perm_swap.
Qed.

Lemma swap_remove_perm {A} (l : list A) i x : nth_error l i = Some x -> Permutation l (x :: swap_remove i l).
Proof.
  intros H. unfold swap_remove. destruct (rev l) as [|y r] eqn:E.
  { assert (l = []) as -> by (rewrite <- (rev_involutive l), E; reflexivity). destruct i; discriminate H. }
  assert (L : l = rev r ++ [y]) by (rewrite <- (rev_involutive l), E; reflexivity). subst l. clear E.
  destruct (Nat.eqb_spec i (length r)) as [->|NE].
  - rewrite nth_error_app2 in H by (rewrite rev_length; lia). rewrite rev_length, Nat.sub_diag in H. apply some_inj in H. subst.
    symmetry. apply Permutation_cons_append.
  - assert (LT : (i < length (rev r ++ [y]))%nat) by (apply nth_error_Some; congruence). rewrite app_length, rev_length in LT. cbn in LT.
    rewrite nth_error_app1 in H by (rewrite rev_length; lia). rewrite <- (upd_perm y x (rev r) i H). symmetry. apply Permutation_cons_append.
Qed.

Lemma pop_string_left n a o a' : pop_string n a = (o, a') ->
  match o with Some v => Permutation (left a) (AString n v :: left a') | None => a' = a /\ forall v, ~ In (AString n v) (left a) end.
Proof.
  unfold pop_string. destruct (position _ _) as [i|] eqn:P; intros E; apply pair_equal_spec in E as [<- <-].
  - destruct (position_some _ _ _ P) as ([m v] & N & F). rewrite N. cbn [option_map snd]. cbn [fst] in F. apply str_eqb_eq in F. subst m.
    unfold left. cbn [strings bools].
    pose proof (swap_remove_perm _ _ _ N) as Q. apply (Permutation_map (fun p => AString (fst p) (snd p))) in Q. cbn [map fst snd] in Q.
    rewrite Q. reflexivity.
  - split; [reflexivity|]. intros v I. unfold left in I. apply in_app_or in I as [I|I]; apply in_map_iff in I as (p & E & I); [|discriminate E].
    inversion E. subst. pose proof (position_none _ _ P p I) as X. cbn beta in X. now rewrite str_eqb_refl in X.
Qed.

Lemma pop_bool_left n a b a' : pop_bool n a = (b, a') ->
  if b then Permutation (left a) (ABool n :: left a') else a' = a /\ ~ In (ABool n) (left a).
Proof.
  unfold pop_bool. destruct (position _ _) as [i|] eqn:P; intros E; apply pair_equal_spec in E as [<- <-].
  - destruct (position_some _ _ _ P) as (m & N & F). apply str_eqb_eq in F. subst m.
    unfold left. cbn [strings bools]. pose proof (swap_remove_perm _ _ _ N) as Q. apply (Permutation_map ABool) in Q. cbn [map] in Q.
    rewrite Q. symmetry. apply Permutation_middle.
  - split; [reflexivity|]. intros I. unfold left in I. apply in_app_or in I as [I|I]; apply in_map_iff in I as (p & E & I); [discriminate E|].
    inversion E. subst. pose proof (position_none _ _ P n I) as X. cbn beta in X. now rewrite str_eqb_refl in X.
Qed.

Lemma into_error_left a u : into_error a = Ok u <-> left a = [].
Proof.
  unfold into_error, left. destruct (strings a) as [|p l], (bools a) as [|n m]; cbn; split; intros H; try discriminate H; try reflexivity.
  destruct u. reflexivity.
Qed.

(** Everything said about the arguments does not depend on their order. *)
Lemma only_perm ss bs l l' : Permutation l l' -> only ss bs l -> only ss bs l'.
Proof.
  intros P (A & B & C). split; [|split].
  - exact (Permutation_NoDup (Permutation_map key P) A).
  - intros n v I. apply (B n v). exact (Permutation_in _ (Permutation_sym P) I).
  - intros n I. apply (C n). exact (Permutation_in _ (Permutation_sym P) I).
Qed.
Lemma gives_perm l l' n o : Permutation l l' -> gives l n o -> gives l' n o.
Proof.
  intros P. destruct o as [v|]; cbn [gives]; intros H; [exact (Permutation_in _ P H)|].
  intros v I. exact (H v (Permutation_in _ (Permutation_sym P) I)).
Qed.
Lemma flag_perm l l' n b : Permutation l l' -> flag l n b -> flag l' n b.
Proof.
  intros P. destruct b; cbn [flag]; intros H; [exact (Permutation_in _ P H)|]. intros I. exact (H (Permutation_in _ (Permutation_sym P) I)).
Qed.

Lemma only_nil l : only [] [] l <-> l = [].
Proof.
  split; [|intros ->; split; [constructor|split; intros; contradiction]].
  intros (_ & B & C). destruct l as [|[n v|n] l]; [reflexivity| |]; exfalso.
  - exact (B n v (or_introl eq_refl)).
  - exact (C n (or_introl eq_refl)).
Qed.

Lemma only_more ss bs l n : only ss bs l -> only (n :: ss) bs l.
Proof. intros (A & B & C). split; [exact A|]. split; [|exact C]. intros m v I. right. exact (B m v I). Qed.
Lemma only_drop ss bs l n : only (n :: ss) bs l -> gives l n None -> only ss bs l.
Proof.
  intros (A & B & C) G. split; [exact A|]. split; [|exact C]. intros m v I. destruct (B m v I) as [<-|J]; [|exact J]. exfalso. exact (G v I).
Qed.

Lemma gives_same ss bs l n o o' : only ss bs l -> gives l n o -> gives l n o' -> o = o'.
Proof.
  intros (A & _) G G'. destruct o as [v|], o' as [v'|]; cbn [gives] in G, G'; [|exfalso; exact (G' v G)|exfalso; exact (G v' G')|reflexivity].
  f_equal. apply in_split in G as (l1 & l2 & ->). rewrite map_app in A. cbn [map key] in A. apply NoDup_remove_2 in A.
  apply in_app_or in G' as [G'|[G'|G']]; [|now inversion G'|]; exfalso; apply A; apply in_or_app; [left|right];
    apply in_map_iff; exists (AString n v'); split; auto.
Qed.
Lemma flag_same l n b b' : flag l n b -> flag l n b' -> b = b'.
Proof. destruct b, b'; cbn [flag]; tauto. Qed.

(** Taking one out. *)
Definition same_strings (n : list Z) (l l' : list arg) : Prop := forall m o, m <> n -> gives l m o <-> gives l' m o.
Definition same_flags (n : list Z) (l l' : list arg) : Prop := forall m b, m <> n -> flag l m b <-> flag l' m b.

Lemma in_cons_ne {A} (x y : A) l : x <> y -> In x (y :: l) <-> In x l.
Proof. intros N. split; [intros [E|I]; [congruence|exact I]|now right]. Qed.

Lemma gives_cons x l m o : (forall v, x <> AString m v) -> gives (x :: l) m o <-> gives l m o.
Proof.
  intros N. destruct o as [v|]; cbn [gives]; [apply in_cons_ne; intros E; symmetry in E; exact (N v E)|].
  split; intros H v I; apply (H v); [now right|]. destruct I as [E|I]; [exfalso; exact (N v E)|exact I].
Qed.
Lemma flag_cons x l m b : x <> ABool m -> flag (x :: l) m b <-> flag l m b.
Proof.
  intros N. destruct b; cbn [flag]; [apply in_cons_ne; congruence|]. split; intros H I; apply H; [now right|].
  destruct I as [E|I]; [exfalso; exact (N E)|exact I].
Qed.

Lemma gives_iff l l' n o : Permutation l l' -> gives l n o <-> gives l' n o.
Proof. intros P. split; apply gives_perm; [exact P|exact (Permutation_sym P)]. Qed.
Lemma flag_iff l l' n b : Permutation l l' -> flag l n b <-> flag l' n b.
Proof. intros P. split; apply flag_perm; [exact P|exact (Permutation_sym P)]. Qed.

Lemma pop_string_step n a o a' : pop_string n a = (o, a') ->
  gives (left a) n o /\ (forall m p, m <> n -> gives (left a) m p <-> gives (left a') m p) /\ (forall m b, flag (left a) m b <-> flag (left a') m b) /\
  (forall ss bs, only (n :: ss) bs (left a) -> only ss bs (left a')) /\
  (forall ss bs, ~ In n ss -> only ss bs (left a') -> only (n :: ss) bs (left a)).
Proof.
  intros E. pose proof (pop_string_left _ _ _ _ E) as H. destruct o as [v|].
  - split; [cbn; apply (Permutation_in _ (Permutation_sym H)); now left|]. split; [|split; [|split]].
    + intros m p N. rewrite (gives_iff _ _ m p H). apply gives_cons. intros w X. inversion X. congruence.
    + intros m b. rewrite (flag_iff _ _ m b H). apply flag_cons. discriminate.
    + intros ss bs O. apply (only_perm _ _ _ _ H) in O. destruct O as (A & B & C). cbn [map key] in A. inversion A as [|? ? N A']. subst.
      split; [exact A'|]. split.
      * intros m w I. destruct (B m w (or_intror I)) as [<-|J]; [|exact J]. exfalso. apply N. apply in_map_iff. exists (AString n w). now split.
      * intros m I. exact (C m (or_intror I)).
    + intros ss bs NI (A & B & C). apply (only_perm _ _ _ _ (Permutation_sym H)). split; [|split].
      * cbn [map key]. constructor; [|exact A]. intros I. apply in_map_iff in I as ([m w|m] & X & I); cbn [key] in X; [|discriminate X].
        inversion X. subst. exact (NI (B n w I)).
      * intros m w [X|I]; [inversion X; subst; now left|right; exact (B m w I)].
      * intros m [X|I]; [discriminate X|exact (C m I)].
  - destruct H as [-> N]. split; [exact N|]. split; [reflexivity|]. split; [reflexivity|]. split.
    + intros ss bs O. exact (only_drop _ _ _ _ O N).
    + intros ss bs _ O. exact (only_more _ _ _ _ O).
Qed.

Lemma pop_bool_step n a b a' : pop_bool n a = (b, a') ->
  flag (left a) n b /\ (forall m c, m <> n -> flag (left a) m c <-> flag (left a') m c) /\ (forall m p, gives (left a) m p <-> gives (left a') m p) /\
  (forall ss bs, only ss (n :: bs) (left a) -> only ss bs (left a')) /\
  (forall ss bs, ~ In n bs -> only ss bs (left a') -> only ss (n :: bs) (left a)).
Proof.
  intros E. pose proof (pop_bool_left _ _ _ _ E) as H. destruct b.
  - split; [cbn; apply (Permutation_in _ (Permutation_sym H)); now left|]. split; [|split; [|split]].
    + intros m c N. rewrite (flag_iff _ _ m c H). apply flag_cons. intros X. inversion X. congruence.
    + intros m p. rewrite (gives_iff _ _ m p H). apply gives_cons. discriminate.
    + intros ss bs O. apply (only_perm _ _ _ _ H) in O. destruct O as (A & B & C). cbn [map key] in A. inversion A as [|? ? N A']. subst.
      split; [exact A'|]. split.
      * intros m w I. exact (B m w (or_intror I)).
      * intros m I. destruct (C m (or_intror I)) as [<-|J]; [|exact J]. exfalso. apply N. apply in_map_iff. exists (ABool n). now split.
    + intros ss bs NI (A & B & C). apply (only_perm _ _ _ _ (Permutation_sym H)). split; [|split].
      * cbn [map key]. constructor; [|exact A]. intros I. apply in_map_iff in I as ([m w|m] & X & I); cbn [key] in X; [discriminate X|].
        inversion X. subst. exact (NI (C n I)).
      * intros m w [X|I]; [discriminate X|exact (B m w I)].
      * intros m [X|I]; [inversion X; subst; now left|right; exact (C m I)].
  - destruct H as [-> N]. split; [exact N|]. split; [reflexivity|]. split; [reflexivity|]. split.
    + intros ss bs (A & B & C). split; [exact A|]. split; [exact B|]. intros m I. destruct (C m I) as [<-|J]; [|exact J]. exfalso. exact (N I).
    + intros ss bs _ (A & B & C). split; [exact A|]. split; [exact B|]. intros m I. right. exact (C m I).
Qed.

(** Numbers. *)
Lemma digit_val_digit c d : digit_val 10 c = Some d -> is_digit c = true /\ d = c - 48.
Proof.
  unfold digit_val, is_digit. cbv zeta. destruct ((48 <=? c) && (c <=? 57)) eqn:E.
  - destruct (Z.ltb_spec (c - 48) 10); [|discriminate]. intros HH. apply some_inj in HH. split; [reflexivity|lia].
  - destruct ((97 <=? c) && (c <=? 122)) eqn:E2; [destruct (Z.ltb_spec (c - 87) 10); [lia|discriminate]|].
    destruct ((65 <=? c) && (c <=? 90)) eqn:E3; [destruct (Z.ltb_spec (c - 55) 10); [lia|discriminate]|].
    destruct (Z.ltb_spec 10 10); [lia|discriminate].
Qed.
Lemma digits_val_digits max s : forall acc v, acc < max -> digits_val 10 max acc s = Some v ->
  Forall (fun c => is_digit c = true) s /\ v = fold_left (fun a c => 10 * a + (c - 48)) s acc /\ v < max.
Proof.
  induction s as [|c s IH]; intros acc v L H; cbn [digits_val] in H.
  - apply some_inj in H. subst. repeat split; [constructor|exact L].
  - destruct (digit_val 10 c) as [d|] eqn:D; [|discriminate H]. apply digit_val_digit in D as [D ->].
    destruct (Z.ltb_spec (acc * 10 + (c - 48)) max) as [B|]; [|discriminate H]. destruct (IH _ _ B H) as (F & V & M).
    split; [now constructor|]. split; [|exact M]. cbn [fold_left]. now replace (10 * acc + (c - 48)) with (acc * 10 + (c - 48)) by ring.
Qed.

Lemma digit_range c : is_digit c = true <-> 48 <= c <= 57.
Proof. unfold is_digit. lia. Qed.

Lemma number_parse s n : number s n <-> dec_u64 s = Some n.
Proof.
  unfold dec_u64. split.
  - intros (ds & S & N & F & V & B).
    assert (F' : Forall (fun c => is_digit c = true) ds) by (eapply Forall_impl; [|exact F]; intros c; apply digit_range).
    assert (D : digits_val 10 (2 ^ 64) 0 ds = Some n).
    { rewrite (digits_dec (2 ^ 64) ds 0 F' ltac:(lia)); unfold dec_val in V; [now rewrite V|lia]. }
    unfold parse_uint. destruct S as [-> | ->].
    + destruct ds as [|c r]; [contradiction|]. pose proof (Forall_inv F) as C. cbn beta in C. replace (c =? 43) with false by lia. exact D.
    + change (43 =? 43) with true. cbv iota zeta. destruct ds as [|c r]; [contradiction|exact D].
  - unfold parse_uint. destruct s as [|c r]; [discriminate|]. cbv zeta. intros H.
    assert (G : forall ds, ds <> [] -> digits_val 10 (2 ^ 64) 0 ds = Some n -> Forall (fun c => 48 <= c <= 57) ds /\ dec_val ds = n /\ n < 2 ^ 64).
    { intros ds NE D. destruct (digits_val_digits (2 ^ 64) ds 0 n ltac:(lia) D) as (F & V & M). split; [|split; [unfold dec_val; congruence|exact M]].
      eapply Forall_impl; [|exact F]. intros x. apply digit_range. }
    destruct (Z.eqb_spec c 43) as [EQ|NE].
    + subst c. destruct r as [|c r]; [discriminate H|]. exists (c :: r). destruct (G (c :: r) ltac:(discriminate) H) as (A & B & C). repeat split; auto. discriminate.
    + exists (c :: r). destruct (G (c :: r) ltac:(discriminate) H) as (A & B & C). repeat split; auto. discriminate.
Qed.

Lemma offset_number s n : offset s = Ok n <-> number_given s n.
Proof.
  unfold offset, number_given. destruct s as [s|].
  - destruct (dec_u64 s) as [m|] eqn:E; destruct n as [n|]; split; intros H; try discriminate H; try contradiction.
    + apply ok_inj in H. apply some_inj in H. subst. now apply number_parse.
    + apply number_parse in H. rewrite E in H. apply some_inj in H. now subst.
    + apply number_parse in H. congruence.
  - destruct n as [n|]; split; intros H; try discriminate H; try contradiction; exact I || reflexivity.
Qed.
