(** When the generator of bindings works at all. *)
From Coq Require Import String.
From Verif Require Import Base Text TextSplit WrapModel WrapSpec.
Open Scope Z_scope.

Lemma last_segment_some l x : last_segment l = Some x <-> exists r, l = (r ++ [x])%list.
Proof.
  unfold last_segment. split.
  - destruct (rev l) as [|y q] eqn:E; [discriminate|]. intros [= ->]. exists (rev q).
    rewrite <- (rev_involutive l), E. reflexivity.
  - intros (r & ->). rewrite rev_app_distr. reflexivity.
Qed.

Lemma from_item_some n t k h : helper_from_item n t k = Ok (Some h) <->
  exists i o, points_to t i o /\ h = {| h_ident := n; h_inputs := i; h_output := o; h_index := k |}.
Proof.
  split.
  - destruct t as [segs|i o|x]; cbn [helper_from_item]; try discriminate.
    destruct (last_segment segs) as [[m g]|] eqn:E; [|discriminate]. apply last_segment_some in E as (r & ->).
    destruct g as [|args|]; try discriminate. destruct args as [|[[|i o|]|] args]; try discriminate. intros [= <-].
    exists i, o. split; [exists r, m, args; reflexivity|reflexivity].
  - intros (i & o & (segs & m & rest & ->) & ->). cbn [helper_from_item].
    rewrite (proj2 (last_segment_some _ (m, GAngle (Some (TFn i o) :: rest))) (ex_intro _ segs eq_refl)). reflexivity.
Qed.

(** The helpers made of a list of statics, the first numbered [k]. *)
Inductive made_of : Z -> list (list Z * ty) -> list helper -> Prop :=
| mo_nil k : made_of k [] []
| mo_cons k n t r i o hs : points_to t i o -> made_of (k + 1) r hs ->
    made_of k ((n, t) :: r) ({| h_ident := n; h_inputs := i; h_output := o; h_index := k |} :: hs).

Lemma made_app k a b hs : made_of k (a ++ b) hs <-> exists x y, hs = (x ++ y)%list /\ made_of k a x /\ made_of (k + Z.of_nat (List.length a)) b y.
Proof.
  revert k hs. induction a as [|[n t] a IH]; intros k hs; cbn [app List.length].
  - rewrite Z.add_0_r. split; [intros H; exists [], hs; repeat split; [constructor|exact H]|].
    intros (x & y & -> & X & Y). inversion X. subst. exact Y.
  - split.
    + intros H. inversion H as [|? ? ? ? i o hs' P Q]; subst. apply IH in Q as (x & y & -> & X & Y).
      exists ({| h_ident := n; h_inputs := i; h_output := o; h_index := k |} :: x), y. split; [reflexivity|]. split; [now constructor|].
      replace (k + Z.of_nat (S (List.length a))) with (k + 1 + Z.of_nat (List.length a)) by lia. exact Y.
    + intros (x & y & -> & X & Y). inversion X as [|? ? ? ? i o hs' P Q]; subst. cbn [app]. constructor; [exact P|]. apply IH.
      exists hs', y. split; [reflexivity|]. split; [exact Q|].
      replace (k + 1 + Z.of_nat (List.length a)) with (k + Z.of_nat (S (List.length a))) by lia. exact Y.
Qed.

Lemma made_length k l hs : made_of k l hs -> List.length hs = List.length l.
Proof. induction 1; cbn; congruence. Qed.

Lemma module_made at_ l : forall idx hs r,
  extract_module at_ l (idx, hs) = Ok r <->
  exists new, made_of (Z.of_nat (List.length hs) + 1) (flat_map named_helper l) new /\
    r = ((idx ++ repeat at_ (List.length new))%list, (hs ++ new)%list).
Proof.
  induction l as [|[n t|x] l IH]; intros idx hs r; cbn [extract_module flat_map named_helper].
  - split.
    + intros [= <-]. exists []. split; [constructor|]. cbn. now rewrite !app_nil_r.
    + intros (new & M & ->). inversion M. subst. cbn. now rewrite !app_nil_r.
  - destruct (starts_with (txt "bpf_") n); [|apply IH]. cbn [fst snd app]. split.
    + destruct (helper_from_item n t (Z.of_nat (List.length hs) + 1)) as [[h|]|] eqn:E; cbn [bind]; try discriminate.
      apply from_item_some in E as (i & o & P & ->). intros H. apply IH in H as (new & M & ->).
      exists ({| h_ident := n; h_inputs := i; h_output := o; h_index := Z.of_nat (List.length hs) + 1 |} :: new). split.
      * constructor; [exact P|]. rewrite app_length in M. cbn [List.length] in M.
        replace (Z.of_nat (List.length hs) + 1 + 1) with (Z.of_nat (List.length hs + 1) + 1) by lia. exact M.
      * cbn [List.length repeat]. now rewrite <- !app_assoc.
    + intros (new & M & ->). inversion M as [|? ? ? ? i o hs' P Q]; subst.
      rewrite (proj2 (from_item_some n t _ _) (ex_intro _ i (ex_intro _ o (conj P eq_refl)))). cbn [bind].
      apply IH. exists hs'. split.
      * rewrite app_length. cbn [List.length].
        replace (Z.of_nat (List.length hs + 1) + 1) with (Z.of_nat (List.length hs) + 1 + 1) by lia. exact Q.
      * cbn [List.length repeat]. now rewrite <- !app_assoc.
  - apply IH.
Qed.

Lemma from_made items : forall at_ idx hs idx' hs',
  extract_from at_ items (idx, hs) = Ok (idx', hs') ->
  exists new, made_of (Z.of_nat (List.length hs) + 1) (helper_statics items) new /\ hs' = (hs ++ new)%list.
Proof.
  induction items as [|i items IH]; intros at_ idx hs idx' hs'; cbn [extract_from].
  - intros [= <- <-]. exists []. split; [constructor|now rewrite app_nil_r].
  - destruct i as [l|x|]; [|apply IH|apply IH].
    destruct (extract_module at_ l (idx, hs)) as [[i1 h1]|] eqn:E; cbn [bind]; [|discriminate].
    apply module_made in E as (new & M & [= -> ->]). intros H. apply IH in H as (new2 & M2 & ->).
    exists (new ++ new2)%list. split; [|now rewrite app_assoc]. unfold helper_statics. cbn [flat_map]. apply made_app.
    exists new, new2. split; [reflexivity|]. split; [exact M|].
    rewrite app_length, (made_length _ _ _ M), Nat2Z.inj_add in M2.
    replace (Z.of_nat (List.length hs) + 1 + Z.of_nat (List.length (flat_map named_helper l)))
      with (Z.of_nat (List.length hs) + Z.of_nat (List.length (flat_map named_helper l)) + 1) by lia. exact M2.
Qed.

Lemma made_from items : forall at_ idx hs new,
  made_of (Z.of_nat (List.length hs) + 1) (helper_statics items) new ->
  exists idx', extract_from at_ items (idx, hs) = Ok (idx', (hs ++ new)%list).
Proof.
  induction items as [|i items IH]; intros at_ idx hs new M; cbn [extract_from].
  - inversion M. subst. exists idx. now rewrite app_nil_r.
  - destruct i as [l|x|]; [|apply IH; exact M|apply IH; exact M].
    unfold helper_statics in M. cbn [flat_map] in M. apply made_app in M as (a & b & -> & A & B).
    rewrite (proj2 (module_made at_ l idx hs _) (ex_intro _ a (conj A eq_refl))). cbn [bind].
    rewrite (app_assoc hs a b). apply IH. rewrite app_length, (made_length _ _ _ A), Nat2Z.inj_add.
    replace (Z.of_nat (List.length hs) + 1 + Z.of_nat (List.length (flat_map named_helper l)))
      with (Z.of_nat (List.length hs) + Z.of_nat (List.length (flat_map named_helper l)) + 1) in B by lia. exact B.
Qed.

Lemma mapM_all {A B E} (f : A -> res E B) l : (exists r, mapM f l = Ok r) <-> forall x, In x l -> exists y, f x = Ok y.
Proof.
  split.
  - intros (r & H) x I'. apply mapM_ok in H. induction H as [|a b l r H _ IH]; [easy|].
    destruct I' as [->|I']; [eauto|apply IH, I'].
  - intros H. destruct (mapM f l) as [r|e] eqn:M; [eauto|]. apply mapM_err in M as (x & I' & X). destruct (H x I') as [y Y]. congruence.
Qed.

Lemma expand_works h : (exists w, expand_helper h = Ok w) <-> forall q, In q (h_inputs h) -> fst q <> None.
Proof.
  unfold expand_helper. transitivity (exists ps, mapM named (h_inputs h) = Ok ps).
  - split.
    + intros [w H]. destruct (mapM named (h_inputs h)); [eauto|discriminate H].
    + intros [ps ->]. cbn [bind]. eauto.
  - rewrite mapM_all. split.
    + intros H [[n|] t] I'; [discriminate|]. destruct (H _ I') as [y Y]. discriminate Y.
    + intros H [[n|] t] I'; [cbn; eauto|]. now destruct (H _ I').
Qed.

Lemma made_in k l hs h : made_of k l hs -> In h hs -> exists n t i o, In (n, t) l /\ points_to t i o /\ h_ident h = n /\ h_inputs h = i.
Proof.
  induction 1 as [|k n t r i o hs P M IH]; [easy|]. intros [<-|I'].
  - exists n, t, i, o. repeat split; [now left|exact P].
  - destruct (IH I') as (n' & t' & i' & o' & A & B). exists n', t', i', o'. split; [now right|exact B].
Qed.
Lemma in_made k l hs n t : made_of k l hs -> In (n, t) l -> exists i o h, points_to t i o /\ In h hs /\ h_ident h = n /\ h_inputs h = i.
Proof.
  induction 1 as [|k m u r i o hs P M IH]; [easy|]. intros [[= -> ->]|I'].
  - exists i, o. eexists. split; [exact P|]. split; [now left|]. split; reflexivity.
  - destruct (IH I') as (i' & o' & h & A & B & C). exists i', o', h. split; [exact A|]. split; [now right|exact C].
Qed.
Lemma made_exists l : forall k, (forall n t, In (n, t) l -> exists i o, points_to t i o) -> exists hs, made_of k l hs.
Proof.
  induction l as [|[n t] l IH]; intros k H; [exists []; constructor|].
  destruct (H n t (or_introl eq_refl)) as (i & o & P). destruct (IH (k + 1)) as [hs M]; [intros m u I'; apply (H m u); now right|].
  eexists. econstructor; [exact P|exact M].
Qed.

Lemma points_same t i o i' o' : points_to t i o -> points_to t i' o' -> i = i' /\ o = o'.
Proof.
  intros (s & n & r & ->) (s' & n' & r' & E). injection E as E. apply app_inj_tail in E as [_ E]. injection E as _ -> -> _. now split.
Qed.

Lemma codegen_works items : (exists r, codegen items = Ok r) <-> forall p, In p (helper_statics items) -> usable p.
Proof.
  unfold codegen, extract_helpers. split.
  - intros (r & H). destruct (extract_from 0 items ([], [])) as [[idx hs]|] eqn:E; cbn [bind fst snd] in H; [|discriminate H].
    apply from_made in E as (new & M & ->). cbn [app List.length] in *.
    destruct (expand_helpers new) as [ws|] eqn:X; cbn [bind] in H; [|discriminate H].
    intros [n t] I'. destruct (in_made _ _ _ _ _ M I') as (i & o & h & P & IH' & <- & <-). exists (h_inputs h), o. split; [exact P|].
    cbn [fst]. intros N. apply expand_works. unfold expand_helpers in X. apply (proj1 (mapM_all _ _) (ex_intro _ ws X)).
    apply filter_In. split; [exact IH'|]. apply negb_true_iff, not_true_iff_false. intros T. apply str_eqb_eq in T. exact (N T).
  - intros H. destruct (made_exists (helper_statics items) 1) as [hs M].
    { intros n t I'. destruct (H _ I') as (i & o & P & _). cbn [snd] in P. eauto. }
    destruct (made_from items 0 [] [] hs M) as [idx E]. rewrite E. cbn [bind fst snd app].
    assert (X : exists ws, expand_helpers hs = Ok ws).
    { apply mapM_all. intros h I'. apply filter_In in I' as [I' N]. apply expand_works.
      destruct (made_in _ _ _ _ M I') as (n & t & i & o & IL & P & <- & <-). destruct (H _ IL) as (i' & o' & P' & Q). cbn [fst snd] in *.
      destruct (points_same _ _ _ _ _ P P') as [-> _]. apply Q. intros T. rewrite T in N. vm_compute in N. discriminate N. }
    destruct X as [ws ->]. cbn [bind]. eauto.
Qed.
