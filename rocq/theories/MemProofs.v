From Verif Require Import Base MemModel MemSpec.
Local Open Scope Z_scope.

Lemma add_in p i n : object p n -> (i < n)%nat -> add p (Z.of_nat i) = p + Z.of_nat i.
Proof. intros [? ?] ?. unfold add, u64, wrap. apply Z.mod_small. lia. Qed.

(** Copying in an order in which no byte is read after it has been
    overwritten. *)
Definition safe_order (dest src : Z) (is : list nat) : Prop :=
  forall a i b j c, is = a ++ i :: b ++ j :: c -> dest + Z.of_nat i <> src + Z.of_nat j.

Lemma safe_tail dest src i is : safe_order dest src (i :: is) -> safe_order dest src is.
Proof. intros H a x b j c E. apply (H (i :: a) x b j c). rewrite E. reflexivity. Qed.

Lemma copy_at_spec dest src n is : forall m,
  object dest n -> object src n -> (forall i, In i is -> (i < n)%nat) -> NoDup is -> safe_order dest src is ->
  let m' := fst (copy_at dest src is m) in
  (forall i, In i is -> m' (dest + Z.of_nat i) = m (src + Z.of_nat i)) /\
  (forall a, (forall i, In i is -> a <> dest + Z.of_nat i) -> m' a = m a).
Proof.
  induction is as [|i is IH]; intros m OD OS L ND SO; cbn [copy_at fst].
  - split; [intros i [] | reflexivity].
  - rewrite (add_in src i n OS) by (apply L; left; reflexivity).
    rewrite (add_in dest i n OD) by (apply L; left; reflexivity).
    specialize (IH (store m (dest + Z.of_nat i) (m (src + Z.of_nat i))) OD OS (fun j Hj => L j (or_intror Hj))).
    apply NoDup_cons_iff in ND as [NI ND]. specialize (IH ND (safe_tail _ _ _ _ SO)).
    destruct (copy_at dest src is _) as [m' l]. cbn [fst] in *. destruct IH as [IH1 IH2]. split.
    + intros j [<- | Hj].
      * rewrite IH2.
        -- unfold store. now rewrite Z.eqb_refl.
        -- intros j Hj E. assert (i = j) by lia. subst j. contradiction.
      * rewrite (IH1 j Hj). unfold store. destruct (Z.eqb_spec (src + Z.of_nat j) (dest + Z.of_nat i)) as [E|NE]; [|reflexivity].
        exfalso. apply in_split in Hj as (b & c & ->). apply (SO [] i b j c); [reflexivity|lia].
    + intros a Ha. rewrite IH2.
      * unfold store. destruct (Z.eqb_spec a (dest + Z.of_nat i)) as [E|NE]; [|reflexivity].
        exfalso. apply (Ha i); [left; reflexivity|exact E].
      * intros j Hj. apply Ha. now right.
Qed.

Lemma moved_of dest src n is m :
  object dest n -> object src n -> Permutation is (seq 0 n) -> safe_order dest src is ->
  moved m (fst (copy_at dest src is m)) dest src n.
Proof.
  intros OD OS P SO.
  assert (IN : forall i, In i is <-> (i < n)%nat).
  { intros i. split; intros H.
    - apply (Permutation_in _ P) in H. apply in_seq in H. lia.
    - apply (Permutation_in _ (Permutation_sym P)). apply in_seq. lia. }
  destruct (copy_at_spec dest src n is m OD OS (fun i => proj1 (IN i))) as [A B].
  - apply (Permutation_NoDup (Permutation_sym P)). apply seq_NoDup.
  - exact SO.
  - split.
    + intros i Hi. specialize (A (Z.to_nat i)). rewrite Z2Nat.id in A by lia. apply A. apply IN. lia.
    + intros a Ha. apply B. intros i Hi E. apply IN in Hi. apply Ha. unfold within. lia.
Qed.

Lemma seq_split a k : forall b i j c n, seq k n = a ++ i :: b ++ j :: c -> (i < j)%nat.
Proof.
  revert k. induction a as [|x a IH]; intros k b i j c n E.
  - destruct n as [|n]; [discriminate|]. cbn in E. injection E as <- E.
    assert (H : In j (seq (S k) n)) by (rewrite E; apply in_elt). apply in_seq in H. lia.
  - destruct n as [|n]; [discriminate|]. cbn in E. injection E as _ E. apply (IH _ _ _ _ _ _ E).
Qed.

Lemma forward_safe dest src n : dest <= src \/ src + Z.of_nat n <= dest -> safe_order dest src (seq 0 n).
Proof.
  intros H a i b j c E Q. pose proof (seq_split _ _ _ _ _ _ _ E) as L.
  assert (In j (seq 0 n)) as J by (rewrite E; apply in_or_app; right; right; apply in_elt).
  apply in_seq in J. lia.
Qed.
Lemma backward_safe dest src n : src <= dest -> safe_order dest src (rev (seq 0 n)).
Proof.
  intros H a i b j c E Q. apply (f_equal (@rev nat)) in E. rewrite rev_involutive in E.
  rewrite rev_app_distr in E. cbn [rev] in E. rewrite rev_app_distr in E. cbn [rev] in E. repeat (rewrite <- app_assoc in E; cbn [app] in E).
  pose proof (seq_split _ _ _ _ _ _ _ E) as L. lia.
Qed.

Lemma forward_moved dest src n m : object dest n -> object src n -> dest <= src \/ src + Z.of_nat n <= dest ->
  moved m (fst (copy_forward dest src n m)) dest src n.
Proof. intros OD OS H. apply moved_of; [exact OD|exact OS|apply Permutation_refl|apply forward_safe, H]. Qed.
Lemma backward_moved dest src n m : object dest n -> object src n -> src <= dest ->
  moved m (fst (copy_backward dest src n m)) dest src n.
Proof. intros OD OS H. apply moved_of; [exact OD|exact OS|apply Permutation_sym, Permutation_rev|apply backward_safe, H]. Qed.

Lemma memcpy_moved dest src n m : object dest n -> object src n -> apart dest src n ->
  moved m (fst (memcpy dest src n m)) dest src n.
Proof. intros OD OS A. apply forward_moved; [exact OD|exact OS|]. unfold apart in A. lia. Qed.

Lemma memmove_moved dest src n m : object dest n -> object src n -> moved m (fst (memmove dest src n m)) dest src n.
Proof.
  intros OD OS. unfold memmove. cbv zeta.
  destruct (Z.leb_spec (Z.of_nat n) (u64 (dest - src))) as [L|L].
  - apply forward_moved; [exact OD|exact OS|]. destruct OD, OS. unfold u64, wrap in L.
    destruct (Z.le_gt_cases dest src) as [D|D]; [left; exact D|right].
    rewrite Z.mod_small in L by lia. lia.
  - apply backward_moved; [exact OD|exact OS|]. destruct OD as [D0 D1], OS as [S0 S1]. unfold u64, wrap in L.
    destruct (Z.le_gt_cases src dest) as [D|D]; [exact D|exfalso].
    assert (E : (dest - src) mod 2 ^ 64 = dest - src + 2 ^ 64).
    { symmetry. apply Z.mod_unique with (q := -1); lia. }
    rewrite E in L. lia.
Qed.

Lemma set_at_spec s b n is : forall m,
  object s n -> (forall i, In i is -> (i < n)%nat) ->
  let m' := fst (set_at s b is m) in
  (forall i, In i is -> m' (s + Z.of_nat i) = b) /\
  (forall a, (forall i, In i is -> a <> s + Z.of_nat i) -> m' a = m a).
Proof.
  induction is as [|i is IH]; intros m OS L; cbn [set_at fst].
  - split; [intros i [] | reflexivity].
  - rewrite (add_in s i n OS) by (apply L; left; reflexivity).
    specialize (IH (store m (s + Z.of_nat i) b) OS (fun j Hj => L j (or_intror Hj))).
    destruct (set_at s b is _) as [m' l]. cbn [fst] in *. destruct IH as [IH1 IH2]. split.
    + intros j [<- | Hj]; [|apply IH1, Hj].
      destruct (in_dec Nat.eq_dec i is) as [I|NI]; [apply IH1, I|].
      rewrite IH2.
      * unfold store. now rewrite Z.eqb_refl.
      * intros j Hj E. assert (i = j) by lia. subst j. contradiction.
    + intros a Ha. rewrite IH2.
      * unfold store. destruct (Z.eqb_spec a (s + Z.of_nat i)) as [E|NE]; [|reflexivity].
        exfalso. apply (Ha i); [left; reflexivity|exact E].
      * intros j Hj. apply Ha. now right.
Qed.

Lemma memset_filled s c n m : object s n -> filled m (fst (memset s c n m)) s c n.
Proof.
  intros OS. unfold memset.
  destruct (set_at_spec s (u8 c) n (seq 0 n) m OS) as [A B].
  - intros i Hi. apply in_seq in Hi. lia.
  - split.
    + intros a Ha. unfold within in Ha. replace a with (s + Z.of_nat (Z.to_nat (a - s))) by lia.
      rewrite A; [reflexivity|]. apply in_seq. lia.
    + intros a Ha. apply B. intros i Hi E. apply in_seq in Hi. apply Ha. unfold within. lia.
Qed.

Lemma copy_at_trace dest src n is : forall m,
  object dest n -> object src n -> (forall i, In i is -> (i < n)%nat) ->
  let l := snd (copy_at dest src is m) in
  written_of l = map (fun i => dest + Z.of_nat i) is /\ read_of l = map (fun i => src + Z.of_nat i) is.
Proof.
  induction is as [|i is IH]; intros m OD OS L; cbn [copy_at snd].
  - split; reflexivity.
  - rewrite (add_in src i n OS) by (apply L; left; reflexivity).
    rewrite (add_in dest i n OD) by (apply L; left; reflexivity).
    specialize (IH (store m (dest + Z.of_nat i) (m (src + Z.of_nat i))) OD OS (fun j Hj => L j (or_intror Hj))).
    destruct (copy_at dest src is _) as [m' l]. cbn [snd] in *. destruct IH as [W R].
    unfold written_of, read_of in *. cbn [flat_map map app]. rewrite W, R. split; reflexivity.
Qed.
Lemma set_at_trace s b n is : forall m,
  object s n -> (forall i, In i is -> (i < n)%nat) ->
  let l := snd (set_at s b is m) in
  written_of l = map (fun i => s + Z.of_nat i) is /\ read_of l = [].
Proof.
  induction is as [|i is IH]; intros m OS L; cbn [set_at snd].
  - split; reflexivity.
  - rewrite (add_in s i n OS) by (apply L; left; reflexivity).
    specialize (IH (store m (s + Z.of_nat i) b) OS (fun j Hj => L j (or_intror Hj))).
    destruct (set_at s b is _) as [m' l]. cbn [snd] in *. destruct IH as [W R].
    unfold written_of, read_of in *. cbn [flat_map map app]. rewrite W, R. split; reflexivity.
Qed.

Lemma copy_touches dest src n is m : object dest n -> object src n -> Permutation is (seq 0 n) ->
  touches (snd (copy_at dest src is m)) dest (Some src) n.
Proof.
  intros OD OS P.
  destruct (copy_at_trace dest src n is m OD OS) as [W R].
  - intros i Hi. apply (Permutation_in _ P) in Hi. apply in_seq in Hi. lia.
  - unfold touches. rewrite W, R. split; apply Permutation_map, P.
Qed.
Lemma memset_touches s c n m : object s n -> touches (snd (memset s c n m)) s None n.
Proof.
  intros OS. unfold memset.
  destruct (set_at_trace s (u8 c) n (seq 0 n) m OS) as [W R].
  - intros i Hi. apply in_seq in Hi. lia.
  - unfold touches. rewrite W, R. split; [apply Permutation_refl|reflexivity].
Qed.
Lemma memcpy_touches dest src n m : object dest n -> object src n -> touches (snd (memcpy dest src n m)) dest (Some src) n.
Proof. intros OD OS. apply copy_touches; [exact OD|exact OS|apply Permutation_refl]. Qed.
Lemma memmove_touches dest src n m : object dest n -> object src n -> touches (snd (memmove dest src n m)) dest (Some src) n.
Proof.
  intros OD OS. unfold memmove. cbv zeta. destruct (_ <=? _); apply copy_touches; try exact OD; try exact OS.
  - apply Permutation_refl.
  - apply Permutation_sym, Permutation_rev.
Qed.

(** memcpy does not do what memmove does. *)
Lemma memcpy_overlap : exists dest src n m, object dest n /\ object src n /\ ~ moved m (fst (memcpy dest src n m)) dest src n.
Proof.
  exists 1, 0, 2%nat, (fun a => a). split; [split; cbn; lia|]. split; [split; cbn; lia|].
  intros [H _]. specialize (H 1). cbn in H. assert (F : 0 = 1) by (apply H; lia). discriminate F.
Qed.
