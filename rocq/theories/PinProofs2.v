(** Proofs about pinning programs in [PinModel]. *)
From Coq Require Import String.
From Verif Require Import Base Text PinModel PinSpec PinProofs.
Local Open Scope Z_scope.

Lemma replace_length {A} i (v : A) l : length (replace i v l) = length l.
Proof. unfold replace. revert i. induction l as [|x l IH]; intros [|i]; try reflexivity. cbn [firstn skipn app length]. now rewrite IH. Qed.
Lemma replace_nth {A} i j (v d : A) l : nth j (replace i v l) d = if (i =? j)%nat then (if (i <? length l)%nat then v else d) else nth j l d.
Proof.
  revert i j. induction l as [|x l IH]; intros i j.
  - unfold replace. rewrite firstn_nil, skipn_nil. cbn [app length]. destruct j; cbn [nth]; destruct (_ =? _)%nat; reflexivity.
  - destruct i as [|i], j as [|j]; try reflexivity. change (replace (S i) v (x :: l)) with (x :: replace i v l). cbn [nth length]. rewrite IH. reflexivity.
Qed.
Lemma file_files s t p : f_files s = f_files t -> file_at p s = file_at p t. Proof. unfold file_at. now intros ->. Qed.
Lemma file_none p s : file_at p s = None <-> existsb (fun x => str_eqb (fst x) p) (f_files s) = false.
Proof. unfold file_at. induction (f_files s) as [|x l IH]; [easy|]. cbn [find existsb]. destruct (str_eqb (fst x) p); [easy|exact IH]. Qed.
Lemma str_eqb_sym a b : str_eqb a b = str_eqb b a.
Proof. destruct (str_eqb a b) eqn:E; symmetry; [apply str_eqb_eq in E; subst; apply str_eqb_refl|]. destruct (str_eqb b a) eqn:F; [|reflexivity]. apply str_eqb_eq in F. subst. now rewrite str_eqb_refl in E. Qed.
Lemma find_app_ {A} f (a b : list A) : find f (a ++ b) = match find f a with Some x => Some x | None => find f b end.
Proof. induction a as [|x a IH]; [reflexivity|]. cbn [app find]. now destruct (f x). Qed.
Lemma file_add p f q s : file_at p s = None -> file_at q (set_files (f_files s ++ [(p, f)]) s) = if str_eqb p q then Some f else file_at q s.
Proof.
  intros N. unfold file_at in *. cbn [set_files f_files]. rewrite find_app_. destruct (str_eqb p q) eqn:E.
  - apply str_eqb_eq in E. subst q. destruct (find _ (f_files s)); [discriminate|]. cbn [find fst]. now rewrite str_eqb_refl.
  - destruct (find (fun x => str_eqb (fst x) q) (f_files s)); [reflexivity|]. cbn [find fst]. now rewrite E.
Qed.
Lemma file_del p q s : file_at q (set_files (filter (fun x => negb (str_eqb (fst x) p)) (f_files s)) s) = if str_eqb p q then None else file_at q s.
Proof.
  unfold file_at. cbn [set_files f_files]. induction (f_files s) as [|x l IH]; [now destruct (str_eqb p q)|]. cbn [filter find]. destruct (str_eqb (fst x) p) eqn:E; cbn [negb].
  - rewrite IH. apply str_eqb_eq in E. rewrite E. destruct (str_eqb p q); reflexivity.
  - cbn [find]. destruct (str_eqb (fst x) q) eqn:F; [|exact IH]. apply str_eqb_eq in F. rewrite <- F, str_eqb_sym, E. reflexivity.
Qed.
Lemma fs_ask_keeps s f t : fs_ask s = (f, t) -> f_files t = f_files s /\ f_progs t = f_progs s.
Proof. unfold fs_ask. destruct (f_fail s); intros E; apply pair_equal_spec in E as [_ <-]; split; reflexivity. Qed.
Lemma pin_ok i p s u : pin i p s = (Ok tt, u) -> file_at p s = None /\ f_files u = f_files s ++ [(p, FProg i)] /\ d_loaded (data_at i s) = true /\ has_nul p = false
  /\ f_progs u = replace i {| d_loaded := true; d_path := Some p |} (f_progs s).
Proof.
  unfold pin. cbv zeta. destruct (d_loaded (data_at i s)) eqn:L; [|discriminate]. cbn [negb]. destruct (has_nul p); [discriminate|]. destruct (fs_ask _) as [f t] eqn:A. apply fs_ask_keeps in A as [A B]. cbn [set_data f_files f_progs] in A, B.
  rewrite (file_files t s p A). destruct (file_at p s); [discriminate|]. destruct f; [discriminate|]. intros Q. apply pair_equal_spec in Q as [_ <-]. cbn [set_files f_files f_progs]. rewrite A, B. auto.
Qed.
Lemma filter_true {A} (f : A -> bool) l : (forall x, In x l -> f x = true) -> filter f l = l.
Proof. induction l as [|x l IH]; intros H; [reflexivity|]. cbn [filter]. rewrite (H x) by now left. f_equal. apply IH. intros y I. apply H. now right. Qed.
Theorem pin_round i p s u : (i < length (f_progs s))%nat -> pin i p s = (Ok tt, u) ->
  file_at p u = Some (FProg i) /\ (forall q, q <> p -> file_at q u = file_at q s)
  /\ (hd false (f_fail u) = false -> exists v, unpin i u = (Ok tt, v) /\ f_files v = f_files s /\ d_path (data_at i v) = None).
Proof.
  intros L E. apply pin_ok in E as (N & F & Ld & _ & P). assert (forall q, file_at q u = if str_eqb p q then Some (FProg i) else file_at q s) as At.
  { intros q. rewrite <- (file_add p (FProg i) q s N). now apply file_files. }
  split; [now rewrite At, str_eqb_refl|]. split. { intros q H. rewrite At. destruct (str_eqb p q) eqn:Q; [|reflexivity]. apply str_eqb_eq in Q. congruence. }
  intros H. unfold unpin. unfold data_at at 1. rewrite P, replace_nth, Nat.eqb_refl. apply Nat.ltb_lt in L. rewrite L. cbn [d_path]. set (t := set_data _ _ _). destruct (fs_ask t) as [f v] eqn:A. assert (f = false) as ->. { unfold fs_ask, t in A. cbn [set_data f_fail] in A. destruct (f_fail u); apply pair_equal_spec in A as [<- _]; [reflexivity|exact H]. }
  apply fs_ask_keeps in A as [A B]. change (f_files t) with (f_files u) in A. rewrite (file_files v u p A), At, str_eqb_refl. eexists. split; [reflexivity|]. cbn [set_files f_files]. split.
  - rewrite A, F. rewrite filter_app. cbn [filter fst]. rewrite str_eqb_refl. cbn [negb]. rewrite app_nil_r. apply filter_true. intros x I. apply file_none in N. destruct (str_eqb (fst x) p) eqn:Q; [|reflexivity]. rewrite <- not_true_iff_false in N. exfalso. apply N. apply existsb_exists. now exists x.
  - unfold data_at. cbn [set_files f_progs]. rewrite B. unfold t. cbn [set_data f_progs]. rewrite replace_nth, Nat.eqb_refl. rewrite P, replace_length, L. reflexivity.
Qed.

Definition own (s : fs) : Prop := forall i p, d_path (data_at i s) = Some p -> file_at p s = Some (FProg i).
Lemma data_set i d s j : data_at j (set_data i d s) = if (i =? j)%nat then (if (i <? length (f_progs s))%nat then d else no_data) else data_at j s.
Proof. unfold data_at. cbn [set_data f_progs]. apply replace_nth. Qed.
Lemma own_step o s : own s -> (match o with FPin _ _ => fst (fstep o s) = Ok tt | FRemove _ => False | _ => True end) -> own (snd (fstep o s)).
Proof.
  intros O H. destruct o as [i p|i|i b|p|p]; cbn [fstep] in *.
  - destruct (Nat.ltb i _) eqn:L; [|discriminate]. destruct (pin i p s) as [r u] eqn:E. cbn [fst snd] in *. subst r. apply pin_ok in E as (N & F & _ & _ & P). intros j q Hj.
    assert (file_at q u = if str_eqb p q then Some (FProg i) else file_at q s) as ->. { rewrite <- (file_add p (FProg i) q s N). now apply file_files. }
    unfold data_at in Hj. rewrite P, replace_nth, L in Hj. destruct (Nat.eqb_spec i j) as [<-|Ne].
    + cbn [d_path] in Hj. apply some_inj in Hj. subst q. now rewrite str_eqb_refl.
    + pose proof (O j q Hj) as Q. destruct (str_eqb p q) eqn:Eq; [|exact Q]. apply str_eqb_eq in Eq. congruence.
  - destruct (Nat.ltb i _) eqn:L; [|exact O]. unfold unpin. destruct (d_path (data_at i s)) as [p|] eqn:D; [|exact O]. set (t := set_data _ _ _). destruct (fs_ask t) as [f v] eqn:A. apply fs_ask_keeps in A as [A B]. cbn [set_data f_files] in A. change (f_files t) with (f_files s) in A.
    assert (forall j, data_at j v = if (i =? j)%nat then {| d_loaded := d_loaded (data_at i s); d_path := None |} else data_at j s) as Dv. { intros j. unfold data_at at 1. rewrite B. change (nth j (f_progs t) no_data) with (data_at j t). unfold t. rewrite data_set, L. reflexivity. }
    assert (own v) as Ov. { intros j q Hj. rewrite Dv in Hj. destruct (i =? j)%nat; [discriminate|]. rewrite (file_files v s q A). now apply O. }
    destruct (file_at p v) eqn:Fp; [|exact Ov]. destruct f; [exact Ov|]. cbn [snd]. intros j q Hj. change (data_at j (set_files _ v)) with (data_at j v) in Hj. rewrite file_del. pose proof (Ov j q Hj) as Q. destruct (str_eqb p q) eqn:Eq; [|exact Q]. exfalso. apply str_eqb_eq in Eq. subst q. rewrite Dv in Hj. destruct (Nat.eqb_spec i j) as [<-|Ne]; [discriminate|]. pose proof (O i p D) as Q1. pose proof (O j p Hj) as Q2. congruence.
  - cbn [snd]. intros j q Hj. rewrite data_set in Hj. rewrite (file_files _ s q) by reflexivity. destruct (Nat.eqb_spec i j) as [<-|Ne]; [|now apply O]. destruct (i <? _)%nat; [|discriminate]. cbn [d_path] in Hj. now apply O.
  - destruct (file_at p s) eqn:N; [exact O|]. cbn [snd]. intros j q Hj. change (data_at j (set_files _ s)) with (data_at j s) in Hj. rewrite file_add by exact N. pose proof (O j q Hj) as Q. destruct (str_eqb p q) eqn:Eq; [|exact Q]. apply str_eqb_eq in Eq. congruence.
  - contradiction.
Qed.
Lemma own_steps l : forall s, own s -> smooth l s -> own (fsteps l s).
Proof. induction l as [|o l IH]; intros s O H; [exact O|]. cbn [fsteps smooth] in *. destruct H as [H1 H2]. apply IH; [|exact H2]. now apply own_step. Qed.
Lemma own_fresh s : fresh_fs s -> own s.
Proof.
  intros [_ H] i p Q. exfalso. unfold data_at in Q. destruct (Nat.lt_ge_cases i (length (f_progs s))) as [L|L]; [|rewrite nth_overflow in Q by exact L; discriminate]. rewrite Forall_forall in H. rewrite (H (nth i (f_progs s) no_data)) in Q by now apply nth_In. discriminate.
Qed.
Theorem unpin_own l s i q f : fresh_fs s -> smooth l s -> file_at q (fsteps l s) = Some f -> file_at q (snd (unpin i (fsteps l s))) = Some f \/ f = FProg i.
Proof.
  intros Fr Sm H. pose proof (own_steps l s (own_fresh s Fr) Sm) as O. set (t := fsteps l s) in *. unfold unpin. destruct (d_path (data_at i t)) as [p|] eqn:D; [|now left]. pose proof (O i p D) as Q. destruct (fs_ask _) as [g v] eqn:A. apply fs_ask_keeps in A as [A _]. cbn [set_data f_files] in A.
  destruct (file_at p v) eqn:Fp; [|left; cbn [snd]; now rewrite (file_files v t q A)]. destruct g; [left; cbn [snd]; now rewrite (file_files v t q A)|]. cbn [snd]. rewrite file_del, (file_files v t q A). destruct (str_eqb p q) eqn:Eq; [|now left]. right. apply str_eqb_eq in Eq. subst q. congruence.
Qed.
