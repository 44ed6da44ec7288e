From Coq Require Import String.
From Verif Require Import Base LayoutModel CtxModel CtxSpec.
Import ListNotations.
Local Open Scope Z_scope.

Definition contexts : list context := [SkBuff; Xdp; SkMsg; SockOps; SkReuseport].
Lemma in_contexts c : In c contexts.
Proof. destruct c; cbn; tauto. Qed.
Definition pair_eqb (a b : option (Z * Z)) : bool :=
  match a, b with Some (x, y), Some (u, v) => (x =? u) && (y =? v) | _, _ => false end.
Lemma pair_eqb_eq a b : pair_eqb a b = true -> a = b.
Proof. destruct a as [[x y]|], b as [[u v]|]; cbn; intros H; try discriminate H. apply andb_true_iff in H as [H1 H2]. apply Z.eqb_eq in H1, H2. now subst. Qed.

Lemma places_checked : forallb (fun c => forallb (fun '(m, p) => pair_eqb (place c m) (Some p)) (kernel_place c)) contexts = true.
Proof. vm_compute. reflexivity. Qed.
Lemma place_kernel c m p : In (m, p) (kernel_place c) -> place c m = Some p.
Proof.
  intros I. pose proof places_checked as C. rewrite forallb_forall in C. specialize (C c (in_contexts c)).
  rewrite forallb_forall in C. specialize (C _ I). apply pair_eqb_eq in C. exact C.
Qed.
Lemma methods_checked : forallb (fun c => forallb (fun '(m, _) => existsb (fun '(n, _) => String.eqb n m) (kernel_place c)) (accessors c)) contexts = true.
Proof. vm_compute. reflexivity. Qed.
(** No accessor reads anything else. *)
Lemma place_only c m p : place c m = Some p -> In (m, p) (kernel_place c).
Proof.
  intros H. pose proof methods_checked as C. rewrite forallb_forall in C. specialize (C c (in_contexts c)).
  rewrite forallb_forall in C. unfold place in H. destruct (find _ (accessors c)) as [[n f]|] eqn:F; [|discriminate H].
  pose proof (find_some _ _ F) as [I E]. cbn in E. apply String.eqb_eq in E. subst n.
  specialize (C _ I). cbn in C. apply existsb_exists in C as ([n q] & J & E). apply String.eqb_eq in E. subst n.
  pose proof (place_kernel c m q J) as P. unfold place in P. rewrite F in P. rewrite H in P. apply some_inj in P. now subst q.
Qed.
Lemma place_iff c m p : place c m = Some p <-> In (m, p) (kernel_place c).
Proof. split; [apply place_only|apply place_kernel]. Qed.

Lemma inside_checked : forallb (fun c => forallb (fun '(_, (o, s)) => (0 <=? o) && (0 <? s) && (o + s <=? context_size c)) (kernel_place c) && (size (structure c) =? context_size c)) contexts = true.
Proof. vm_compute. reflexivity. Qed.
Lemma inside c m o s : In (m, (o, s)) (kernel_place c) -> 0 <= o /\ 0 < s /\ o + s <= context_size c.
Proof.
  intros I. pose proof inside_checked as C. rewrite forallb_forall in C. specialize (C c (in_contexts c)).
  apply andb_true_iff in C as [C _]. rewrite forallb_forall in C. specialize (C _ I). cbn in C. lia.
Qed.

Lemma get_reads c m o s ctx : In (m, (o, s)) (kernel_place c) -> context_size c <= Z.of_nat (length ctx) ->
  get c m ctx = Ok (slice (Z.to_nat o) (Z.to_nat s) ctx).
Proof.
  intros I L. destruct (inside c m o s I) as (A & B & D). unfold get. rewrite (place_kernel _ _ _ I).
  unfold get_slice. destruct (Nat.leb_spec (Z.to_nat o + Z.to_nat s) (length ctx)); [reflexivity|lia].
Qed.
Lemma set_writes c m o s v ctx : In (m, (o, s)) (kernel_place c) -> context_size c <= Z.of_nat (length ctx) ->
  set c m v ctx = Ok (splice (Z.to_nat o) (le_enc (Z.to_nat s) v) ctx).
Proof.
  intros I L. destruct (inside c m o s I) as (A & B & D). unfold set. rewrite (place_kernel _ _ _ I).
  replace (o + s <=? Z.of_nat (length ctx)) with true by lia. reflexivity.
Qed.

Lemma slice_slice {A} o n p q (l : list A) : (p + q <= n)%nat -> slice p q (slice o n l) = slice (o + p) q l.
Proof.
  intros H. unfold slice. rewrite skipn_firstn_comm, firstn_firstn, skipn_skipn'. replace (Nat.min q (n - p)) with q by lia. f_equal.
Qed.
Lemma sock_ops_arg_reads ctx n : 224 <= Z.of_nat (length ctx) ->
  sock_ops_arg ctx n = if (n <? 4)%nat then Ok (le_dec (slice (4 + 4 * n) 4 ctx)) else Err IndexPanic.
Proof.
  intros L. unfold sock_ops_arg. rewrite (get_reads SockOps "arg" 4 16); [|cbn; tauto|exact L]. cbn [bind].
  destruct (Nat.ltb_spec n 4) as [H|H]; [|reflexivity]. do 2 f_equal. apply slice_slice. change (Z.to_nat 16) with 16%nat. lia.
Qed.
Lemma migrating_reads ctx : 56 <= Z.of_nat (length ctx) ->
  migrating_sk ctx = Ok (let p := le_dec (slice 48 8 ctx) in if p =? 0 then None else Some p).
Proof.
  intros L. unfold migrating_sk. rewrite (get_reads SkReuseport "migrating_sk" 48 8); [|cbn; tauto|exact L]. reflexivity.
Qed.
