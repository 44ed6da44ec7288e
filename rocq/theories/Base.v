(** Shared vocabulary: results, bytes, little-endian codecs, slices and list
    updates.  Nothing in this file models a particular function of /repo; it
    gives meaning to the Rust primitives the model files use. *)
From Coq Require Export List Arith ZArith Lia Bool.
From Coq Require Export ZifyBool ZifyNat ZifyN.
From Coq Require Export Permutation.
Export ListNotations.
Ltac Zify.zify_post_hook ::= Z.div_mod_to_equations.

Global Arguments Z.add : simpl never.
Global Arguments Z.sub : simpl never.
Global Arguments Z.mul : simpl never.
Global Arguments Z.div : simpl never.
Global Arguments Z.modulo : simpl never.
Global Arguments Z.pow : simpl never.
Global Arguments Z.of_nat : simpl never.
Global Arguments Z.to_nat : simpl never.
Global Arguments Z.land : simpl never.
Global Arguments Z.lor : simpl never.
Global Arguments Z.shiftl : simpl never.
Global Arguments Z.shiftr : simpl never.

(** Rust [Result<A, E>]. *)
Inductive res (E A : Type) : Type :=
| Ok (a : A)
| Err (e : E).
Arguments Ok {E A} a.
Arguments Err {E A} e.

Definition bind {E A B} (r : res E A) (f : A -> res E B) : res E B :=
  match r with Ok a => f a | Err e => Err e end.

Definition is_ok {E A} (r : res E A) : bool :=
  match r with Ok _ => true | Err _ => false end.

(** Machine integers. *)
Definition wrap (bits : Z) (x : Z) : Z := (x mod 2 ^ bits)%Z.
Definition u8 := wrap 8.
Definition u16 := wrap 16.
Definition u32 := wrap 32.
Definition u64 := wrap 64.
(** Reinterpretation as a two's complement signed number ([x as iN]). *)
Definition swrap (bits : Z) (x : Z) : Z :=
  (let y := x mod 2 ^ bits in if y <? 2 ^ (bits - 1) then y else y - 2 ^ bits)%Z.
Definition i16 := swrap 16.
Definition i32 := swrap 32.
Definition i64 := swrap 64.

(** Bytes are integers in [0,256). *)
Definition byte_ok (b : Z) : bool := ((0 <=? b) && (b <? 256))%Z.
Definition bytes_ok (l : list Z) : bool := forallb byte_ok l.

(** Little-endian encoding of the low [n] bytes of [x] / decoding. *)
Fixpoint le_enc (n : nat) (x : Z) : list Z :=
  match n with
  | O => []
  | S k => (x mod 256)%Z :: le_enc k (x / 256)%Z
  end.
Fixpoint le_dec (l : list Z) : Z :=
  match l with
  | [] => 0%Z
  | b :: r => (b + 256 * le_dec r)%Z
  end.

(** [&l[off..off+len]] and [l.get(off..off+len)]. *)
Definition slice {A} (off len : nat) (l : list A) : list A := firstn len (skipn off l).
Definition get_slice {A} (off len : nat) (l : list A) : option (list A) :=
  if (off + len <=? length l)%nat then Some (slice off len l) else None.

(** [l[i] = v] and [l[off..off+new.len()].copy_from_slice(new)]. *)
Fixpoint upd {A} (i : nat) (v : A) (l : list A) {struct l} : list A :=
  match l, i with
  | [], _ => []
  | _ :: r, O => v :: r
  | x :: r, S k => x :: upd k v r
  end.
Definition splice {A} (off : nat) (new l : list A) : list A :=
  firstn off l ++ new ++ skipn (off + length new) l.

(** Association list lookup ([HashMap::get]). *)
Fixpoint assoc {K V} (eqb : K -> K -> bool) (k : K) (l : list (K * V)) : option V :=
  match l with
  | [] => None
  | (k', v) :: r => if eqb k k' then Some v else assoc eqb k r
  end.

(** [iter().map(f).collect::<Result<Vec<_>, _>>()]. *)
Fixpoint mapM {A B E} (f : A -> res E B) (l : list A) : res E (list B) :=
  match l with
  | [] => Ok []
  | x :: l => bind (f x) (fun y => bind (mapM f l) (fun ys => Ok (y :: ys)))
  end.

(* ------------------------------------------------------------------ *)
(** * Lemmas *)

Lemma ok_inj {E A} (a b : A) : @Ok E A a = Ok b -> a = b.
Proof. intros H. congruence. Qed.

Lemma some_inj {A} (x y : A) : Some x = Some y -> x = y.
Proof. congruence. Qed.

Lemma le_enc_length n x : length (le_enc n x) = n.
Proof. revert x; induction n as [|n IH]; intros x; cbn [le_enc length]; [reflexivity|now rewrite IH]. Qed.

Lemma byte_ok_iff b : byte_ok b = true <-> (0 <= b < 256)%Z.
Proof. unfold byte_ok. lia. Qed.

Lemma bytes_ok_app a b : bytes_ok (a ++ b) = bytes_ok a && bytes_ok b.
Proof. unfold bytes_ok. apply forallb_app. Qed.

Lemma bytes_ok_cons x l : bytes_ok (x :: l) = byte_ok x && bytes_ok l.
Proof. reflexivity. Qed.

Lemma bytes_ok_firstn n l : bytes_ok l = true -> bytes_ok (firstn n l) = true.
Proof.
  revert l; induction n as [|n IH]; intros [|x l]; cbn [firstn]; auto.
  rewrite !bytes_ok_cons, !andb_true_iff. intros [H1 H2]; auto.
Qed.

Lemma bytes_ok_skipn n l : bytes_ok l = true -> bytes_ok (skipn n l) = true.
Proof.
  revert l; induction n as [|n IH]; intros [|x l]; cbn [skipn]; auto.
  rewrite bytes_ok_cons, andb_true_iff. intros [H1 H2]; auto.
Qed.

Lemma bytes_ok_slice o n l : bytes_ok l = true -> bytes_ok (slice o n l) = true.
Proof. intros H. apply bytes_ok_firstn, bytes_ok_skipn, H. Qed.

Lemma le_enc_bytes_ok n x : bytes_ok (le_enc n x) = true.
Proof.
  revert x; induction n as [|n IH]; intros x; cbn [le_enc]; [reflexivity|].
  rewrite bytes_ok_cons, IH, andb_true_r. apply byte_ok_iff. apply Z.mod_pos_bound. lia.
Qed.

Lemma le_dec_enc n x : le_dec (le_enc n x) = (x mod 256 ^ Z.of_nat n)%Z.
Proof.
  revert x; induction n as [|n IH]; intros x; cbn [le_enc le_dec].
  - symmetry. apply Z.mod_1_r.
  - rewrite IH, Nat2Z.inj_succ, Z.pow_succ_r by lia.
    rewrite Z.rem_mul_r by (try apply Z.pow_nonzero; lia). reflexivity.
Qed.

Lemma le_dec_bound l : bytes_ok l = true -> (0 <= le_dec l < 256 ^ Z.of_nat (length l))%Z.
Proof.
  induction l as [|b l IH]; intros H.
  - cbn. lia.
  - rewrite bytes_ok_cons, andb_true_iff, byte_ok_iff in H. destruct H as [Hb Hl].
    specialize (IH Hl). cbn [le_dec length]. rewrite Nat2Z.inj_succ, Z.pow_succ_r by lia. nia.
Qed.

Lemma le_enc_dec l : bytes_ok l = true -> le_enc (length l) (le_dec l) = l.
Proof.
  induction l as [|b l IH]; intros H; [reflexivity|].
  rewrite bytes_ok_cons, andb_true_iff, byte_ok_iff in H. destruct H as [Hb Hl].
  cbn [length le_enc le_dec].
  replace ((b + 256 * le_dec l) mod 256)%Z with b by lia.
  replace ((b + 256 * le_dec l) / 256)%Z with (le_dec l) by lia.
  now rewrite IH.
Qed.

Lemma le_dec_enc_small n x : (0 <= x < 256 ^ Z.of_nat n)%Z -> le_dec (le_enc n x) = x.
Proof. intros H. rewrite le_dec_enc. apply Z.mod_small, H. Qed.

Lemma slice_length {A} o n (l : list A) : (o + n <= length l)%nat -> length (slice o n l) = n.
Proof. intros H. unfold slice. rewrite firstn_length, skipn_length. lia. Qed.

Lemma skipn_skipn' {A} a b (l : list A) : skipn a (skipn b l) = skipn (b + a) l.
Proof.
  revert l; induction b as [|b IH]; intros l; [reflexivity|].
  destruct l as [|x l]; cbn [skipn Nat.add]; [now rewrite skipn_nil|apply IH].
Qed.

Lemma slice_app_exact {A} (p m s : list A) : slice (length p) (length m) (p ++ m ++ s) = m.
Proof.
  unfold slice. rewrite skipn_app, skipn_all, Nat.sub_diag. cbn [app skipn].
  rewrite firstn_app, firstn_all, Nat.sub_diag. cbn [firstn]. apply app_nil_r.
Qed.

Lemma slice_app_exact' {A} o n (p m s : list A) :
  o = length p -> n = length m -> slice o n (p ++ m ++ s) = m.
Proof. intros -> ->. apply slice_app_exact. Qed.

Lemma firstn_app_exact {A} n (p s : list A) : n = length p -> firstn n (p ++ s) = p.
Proof. intros ->. rewrite firstn_app, firstn_all, Nat.sub_diag. cbn [firstn]. apply app_nil_r. Qed.

Lemma skipn_app_exact {A} n (p s : list A) : n = length p -> skipn n (p ++ s) = s.
Proof. intros ->. rewrite skipn_app, skipn_all, Nat.sub_diag. reflexivity. Qed.

Lemma get_slice_some {A} o n (l r : list A) :
  get_slice o n l = Some r <-> (o + n <= length l)%nat /\ r = slice o n l.
Proof.
  unfold get_slice. destruct (Nat.leb_spec (o + n) (length l)); split.
  - intros E; inversion E; auto.
  - intros [_ ->]; auto.
  - discriminate.
  - intros [? ?]; lia.
Qed.

Lemma upd_length {A} i (v : A) l : length (upd i v l) = length l.
Proof. revert i; induction l as [|x l IH]; intros [|i]; cbn [upd length]; auto. Qed.

Lemma nth_error_upd {A} i j (v : A) l :
  nth_error (upd i v l) j =
  if (i =? j)%nat then (if (j <? length l)%nat then Some v else None) else nth_error l j.
Proof.
  revert i j; induction l as [|x l IH]; intros [|i] [|j]; cbn [upd nth_error length]; auto.
  - destruct (Nat.eqb (S i) (S j)); auto.
  - rewrite IH. reflexivity.
Qed.

Lemma nth_error_upd_eq {A} i (v : A) l : (i < length l)%nat -> nth_error (upd i v l) i = Some v.
Proof. intros H. rewrite nth_error_upd, Nat.eqb_refl. destruct (Nat.ltb_spec i (length l)); [auto|lia]. Qed.

Lemma nth_error_upd_ne {A} i j (v : A) l : i <> j -> nth_error (upd i v l) j = nth_error l j.
Proof. intros H. rewrite nth_error_upd. destruct (Nat.eqb_spec i j); [contradiction|reflexivity]. Qed.

Lemma upd_app {A} (p s : list A) x v : upd (length p) v (p ++ x :: s) = p ++ v :: s.
Proof. induction p as [|a p IH]; cbn [length upd app]; [reflexivity|now rewrite IH]. Qed.

Lemma splice_length {A} o (n l : list A) : (o + length n <= length l)%nat -> length (splice o n l) = length l.
Proof. intros H. unfold splice. rewrite !app_length, firstn_length, skipn_length. lia. Qed.

Lemma nth_error_firstn {A} n i (l : list A) :
  nth_error (firstn n l) i = if (i <? n)%nat then nth_error l i else None.
Proof.
  revert i l; induction n as [|n IH]; intros i l.
  - cbn. now destruct i.
  - destruct l as [|x l]; cbn [firstn].
    + destruct i as [|i]; cbn [nth_error]; [reflexivity|]. now destruct (S i <? S n)%nat.
    + destruct i as [|i]; cbn [nth_error]; [reflexivity|]. rewrite IH. reflexivity.
Qed.

Lemma nth_error_skipn {A} n i (l : list A) : nth_error (skipn n l) i = nth_error l (n + i).
Proof.
  revert l; induction n as [|n IH]; intros l; [reflexivity|].
  destruct l as [|x l]; cbn [skipn Nat.add nth_error]; [now destruct i|apply IH].
Qed.

Lemma nth_error_slice {A} o n i (l : list A) :
  nth_error (slice o n l) i = if (i <? n)%nat then nth_error l (o + i) else None.
Proof. unfold slice. rewrite nth_error_firstn, nth_error_skipn. reflexivity. Qed.

Lemma nth_error_splice {A} o i (n l : list A) :
  (o + length n <= length l)%nat ->
  nth_error (splice o n l) i =
  if (i <? o)%nat then nth_error l i
  else if (i <? o + length n)%nat then nth_error n (i - o)
  else nth_error l i.
Proof.
  intros H. unfold splice.
  destruct (Nat.ltb_spec i o) as [Hi|Hi].
  - rewrite nth_error_app1 by (rewrite firstn_length; lia).
    rewrite nth_error_firstn. destruct (Nat.ltb_spec i o); [reflexivity|lia].
  - rewrite nth_error_app2 by (rewrite firstn_length; lia).
    rewrite firstn_length. replace (i - Nat.min o (length l))%nat with (i - o)%nat by lia.
    destruct (Nat.ltb_spec i (o + length n)).
    + rewrite nth_error_app1 by lia. reflexivity.
    + rewrite nth_error_app2 by lia. rewrite nth_error_skipn. f_equal. lia.
Qed.

Lemma list_eq_nth_error {A} (l1 l2 : list A) :
  (forall i, nth_error l1 i = nth_error l2 i) -> l1 = l2.
Proof.
  revert l2; induction l1 as [|x l1 IH]; intros [|y l2] H; auto.
  - specialize (H O). discriminate.
  - specialize (H O). discriminate.
  - pose proof (H O) as H0. cbn in H0. inversion H0; subst. f_equal.
    apply IH. intros i. apply (H (S i)).
Qed.

Lemma firstn_skipn_slice {A} a b (l : list A) :
  (a <= b)%nat -> firstn b l = firstn a l ++ slice a (b - a) l.
Proof.
  intros H. apply list_eq_nth_error. intros i.
  destruct (Nat.lt_ge_cases i (length (firstn a l))) as [Hi|Hi].
  - rewrite nth_error_app1 by exact Hi. rewrite firstn_length in Hi.
    rewrite !nth_error_firstn.
    destruct (Nat.ltb_spec i a), (Nat.ltb_spec i b); try lia; reflexivity.
  - rewrite nth_error_app2 by exact Hi. rewrite firstn_length in *.
    rewrite nth_error_slice, nth_error_firstn.
    destruct (Nat.lt_ge_cases i (length l)).
    + destruct (Nat.ltb_spec (i - Nat.min a (length l)) (b - a)), (Nat.ltb_spec i b); try lia; try reflexivity.
      f_equal; lia.
    + assert (nth_error l i = None) as -> by (apply nth_error_None; lia).
      assert (nth_error l (a + (i - Nat.min a (length l))) = None) as -> by (apply nth_error_None; lia).
      destruct (i <? b)%nat, (i - Nat.min a (length l) <? b - a)%nat; reflexivity.
Qed.

Lemma slice_app_split {A} o n m (l : list A) : slice o n l ++ slice (o + n) m l = slice o (n + m) l.
Proof.
  unfold slice. rewrite <- (skipn_skipn' n o l).
  generalize (skipn o l); intros k. clear.
  revert k; induction n as [|n IH]; intros [|x k]; cbn [firstn skipn app Nat.add].
  - reflexivity.
  - reflexivity.
  - now rewrite firstn_nil.
  - f_equal. apply IH.
Qed.

Lemma assoc_in {K V} eqb (k : K) (l : list (K * V)) v :
  (forall a b, eqb a b = true <-> a = b) -> assoc eqb k l = Some v -> In (k, v) l.
Proof.
  intros E. induction l as [|[k' v'] l IH]; cbn [assoc]; [discriminate|].
  destruct (eqb k k') eqn:Hk.
  - intros H; inversion H; subst. apply E in Hk. subst. now left.
  - intros H; right; auto.
Qed.

Lemma assoc_nodup {K V} eqb (k : K) (l : list (K * V)) v :
  (forall a b, eqb a b = true <-> a = b) ->
  NoDup (map fst l) -> In (k, v) l -> assoc eqb k l = Some v.
Proof.
  intros E. induction l as [|[k' v'] l IH]; cbn [assoc map fst]; intros ND HIn; [contradiction|].
  inversion ND; subst. destruct HIn as [Heq|HIn].
  - inversion Heq; subst. now rewrite (proj2 (E k k) eq_refl).
  - destruct (eqb k k') eqn:Hk.
    + apply E in Hk; subst. exfalso. apply H1. apply (in_map fst) in HIn. exact HIn.
    + auto.
Qed.

Lemma mapM_ok {A B E} (f : A -> res E B) l : forall r, mapM f l = Ok r -> Forall2 (fun x y => f x = Ok y) l r.
Proof.
  induction l as [|x l IH]; intros r H; cbn [mapM] in H.
  - apply ok_inj in H. subst. constructor.
  - destruct (f x) as [y|] eqn:Ey; cbn [bind] in H; [|discriminate].
    destruct (mapM f l) as [ys|]; cbn [bind] in H; [|discriminate]. apply ok_inj in H. subst. constructor; auto.
Qed.

Lemma mapM_err {A B E} (f : A -> res E B) l e : mapM f l = Err e -> exists x, In x l /\ f x = Err e.
Proof.
  induction l as [|x l IH]; cbn [mapM]; intros H; [discriminate|].
  destruct (f x) as [y|e1] eqn:E1; cbn [bind] in H.
  - destruct (mapM f l) as [ys|e2] eqn:E2; cbn [bind] in H; [discriminate|].
    assert (e2 = e) as -> by congruence. destruct (IH eq_refl) as (z & Hz & Ez). exists z. split; [now right|exact Ez].
  - exists x. split; [now left|congruence].
Qed.

Lemma Forall2_nth {A B} (R : A -> B -> Prop) l m : length l = length m ->
  (forall j x, nth_error l j = Some x -> exists y, nth_error m j = Some y /\ R x y) -> Forall2 R l m.
Proof.
  revert m. induction l as [|x l IH]; intros [|y m] Hl H; cbn [length] in Hl; try discriminate; [constructor|].
  constructor.
  - destruct (H 0%nat x eq_refl) as (z & E & Hr). cbn in E. congruence.
  - apply IH; [lia|]. intros j z Hz. exact (H (S j) z Hz).
Qed.

