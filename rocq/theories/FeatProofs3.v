(** Probes of program types. *)
From Coq Require Import String.
From Verif Require Import Base Text TextSplit Insn BtfSanitize FeatModel FeatSpec FeatProofs FeatProofs2.
Import ListNotations.
Local Open Scope Z_scope.

Lemma prog_unknown k h r : k_prog k (num r 0) = false -> machine (calm k) h 5 r = fail 7 \/ machine (calm k) h 5 r = fail 22.
Proof.
  intros K. unfold machine. cbn [calm k_early k_attr k_ends]. destruct (beyond r (k_attr k)); [now left|]. right.
  destruct (k_ends k 5 =? 0); [reflexivity|]. destruct (beyond r (k_ends k 5)); [reflexivity|].
  unfold load. cbn [calm k_sleepable k_version k_prog]. rewrite K. destruct (negb _); [reflexivity|]. destruct (_ && _); reflexivity.
Qed.
Lemma prog_known k h r : sound_kern k -> k_prog k (num r 0) = true -> beyond r (k_ends k 5) = false ->
  (num r 44 = 0 \/ (num r 44 = 16 /\ k_sleepable k = true)) -> (num r 0 = 2 -> forall v, k_version k = Some v -> num r 40 = v) ->
  attach_ok (num r 0) (num r 68) = true -> (num r 108 = 0 \/ (needs_target (num r 0) || (num r 0 =? 27)) = true) ->
  machine (calm k) h 5 r = verify k h r.
Proof.
  intros S K B F V A T. rewrite (machine_in k h 5 r S); [|pose proof (s_prog_end k S); lia|exact B].
  cbv beta iota. unfold load. cbn [calm k_sleepable k_version k_prog k_late]. rewrite K, A.
  assert (X : negb ((num r 44 =? 0) || ((num r 44 =? 16) && k_sleepable k)) = false) by (destruct F as [-> | [-> ->]]; reflexivity).
  rewrite X. clear X.
  assert (X : (num r 0 =? 2) && match k_version k with Some v => negb (num r 40 =? v) | None => false end = false).
  { destruct (Z.eqb_spec (num r 0) 2) as [EQ|NE]; [|reflexivity]. destruct (k_version k) as [v|]; [|reflexivity].
    rewrite (V EQ v eq_refl), Z.eqb_refl. reflexivity. }
  rewrite X. cbn [negb]. clear X.
  assert (X : negb (num r 108 =? 0) && negb (needs_target (num r 0) || (num r 0 =? 27)) = false).
  { destruct T as [-> | ->]; [reflexivity|]. apply andb_false_r. }
  rewrite X. apply verify_calm.
Qed.

Lemma prog_load_spec E k r h a h' : bpf_prog_load E (machine k) r h = (a, h') ->
  exists h0, same_fds h h0 /\ h' = Call 5 r a :: h0 /\ answered E k h0 5 r a.
Proof. apply retried_spec. now left. Qed.
Lemma trouble_plain k c e : sound_kern k -> trouble k c e -> plain_error e.
Proof. intros S (h & r & [T|T]); [exact (s_early k S _ _ _ _ T)|exact (s_late k S _ _ _ _ T)]. Qed.
Lemma wrong E k right c e p : ~ clean E k -> trouble k c e -> os p = Some e -> settled E k right (Err p).
Proof. intros NC T O. right. split; [exact NC|]. exists c, e. split; [exact T|]. exists p. now split. Qed.

Definition fd_answer (k : kern) (h : history) (log : list Z) : answer := {| a_ret := Ok (k_fd k h); a_log := log |}.

(** The trivial program passes the verifier. *)
Lemma walk_trivial k h t g : walk k h t g trivial false false [] = Accept.
Proof. reflexivity. Qed.
Lemma walk_trivial2 k h t g : walk k h t g (firstn (Z.to_nat 2) trivial) false false [] = Accept.
Proof. reflexivity. Qed.

Definition base (t : Z) (ins : list insn) (n : Z) : request := [(16, 8, VStr (txt "GPL")); (4, 4, VNum n); (8, 8, VInsns ins)].
Definition more_fields (E : env) (t : ptype) : request :=
  match t with
  | PKProbe => match e_version E with Some v => [(40, 4, VNum v)] | None => [] end
  | PSyscall => [(44, 4, VNum 16)]
  | _ => []
  end.
Definition attach_fields (t : ptype) : request := match attach_type t with Some a => [(68, 4, VNum a)] | None => [] end.
Lemma prog_request_eq E t ins :
  prog_request E t ins =
  base (prog_type t) ins (u32 (Z.of_nat (length ins))) ++ more_fields E t ++ (0, 4, VNum (prog_type t)) :: attach_fields t.
Proof.
  unfold prog_request, base, more_fields, attach_fields. destruct t as [ | | | | | | | | | | | | | | | | | | | | | | | | | | | | | [] | | |]; try reflexivity.
Qed.
Lemma number_eq t : prog_type t = number t.
Proof. destruct t; reflexivity. Qed.

Lemma request_type E t ins ex : num (prog_request E t ins ++ ex) 0 = number t.
Proof.
  rewrite prog_request_eq, number_eq. unfold base, more_fields. destruct t; try reflexivity. destruct (e_version E); reflexivity.
Qed.

(** Where a program of a type that loads by itself gets. *)
Definition by_itself (t : ptype) : bool :=
  match t with PUnspecified | PTracing | PStructOps | PExtension | PLsm _ => false | _ => true end.
Lemma by_itself_loads E k t ins ex h n : sound_kern k -> by_itself t = true -> k_prog k (number t) = true ->
  (t = PKProbe -> version_known E k) -> Z.of_nat (length ins) = n -> 0 < n < 10 ->
  (forall o s v, In (o, s, v) ex -> nonzero v = true -> o + s <= 40) ->
  (forall o, (o = 0 \/ o = 4 \/ o = 8 \/ o = 16 \/ 40 <= o) -> find (fun f => fst (fst f) =? o) ex = None) ->
  let r := prog_request E t ins ++ ex in
  machine (calm k) h 5 r =
  match walk k h (number t) true ins false false [] with
  | Accept => {| a_ret := Ok (k_fd k h); a_log := shown r [stats] |}
  | Reject lines e => reject r lines e
  end.
Proof.
  intros S BI K V N1 N2 X1 X2 r.
  assert (U : u32 n = n) by (unfold u32, wrap; apply Z.mod_small; lia).
  pose proof (s_prog_end k S) as B5. pose proof (s_kprobe k S) as BK. pose proof (s_syscall k S) as BS.
  assert (BA : In (number t) [16; 18; 20; 21; 22; 23; 25; 26; 29; 30; 32] -> 72 <= k_ends k 5) by (intros I; exact (s_attach k S _ I K)).
  assert (FI : forall (P : Z * Z * val -> bool) a b, find P (a ++ b) = match find P a with Some x => Some x | None => find P b end).
  { clear. intros P a b. induction a as [|x a IH]; [reflexivity|]. cbn. destruct (P x); [reflexivity|exact IH]. }
  assert (RQ : forall o, (o = 0 \/ o = 4 \/ o = 8 \/ o = 16 \/ 40 <= o) -> at_off r o = at_off (prog_request E t ins) o).
  { intros o O. unfold r, at_off. rewrite FI, (X2 o O). destruct (find _ _); reflexivity. }
  assert (BY : beyond r (k_ends k 5) = false).
  { apply beyond_false. intros o s v I NZ. unfold r in I. apply in_app_or in I as [I|I]; [|specialize (X1 _ _ _ I NZ); lia].
    rewrite prog_request_eq in I. clear RQ X1 X2 r.
    destruct t as [ | | | | | | | | | | | | | | | | | | | | | | | | | | | | | [] | | |]; try discriminate BI;
      cbn [number In] in BA; cbn [number] in K; try specialize (BK K); try specialize (BS K);
      unfold base, more_fields, attach_fields in I; cbn [attach_type] in I; try (destruct (e_version E) as [ver|]);
      cbn [app In] in I;
      repeat (destruct I as [I|I]; [apply pair_equal_spec in I as [I I2]; apply pair_equal_spec in I as [I I1]; subst o s v; lia|]); destruct I. }
  assert (AT : forall o, (o = 0 \/ o = 4 \/ o = 8 \/ o = 16 \/ 40 <= o) -> num r o = num (prog_request E t ins) o).
  { intros o O. unfold num. now rewrite (RQ o O). }
  rewrite (prog_known k h r S); [| |exact BY| | | |].
  - unfold verify. rewrite !AT, !RQ by lia. unfold is_gpl. rewrite !RQ by lia. rewrite prog_request_eq, N1, U.
    clear - BI N1.
    assert (FN : firstn (Z.to_nat n) ins = ins) by (rewrite <- N1, Nat2Z.id; apply firstn_all).
    destruct t as [ | | | | | | | | | | | | | | | | | | | | | | | | | | | | | [] | | |]; try discriminate BI;
      unfold base, more_fields; try (destruct (e_version E) as [ver|]); cbn; rewrite FN; reflexivity.
  - unfold r. now rewrite request_type.
  - rewrite AT by lia. rewrite prog_request_eq. clear - BS K BI.
    destruct t as [ | | | | | | | | | | | | | | | | | | | | | | | | | | | | | [] | | |]; try discriminate BI;
      unfold base, more_fields; try (destruct (e_version E) as [ver|]); try (left; reflexivity).
    all: right; split; [reflexivity|]; destruct (BS K) as [_ X]; exact X.
  - rewrite !AT by lia. rewrite prog_request_eq. intros Q ver KV.
    assert (TK : t = PKProbe).
    { clear - Q BI. destruct t as [ | | | | | | | | | | | | | | | | | | | | | | | | | | | | | [] | | |]; try discriminate BI; try reflexivity; discriminate Q. }
    subst t. specialize (V eq_refl ver KV). unfold base, more_fields. rewrite V. reflexivity.
  - rewrite !AT by lia. rewrite prog_request_eq. clear - BI.
    destruct t as [ | | | | | | | | | | | | | | | | | | | | | | | | | | | | | [] | | |]; try discriminate BI;
      unfold base, more_fields; try (destruct (e_version E) as [ver|]); reflexivity.
  - left. rewrite !AT by lia. rewrite prog_request_eq. clear - BI.
    destruct t as [ | | | | | | | | | | | | | | | | | | | | | | | | | | | | | [] | | |]; try discriminate BI;
      unfold base, more_fields; try (destruct (e_version E) as [ver|]); reflexivity.
Qed.
