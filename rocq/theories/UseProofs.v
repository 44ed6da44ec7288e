(** Proofs about maps used from programs and from user space. *)
From Verif Require Import Base Text MapModel MapSpec MapProofs TypedModel TypedSpec TypedProofs TypedProofs2 TypedProofs3 TestRunProofs UseModel UseSpec.
Import ListNotations.
Local Open Scope Z_scope.

(** * Runs *)

Lemma turns_sim {S T} (t : side -> S -> result * S) (u : side -> T -> result * T) (R : T -> S -> Prop) (good : side -> Prop) :
  (forall c x s, good c -> R x s -> fst (t c s) = fst (u c x) /\ R (snd (u c x)) (snd (t c s))) ->
  forall l x s, Forall good l -> R x s -> fst (turns t l s) = fst (turns u l x).
Proof.
  intros St l. induction l as [|c l IH]; intros x s G Rxs; [reflexivity|]. cbn [turns].
  specialize (St c x s (Forall_inv G) Rxs) as [E R']. destruct (t c s) as [r s1]. destruct (u c x) as [r' x1]. cbn [fst snd] in *.
  specialize (IH x1 s1 (Forall_inv_tail G) R'). destruct (turns t l s1) as [rs s2]. destruct (turns u l x1) as [rs' x2]. cbn [fst] in *. congruence.
Qed.

(** * Values kept in the kernel *)

Lemma slot_stride n : Z.to_nat (slot_size (Z.of_nat n)) = next_multiple_of_8 n.
Proof. rewrite <- stride_eq. lia. Qed.

(** The value some bytes of a map stand for. *)
Definition slots (cpus size : nat) (b : list Z) : list (list Z) := map (fun i => slice (i * next_multiple_of_8 size) size b) (seq 0 cpus).
Definition val_of (cpus : nat) (h : handle) (b : list Z) : uval :=
  if per_cpu (hd_wrap h) then WPerCpu (slots cpus (Z.to_nat (hd_v h)) b) else WData b.

Lemma slots_length cpus size b : length (slots cpus size b) = cpus.
Proof. unfold slots. now rewrite map_length, seq_length. Qed.
Lemma slots_nth cpus size b i : (i < cpus)%nat -> nth_error (slots cpus size b) i = Some (slice (i * next_multiple_of_8 size) size b).
Proof.
  intros L. unfold slots. rewrite (map_nth_error _ i (seq 0 cpus) (d := i)); [reflexivity|].
  rewrite (nth_error_nth' _ 0%nat) by now rewrite seq_length. now rewrite seq_nth.
Qed.
Lemma slots_sizes cpus size b : length b = (cpus * next_multiple_of_8 size)%nat -> Forall (fun v => length v = size) (slots cpus size b).
Proof.
  intros L. apply Forall_forall. intros v I. apply In_nth_error in I as [i E].
  assert (i < cpus)%nat as Li. { rewrite <- (slots_length cpus size b). apply nth_error_Some. congruence. }
  rewrite slots_nth in E by exact Li. apply some_inj in E. subst v. apply slice_length. pose proof (stride_ge size). nia.
Qed.
Lemma slots_read cpus size b : (0 < size)%nat -> length b = (cpus * next_multiple_of_8 size)%nat -> from_kernel_mem size b = Ok (slots cpus size b).
Proof.
  intros P L. pose proof (slots_sizes cpus size b L) as F.
  rewrite (slots_of (next_multiple_of_8 size) size (slots cpus size b) b) at 1.
  - apply from_given.
    + exact P.
    + now rewrite map_length, seq_length.
    + exact F.
    + apply Forall_forall. intros p I. apply in_map_iff in I as (j & <- & J). apply in_seq in J. rewrite slots_length in J.
      rewrite slice_length; [pose proof (stride_eq size); pose proof (stride_ge size); lia|]. pose proof (stride_ge size). nia.
  - apply stride_ge.
  - exact F.
  - now rewrite slots_length.
  - intros j v E. assert (j < cpus)%nat as Lj. { rewrite <- (slots_length cpus size b). apply nth_error_Some. congruence. }
    rewrite slots_nth in E by exact Lj. now apply some_inj in E.
Qed.

Lemma nth_ext_error {A} (a b : list A) : (forall i, nth_error a i = nth_error b i) -> a = b.
Proof.
  revert b. induction a as [|x a IH]; intros [|y b] H.
  - reflexivity.
  - specialize (H 0%nat). discriminate H.
  - specialize (H 0%nat). discriminate H.
  - pose proof (H 0%nat) as H0. cbn in H0. apply some_inj in H0. subst y. f_equal. apply IH. intros i. exact (H (S i)).
Qed.
Lemma set_at_nth {A} i (x : A) l j : (i < length l)%nat -> nth_error (set_at i x l) j = if (i =? j)%nat then Some x else nth_error l j.
Proof.
  intros L. unfold set_at. destruct (Nat.eqb_spec i j) as [<-|N].
  - rewrite nth_error_app2; rewrite firstn_length; [|lia]. replace (i - Nat.min i (length l))%nat with 0%nat by lia. reflexivity.
  - destruct (Nat.lt_ge_cases j i) as [Lt|Ge].
    + rewrite nth_error_app1 by (rewrite firstn_length; lia). rewrite nth_error_firstn. destruct (Nat.ltb_spec j i); [reflexivity|lia].
    + rewrite nth_error_app2; rewrite firstn_length; [|lia]. replace (j - Nat.min i (length l))%nat with (S (j - S i)) by lia. cbn [app nth_error].
      rewrite nth_error_skipn. f_equal. lia.
Qed.

(** What a handle and the map behind it have in common. *)
Definition plain (cpus : nat) (h : handle) : Prop :=
  0 < hd_v h /\ h_value (hd_shape h) = hd_v h /\ per_cpu (hd_wrap h) = for_each_cpu (hd_shape h) /\
  Z.to_nat (copied cpus (hd_shape h)) =
    if per_cpu (hd_wrap h) then (cpus * next_multiple_of_8 (Z.to_nat (hd_v h)))%nat else Z.to_nat (hd_v h).
Lemma plain_of cpus h t : 0 < hd_v h -> h_value (hd_shape h) = hd_v h -> h_type (hd_shape h) = t ->
  per_cpu (hd_wrap h) = (t =? 5) || (t =? 6) -> (t = 1 \/ t = 2 \/ t = 5 \/ t = 6) -> plain cpus h.
Proof.
  intros P V T C A. unfold plain, for_each_cpu, copied. rewrite V, T, C. repeat split; auto.
  pose proof (stride_eq (Z.to_nat (hd_v h))) as E. unfold slot_size in E. rewrite Z2Nat.id in E by lia.
  destruct A as [-> | [-> | [-> | ->]]]; cbn [existsb Z.eqb Pos.eqb orb]; nia.
Qed.

Lemma here_eq cpus cpu h : plain cpus h ->
  here cpu (hd_shape h) = if per_cpu (hd_wrap h) then (cpu * next_multiple_of_8 (Z.to_nat (hd_v h)))%nat else 0%nat.
Proof.
  intros (P & V & C & _). unfold here. rewrite C, V. destruct (for_each_cpu _); [|reflexivity].
  rewrite <- (Z2Nat.id (hd_v h)) at 1 by lia. now rewrite slot_stride.
Qed.

Lemma decoded f cpus h b : plain cpus h -> (hd_wrap h = WHashMap \/ hd_wrap h = WPerCpuHashMap \/ hd_wrap h = WArray \/ hd_wrap h = WPerCpuArray) ->
  length b = Z.to_nat (copied cpus (hd_shape h)) -> dec_rel f h (val_of cpus h b) b.
Proof.
  intros (P & V & C & L) W Lb. rewrite L in Lb. unfold dec_rel, decode_value, val_of.
  destruct W as [W|[W|[W|W]]]; rewrite W in *; cbn [per_cpu shown] in *; try reflexivity.
  - rewrite (slots_read cpus) by (try lia; exact Lb). reflexivity.
  - rewrite (slots_read cpus) by (try lia; exact Lb). reflexivity.
Qed.

(** The value is determined by the bytes. *)
Lemma dec_unique f cpus h v b : plain cpus h -> (hd_wrap h = WHashMap \/ hd_wrap h = WPerCpuHashMap \/ hd_wrap h = WArray \/ hd_wrap h = WPerCpuArray) ->
  length b = Z.to_nat (copied cpus (hd_shape h)) -> dec_rel f h v b -> v = val_of cpus h b.
Proof.
  intros P W L D. pose proof (decoded f cpus h b P W L) as D'. unfold dec_rel in *. rewrite D in D'. apply ok_inj in D'.
  unfold val_of in *. destruct (per_cpu (hd_wrap h)); destruct v; cbn [shown] in D'; try discriminate D'; congruence.
Qed.

Lemma on_cpu_slice cpus cpu h b : plain cpus h -> (cpu < cpus)%nat -> length b = Z.to_nat (copied cpus (hd_shape h)) ->
  slice (here cpu (hd_shape h)) (val_len (hd_shape h)) b = on_cpu cpu (val_of cpus h b).
Proof.
  intros P Lc Lb. rewrite (here_eq cpus) by exact P. destruct P as (P & V & C & L). unfold val_len, val_of. rewrite V. rewrite L in Lb.
  destruct (per_cpu (hd_wrap h)); cbn [on_cpu].
  - symmetry. apply nth_error_nth. now apply slots_nth.
  - unfold slice. cbn [skipn]. apply firstn_full. exact Lb.
Qed.

Lemma splice_val cpus cpu h v b : plain cpus h -> (cpu < cpus)%nat -> length b = Z.to_nat (copied cpus (hd_shape h)) -> Z.of_nat (length v) = hd_v h ->
  val_of cpus h (splice (here cpu (hd_shape h)) v b) = with_cpu cpu v (val_of cpus h b) /\
  length (splice (here cpu (hd_shape h)) v b) = Z.to_nat (copied cpus (hd_shape h)).
Proof.
  intros P Lc Lb Lv. rewrite (here_eq cpus) by exact P. destruct P as (P & V & C & L). rewrite L in *. unfold val_of.
  destruct (per_cpu (hd_wrap h)); cbn [with_cpu].
  - set (n := Z.to_nat (hd_v h)) in *. assert (length v = n) as Ln by lia. pose proof (stride_ge n) as G.
    set (st := next_multiple_of_8 n) in *.
    assert (cpu * st + length v <= length b)%nat as In by nia.
    split; [|rewrite splice_length by exact In; exact Lb]. f_equal. apply nth_ext_error. intros i.
    change (firstn cpu (slots cpus n b) ++ [v] ++ skipn (S cpu) (slots cpus n b)) with (set_at cpu v (slots cpus n b)).
    rewrite set_at_nth by (rewrite slots_length; exact Lc).
    destruct (Nat.lt_ge_cases i cpus) as [Li|Li].
    + rewrite slots_nth by exact Li. fold st. destruct (Nat.eqb_spec cpu i) as [<-|N].
      * f_equal. rewrite <- Ln. apply slice_same. exact In.
      * rewrite slots_nth by exact Li. fold st. f_equal. apply slice_other; [exact In|]. nia.
    + destruct (Nat.eqb_spec cpu i) as [<-|N]; [lia|].
      rewrite !(proj2 (nth_error_None _ i)); [reflexivity| |]; rewrite slots_length; exact Li.
  - assert (splice 0 v b = v) as E.
    { unfold splice. cbn [firstn app Nat.add]. rewrite skipn_all2 by lia. apply app_nil_r. }
    rewrite E. split; [reflexivity|lia].
Qed.

Lemma slice_repeat {A} (x : A) o n m : (o + n <= m)%nat -> slice o n (repeat x m) = repeat x n.
Proof.
  intros H. replace m with (o + (n + (m - o - n)))%nat by lia. rewrite !repeat_app. apply slice_app_exact'; now rewrite repeat_length.
Qed.
Lemma zeroes_val cpus h : plain cpus h -> val_of cpus h (repeat 0 (Z.to_nat (copied cpus (hd_shape h)))) = zeroes cpus h.
Proof.
  intros (P & V & C & L). rewrite L. unfold val_of, zeroes. destruct (per_cpu (hd_wrap h)); [|reflexivity]. f_equal.
  unfold slots. set (n := Z.to_nat (hd_v h)). pose proof (stride_ge n) as G. set (st := next_multiple_of_8 n) in *.
  transitivity (map (fun _ => repeat 0 n) (seq 0 cpus)).
  - apply map_ext_in. intros i I. apply in_seq in I. apply slice_repeat. nia.
  - clear. generalize 0%nat at 1. induction cpus as [|c IH]; intros s; [reflexivity|]. cbn [seq map repeat]. f_equal. apply IH.
Qed.

(** * Hash maps *)

Definition sized (n : nat) (l : list (list Z * list Z)) : Prop := Forall (fun e => length (snd e) = n) l.
Lemma put_sized n k v l : length v = n -> sized n l -> sized n (put k v l).
Proof.
  intros L F. induction F as [|[k' v'] l E F IH]; cbn [put].
  - repeat constructor. exact L.
  - destruct (str_eqb k k'); constructor; auto.
Qed.
Lemma drop_sized n k l : sized n l -> sized n (drop k l).
Proof. intros F. induction F as [|e l E F IH]; cbn [drop filter]; [constructor|]. destruct (negb _); [constructor|]; auto. Qed.

Lemma khash_sized cpus sh q l : (forall v, q_cmd q = CUpdate -> q_value q = Some v -> (Z.to_nat (copied cpus sh) <= length v)%nat) ->
  sized (Z.to_nat (copied cpus sh)) l -> sized (Z.to_nat (copied cpus sh)) (snd (khash cpus sh q l)).
Proof.
  intros U F. unfold khash. destruct (q_cmd q) eqn:C; destruct (q_key q) as [k|]; cbn [snd]; auto.
  - destruct (negb _); cbn [snd]; auto. destruct (entry _ l); auto.
  - destruct (q_value q) as [v|]; cbn [snd]; auto. specialize (U v eq_refl eq_refl).
    destruct (_ || _); cbn [snd]; auto. assert (length (firstn (Z.to_nat (copied cpus sh)) v) = Z.to_nat (copied cpus sh)) as L.
    { rewrite firstn_length. lia. }
    destruct (entry _ l).
    + destruct (_ =? 1); cbn [snd]; auto using put_sized.
    + destruct (_ =? 2); cbn [snd]; auto. destruct (_ <=? _); cbn [snd]; auto using put_sized.
  - destruct (entry _ l); cbn [snd]; auto using drop_sized.
  - destruct (next_of _ _ _); auto.
  - destruct (next_of _ _ _); auto.
Qed.

Lemma plan_update f cpus h o q v : plan f cpus h o = Ok q -> op_ok cpus h o -> fits f (hd_wrap h) (hd_k h) (hd_v h) (hd_shape h) ->
  kernel_ok (hd_shape h) -> In (h_type (hd_shape h)) (alias_types (hd_wrap h)) -> q_cmd q = CUpdate -> q_value q = Some v ->
  Z.of_nat (length v) = copied cpus (hd_shape h).
Proof.
  intros P O F K T C Q. unfold plan in P. destruct (negb _); [discriminate P|]. destruct o as [k fl|k u fl|k|prev|u fl|fl|u fl].
  - destruct (check_key h k); [|discriminate P]. cbn [bind] in P. apply ok_inj in P. subst q. discriminate C.
  - destruct (check_key h k); [|discriminate P]. cbn [bind] in P. destruct (val_bytes f cpus h u) as [b|] eqn:B; [|discriminate P]. cbn [bind] in P.
    apply ok_inj in P. subst q. cbn [update q_value] in Q. apply some_inj in Q. subst v. destruct O as [_ O]. eapply val_bytes_length; eauto.
  - destruct (check_key h k); [|discriminate P]. cbn [bind] in P. apply ok_inj in P. subst q. discriminate C.
  - apply ok_inj in P. subst q. discriminate C.
  - destruct (val_bytes f cpus h u) as [b|] eqn:B; [|discriminate P]. cbn [bind] in P.
    apply ok_inj in P. subst q. cbn [push q_value] in Q. apply some_inj in Q. subst v. eapply val_bytes_length; eauto.
  - apply ok_inj in P. subst q. discriminate C.
  - destruct (val_bytes f cpus h u) as [b|] eqn:B; [|discriminate P]. cbn [bind] in P. apply ok_inj in P. subst q. discriminate C.
Qed.

Lemma hash_plain cpus h : hash_handle h -> plain cpus h.
Proof.
  intros (_ & P & W & _ & V). destruct W as [[W T]|[W T]]; (eapply plain_of; [exact P|exact V|exact T|now rewrite W|tauto]).
Qed.
Lemma hash_wrap h : hash_handle h -> hd_wrap h = WHashMap \/ hd_wrap h = WPerCpuHashMap \/ hd_wrap h = WArray \/ hd_wrap h = WPerCpuArray.
Proof. intros (_ & _ & [[W _]|[W _]] & _); auto. Qed.

Definition hash_inv (f : features) (cpus : nat) (h : handle) (d : dict) (l : list (list Z * list Z)) : Prop :=
  (Forall2 (ent_rel f h) d l /\ NoDup (map fst d)) /\ sized (Z.to_nat (copied cpus (hd_shape h))) l.

Lemma hash_found f cpus h k d l : hash_handle h -> hash_inv f cpus h d l ->
  dict_get k d = option_map (val_of cpus h) (entry k l) /\ (forall b, entry k l = Some b -> length b = Z.to_nat (copied cpus (hd_shape h))).
Proof.
  intros H ((F & N) & Sz). assert (forall b, entry k l = Some b -> length b = Z.to_nat (copied cpus (hd_shape h))) as L.
  { intros b E. clear - Sz E. induction Sz as [|[k' b'] l L Sz IH]; cbn [entry] in E; [discriminate E|].
    destruct (str_eqb k k'); [apply some_inj in E; now subst b'|auto]. }
  split; [|exact L]. pose proof (entry_rel f h k d l F) as En.
  destruct (dict_get k d) as [v|]; [destruct En as (b & E & R)|]; [|now rewrite En]. rewrite E. cbn [option_map]. f_equal.
  apply (dec_unique f); auto using hash_plain, hash_wrap.
Qed.

Lemma hash_put f cpus h k b d l : hash_handle h -> hash_inv f cpus h d l -> length b = Z.to_nat (copied cpus (hd_shape h)) ->
  hash_inv f cpus h (dict_set k (val_of cpus h b) d) (put k b l).
Proof.
  intros H ((F & N) & Sz) L. split; [split|].
  - apply put_rel; auto. apply decoded; auto using hash_plain, hash_wrap.
  - now apply dict_set_nodup.
  - now apply put_sized.
Qed.

Lemma hash_turn_sim f cpus h c d l : hash_handle h -> side_ok cpus h (hd_k h) keyed c -> hash_inv f cpus h d l ->
  let t := turn (khash cpus (hd_shape h)) (fun cpu => hash_helpers cpus cpu (hd_shape h)) f cpus h in
  let u := hash_turn (zeroes cpus h) (h_entries (hd_shape h)) in
  fst (t c l) = fst (u c d) /\ hash_inv f cpus h (snd (u c d)) (snd (t c l)).
Proof.
  intros H G I. cbn zeta. destruct c as [o|cpu p].
  - cbn [side_ok] in G. pose proof (hash_fits f h H) as [Fi Ty]. pose proof (hash_sim f cpus h o d l H G (proj1 I)) as [E R]. cbn [turn hash_turn].
    assert (sized (Z.to_nat (copied cpus (hd_shape h))) (snd (call (khash cpus (hd_shape h)) f cpus h o l))) as Sz.
    { unfold call. destruct (plan f cpus h o) as [q|] eqn:Pl; [|exact (proj2 I)].
      pose proof (khash_sized cpus (hd_shape h) q l) as Kh. destruct (khash cpus (hd_shape h) q l) as [r l']. cbn [snd] in *. apply Kh; [|exact (proj2 I)].
      intros v C Q. pose proof (plan_update f cpus h o q v Pl G Fi (proj1 H) Ty C Q). lia. }
    destruct (call (khash cpus (hd_shape h)) f cpus h o l) as [r l']. destruct (hash_step (h_entries (hd_shape h)) o d) as [r' d']. cbn [fst snd] in *.
    split; [congruence|]. split; assumption.
  - cbn [side_ok] in G. destruct G as (Lc & K & O). pose proof (hash_plain cpus h H) as P.
    pose proof H as (_ & Pv & _ & Hk & Hv).
    assert (forall k : list Z, Z.of_nat (length k) = hd_k h -> firstn (Z.to_nat (h_key (hd_shape h))) k = k) as Cut.
    { intros k Lk. rewrite Hk. now apply firstn_full_z. }
    assert (forall v : list Z, Z.of_nat (length v) = hd_v h -> firstn (val_len (hd_shape h)) v = v) as Vut.
    { intros v Lv. unfold val_len. rewrite Hv. now apply firstn_full_z. }
    assert (length d = length l) as Len by (eapply Forall2_same; exact (proj1 (proj1 I))).
    destruct p as [k|k v|k v fl|k|v fl| |buf|v]; cbn [keyed] in K; try contradiction; cbn [pcall_ok] in O; cbn [turn prog hash_turn].
    + cbn [k_lookup hash_helpers]. rewrite (Cut k O). destruct (hash_found f cpus h k d l H I) as [-> Lb].
      destruct (entry k l) as [b|]; cbn [option_map found fst snd]; [|auto].
      rewrite (on_cpu_slice cpus cpu h b P Lc (Lb b eq_refl)). auto.
    + destruct O as [Ok_ Ov]. cbn [k_lookup k_store hash_helpers]. rewrite (Cut k Ok_), (Vut v Ov). destruct (hash_found f cpus h k d l H I) as [-> Lb].
      destruct (entry k l) as [b|]; cbn [option_map fst snd]; [|auto].
      destruct (splice_val cpus cpu h v b P Lc (Lb b eq_refl) Ov) as [<- L]. split; [reflexivity|]. now apply hash_put.
    + destruct O as [Ok_ Ov]. cbn [k_update hash_helpers]. rewrite (Cut k Ok_), (Vut v Ov). destruct (hash_found f cpus h k d l H I) as [-> Lb]. rewrite Len.
      destruct ((fl <? 0) || (2 <? fl)) eqn:Of.
      * cbn [fst snd zero_or_err]. destruct (entry k l); cbn [option_map]; destruct fl as [|[q|[q|q|]|]|q]; try (cbn in Of; discriminate Of); auto.
      * assert (fl = 0 \/ fl = 1 \/ fl = 2) as C by lia.
        destruct (entry k l) as [b|] eqn:En; cbn [option_map].
        -- destruct (splice_val cpus cpu h v b P Lc (Lb b eq_refl) Ov) as [<- L].
           destruct C as [-> | [-> | ->]]; cbn [Z.eqb Pos.eqb fst snd]; (split; [reflexivity|]); auto using hash_put.
        -- pose proof (repeat_length 0 (Z.to_nat (copied cpus (hd_shape h)))) as Lz.
           destruct (splice_val cpus cpu h v _ P Lc Lz Ov) as [E L]. rewrite zeroes_val in E by exact P.
           destruct (Z.leb_spec (h_entries (hd_shape h)) (Z.of_nat (length l))) as [Le|Le];
             [replace (Z.of_nat (length l) <? h_entries (hd_shape h)) with false by lia|replace (Z.of_nat (length l) <? h_entries (hd_shape h)) with true by lia];
             destruct C as [-> | [-> | ->]]; cbn [Z.eqb Pos.eqb fst snd]; (split; [reflexivity|]); auto; rewrite <- E; auto using hash_put.
    + cbn [k_delete hash_helpers]. rewrite (Cut k O). destruct (hash_found f cpus h k d l H I) as [-> Lb].
      destruct (entry k l) as [b|]; cbn [option_map fst snd]; (split; [reflexivity|]); auto.
      destruct I as ((F & N) & Sz). split; [split; [now apply drop_rel|now apply dict_del_nodup]|now apply drop_sized].
Qed.

Lemma hash_both f cpus h l : hash_handle h -> Forall (side_ok cpus h (hd_k h) keyed) l ->
  fst (turns (turn (khash cpus (hd_shape h)) (fun cpu => hash_helpers cpus cpu (hd_shape h)) f cpus h) l []) =
  fst (turns (hash_turn (zeroes cpus h) (h_entries (hd_shape h))) l []).
Proof.
  intros H G. apply (turns_sim _ _ (hash_inv f cpus h) (side_ok cpus h (hd_k h) keyed)); auto.
  - intros c d s Gc I. now apply hash_turn_sim.
  - repeat constructor.
Qed.
