(** Proofs about maps used from programs and from user space: arrays, queues,
    stacks. *)
From Verif Require Import Base Text MapModel MapSpec MapProofs TypedModel TypedSpec TypedProofs TypedProofs2 TypedProofs3 UseModel UseSpec UseProofs.
Import ListNotations.
Local Open Scope Z_scope.

Definition sized_all (n : nat) (l : list (list Z)) : Prop := Forall (fun b => length b = n) l.
Lemma upd_sized n i v l : length v = n -> sized_all n l -> sized_all n (upd i v l).
Proof.
  intros L F. revert i. induction F as [|b l E F IH]; intros [|i]; cbn [upd]; constructor; auto. apply IH.
Qed.
Lemma nth_sized n i b l : sized_all n l -> nth_error l i = Some b -> length b = n.
Proof. intros F E. apply nth_error_In in E. unfold sized_all in F. rewrite Forall_forall in F. now apply F. Qed.

Lemma karray_sized cpus sh q l : (forall v, q_cmd q = CUpdate -> q_value q = Some v -> (Z.to_nat (copied cpus sh) <= length v)%nat) ->
  sized_all (Z.to_nat (copied cpus sh)) l -> sized_all (Z.to_nat (copied cpus sh)) (snd (karray cpus sh q l)).
Proof.
  intros U F. unfold karray. destruct (q_cmd q) eqn:C; destruct (q_key q) as [k|]; cbn [snd]; auto.
  - destruct (negb _); cbn [snd]; auto. destruct (nth_error l _); auto.
  - destruct (q_value q) as [v|]; cbn [snd]; auto. specialize (U v eq_refl eq_refl).
    destruct (_ || _); cbn [snd]; auto. destruct (_ <=? _); cbn [snd]; auto. destruct (_ =? 1); cbn [snd]; auto.
    apply upd_sized; [|exact F]. rewrite firstn_length. lia.
Qed.

Lemma array_plain cpus h : array_handle h -> plain cpus h.
Proof.
  intros (_ & P & _ & W & _ & V). destruct W as [[W T]|[W T]]; (eapply plain_of; [exact P|exact V|exact T|now rewrite W|tauto]).
Qed.
Lemma array_wrap h : array_handle h -> hd_wrap h = WHashMap \/ hd_wrap h = WPerCpuHashMap \/ hd_wrap h = WArray \/ hd_wrap h = WPerCpuArray.
Proof. intros (_ & _ & _ & [[W _]|[W _]] & _); auto. Qed.

Definition array_inv (f : features) (cpus : nat) (h : handle) (a : list uval) (l : list (list Z)) : Prop :=
  (Forall2 (dec_rel f h) a l /\ Z.of_nat (length a) = h_entries (hd_shape h)) /\ sized_all (Z.to_nat (copied cpus (hd_shape h))) l.

Lemma array_found f cpus h i a l : array_handle h -> array_inv f cpus h a l ->
  nth_error a i = option_map (val_of cpus h) (nth_error l i).
Proof.
  intros H ((F & N) & Sz). pose proof (Forall2_nth _ a l i F) as E. destruct (nth_error a i) as [v|]; [destruct E as (b & E & R)|]; [|now rewrite E].
  rewrite E. cbn [option_map]. f_equal. apply (dec_unique f); auto using array_plain, array_wrap. eapply nth_sized; eauto.
Qed.
Lemma array_put f cpus h i b a l : array_handle h -> array_inv f cpus h a l -> length b = Z.to_nat (copied cpus (hd_shape h)) -> (i < length l)%nat ->
  array_inv f cpus h (set_at i (val_of cpus h b) a) (upd i b l).
Proof.
  intros H ((F & N) & Sz) L Li. pose proof (Forall2_same _ _ _ F) as Len. split; [split|].
  - apply Forall2_upd; [exact F| |lia]. apply decoded; auto using array_plain, array_wrap.
  - unfold set_at. rewrite set_length by lia. exact N.
  - now apply upd_sized.
Qed.

Lemma array_turn_sim f cpus h c a l : array_handle h -> side_ok cpus h 4 indexed c -> array_inv f cpus h a l ->
  let t := turn (karray cpus (hd_shape h)) (fun cpu => array_helpers cpu (hd_shape h)) f cpus h in
  fst (t c l) = fst (array_turn c a) /\ array_inv f cpus h (snd (array_turn c a)) (snd (t c l)).
Proof.
  intros H G I. cbn zeta. destruct c as [o|cpu p].
  - cbn [side_ok] in G. pose proof (array_fits f h H) as [Fi Ty]. pose proof (array_sim f cpus h o a l H G (proj1 I)) as [E R]. cbn [turn array_turn].
    assert (sized_all (Z.to_nat (copied cpus (hd_shape h))) (snd (call (karray cpus (hd_shape h)) f cpus h o l))) as Sz.
    { unfold call. destruct (plan f cpus h o) as [q|] eqn:Pl; [|exact (proj2 I)].
      pose proof (karray_sized cpus (hd_shape h) q l) as Kh. destruct (karray cpus (hd_shape h) q l) as [r l']. cbn [snd] in *. apply Kh; [|exact (proj2 I)].
      intros v C Q. pose proof (plan_update f cpus h o q v Pl G Fi (proj1 H) Ty C Q). lia. }
    destruct (call (karray cpus (hd_shape h)) f cpus h o l) as [r l']. destruct (array_step o a) as [r' a']. cbn [fst snd] in *.
    split; [congruence|]. split; assumption.
  - cbn [side_ok] in G. destruct G as (Lc & K & O). pose proof (array_plain cpus h H) as P.
    pose proof H as (_ & Pv & _ & _ & Hk & Hv).
    assert (forall k : list Z, Z.of_nat (length k) = 4 -> firstn 4 k = k) as Cut by (intros k Lk; apply firstn_full; lia).
    assert (forall v : list Z, Z.of_nat (length v) = hd_v h -> firstn (val_len (hd_shape h)) v = v) as Vut.
    { intros v Lv. unfold val_len. rewrite Hv. now apply firstn_full_z. }
    destruct p as [k|k v|k v fl|k|v fl| |buf|v]; cbn [indexed] in K; try contradiction; cbn [pcall_ok] in O; cbn [turn prog array_turn].
    + cbn [k_lookup array_helpers]. rewrite (Cut k O). fold (index_of k). rewrite (array_found f cpus h (index_of k) a l H I).
      destruct (nth_error l (index_of k)) as [b|] eqn:En; cbn [option_map found fst snd]; [|auto].
      rewrite (on_cpu_slice cpus cpu h b P Lc (nth_sized _ _ _ _ (proj2 I) En)). auto.
    + destruct O as [Ok_ Ov]. cbn [k_lookup k_store array_helpers]. rewrite (Cut k Ok_), (Vut v Ov). fold (index_of k).
      rewrite (array_found f cpus h (index_of k) a l H I).
      destruct (nth_error l (index_of k)) as [b|] eqn:En; cbn [option_map found fst snd]; [|auto].
      destruct (splice_val cpus cpu h v b P Lc (nth_sized _ _ _ _ (proj2 I) En) Ov) as [<- L]. split; [reflexivity|]. apply array_put; auto.
      apply nth_error_Some. congruence.
    + destruct O as [Ok_ Ov]. cbn [k_update array_helpers]. rewrite (Cut k Ok_), (Vut v Ov). fold (index_of k).
      rewrite (array_found f cpus h (index_of k) a l H I).
      destruct ((fl <? 0) || (2 <? fl)) eqn:Of.
      * cbn [fst snd zero_or_err]. destruct (nth_error l (index_of k)); cbn [option_map]; destruct fl as [|[q|[q|q|]|]|q]; try (cbn in Of; discriminate Of); auto.
      * assert (fl = 0 \/ fl = 1 \/ fl = 2) as C by lia.
        destruct (nth_error l (index_of k)) as [b|] eqn:En; cbn [option_map].
        -- assert (index_of k < length l)%nat as Li by (apply nth_error_Some; congruence).
           destruct (splice_val cpus cpu h v b P Lc (nth_sized _ _ _ _ (proj2 I) En) Ov) as [<- L].
           destruct C as [-> | [-> | ->]]; cbn [Z.eqb Pos.eqb fst snd]; (split; [reflexivity|]); auto using array_put.
        -- destruct C as [-> | [-> | ->]]; cbn [Z.eqb Pos.eqb fst snd]; (split; [reflexivity|]); auto.
Qed.

Lemma array_both f cpus h l : array_handle h -> Forall (side_ok cpus h 4 indexed) l ->
  fst (turns (turn (karray cpus (hd_shape h)) (fun cpu => array_helpers cpu (hd_shape h)) f cpus h) l
        (repeat (repeat 0 (Z.to_nat (copied cpus (hd_shape h)))) (Z.to_nat (h_entries (hd_shape h))))) =
  fst (turns array_turn l (repeat (zeroes cpus h) (Z.to_nat (h_entries (hd_shape h))))).
Proof.
  intros H G. apply (turns_sim _ _ (array_inv f cpus h) (side_ok cpus h 4 indexed)); auto.
  - intros c d s Gc I. now apply array_turn_sim.
  - pose proof H as (_ & _ & En & _). split; [split|].
    + apply Forall2_repeat. rewrite <- zeroes_val by now apply array_plain. apply decoded; auto using array_plain, array_wrap. apply repeat_length.
    + rewrite repeat_length. lia.
    + apply Forall_forall. intros b B. apply repeat_spec in B. subst b. apply repeat_length.
Qed.

(** * Queues and stacks *)

Lemma queue_turn_sim stack f cpus h c l : queue_handle stack h -> side_ok cpus h 0 pushing c ->
  turn (kqueue stack (hd_shape h)) (fun _ => queue_helpers stack (hd_shape h)) f cpus h c l = queue_turn stack (h_entries (hd_shape h)) c l.
Proof.
  intros H G. destruct c as [o|cpu p].
  - cbn [side_ok] in G. cbn [turn queue_turn]. now rewrite (queue_sim stack f cpus h o l H G).
  - cbn [side_ok] in G. destruct G as (_ & K & O). destruct H as (W & T & V).
    destruct p as [k|k v|k v fl|k|v fl| |buf|v]; cbn [pushing] in K; try contradiction; cbn [pcall_ok] in O; cbn [turn prog queue_turn].
    + cbn [k_push queue_helpers]. unfold kqueue, sys. cbn [q_cmd q_key q_value q_flags]. rewrite firstn_full_z by congruence.
      destruct ((fl =? 0) || (fl =? 2)) eqn:Of; cbn [negb].
      * assert (fl = 0 \/ fl = 2) as C by lia.
        destruct (Z.ltb_spec (Z.of_nat (length l)) (h_entries (hd_shape h))) as [Lt|Lt];
          [replace (h_entries (hd_shape h) <=? Z.of_nat (length l)) with false by lia|replace (h_entries (hd_shape h) <=? Z.of_nat (length l)) with true by lia];
          destruct C as [-> | ->]; cbn [Z.eqb Pos.eqb]; reflexivity.
      * destruct fl as [|[q|[q|q|]|]|q]; try (cbn in Of; discriminate Of); now destruct (h_entries (hd_shape h) <=? Z.of_nat (length l)).
    + cbn [k_pop queue_helpers]. unfold kqueue, sys. cbn [q_cmd q_key q_value q_flags Z.eqb negb].
      destruct stack.
      * destruct (rev l) as [|v r] eqn:R.
        -- assert (l = []) as -> by (rewrite <- (rev_involutive l), R; reflexivity). reflexivity.
        -- destruct (last_rev l v r R) as (Ne & <- & <-). destruct l as [|x l]; [congruence|]. reflexivity.
      * destruct l as [|x l]; reflexivity.
    + cbn [k_peek queue_helpers]. unfold kqueue, sys. cbn [q_cmd q_key q_value q_flags Z.eqb negb].
      destruct stack.
      * destruct (rev l) as [|v r] eqn:R.
        -- assert (l = []) as -> by (rewrite <- (rev_involutive l), R; reflexivity). reflexivity.
        -- destruct (last_rev l v r R) as (Ne & <- & _). destruct l as [|x l]; [congruence|]. reflexivity.
      * destruct l as [|x l]; reflexivity.
Qed.

Lemma queue_both stack f cpus h l s : queue_handle stack h -> Forall (side_ok cpus h 0 pushing) l ->
  fst (turns (turn (kqueue stack (hd_shape h)) (fun _ => queue_helpers stack (hd_shape h)) f cpus h) l s) =
  fst (turns (queue_turn stack (h_entries (hd_shape h))) l s).
Proof.
  intros H G. apply (turns_sim _ _ eq (side_ok cpus h 0 pushing)); auto.
  intros c d t Gc <-. rewrite queue_turn_sim by assumption. auto.
Qed.
