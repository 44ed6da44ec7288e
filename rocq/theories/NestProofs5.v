(** Maps of maps: races, and programs. *)
From Verif Require Import Base Text MapModel TypedModel TypedSpec TypedProofs NestModel NestSpec NestProofs NestProofs2 NestProofs3 NestProofs4.
Import ListNotations.
Local Open Scope Z_scope.

(** * Maps stay what they are *)

Definition alike (m m' : kmap) : Prop := m_id m' = m_id m /\ m_shape m' = m_shape m /\ m_meta m' = m_meta m.
Lemma alike_refl m : alike m m.
Proof. repeat split. Qed.

(** A map afterwards: one from before, or a new one. *)
Lemma was e s q m' : sane s -> map_at q (happen e s) = Some m' ->
  (exists m, map_at q s = Some m /\ alike m m') \/ (q = k_next s /\ exists id sh meta ours, e = ECreate id sh meta ours /\ m_id m' = id).
Proof.
  intros W.
  assert (SL : forall o m l, map_at o s = Some m -> map_at q (with_slots o m l s) = Some m' -> exists m0, map_at q s = Some m0 /\ alike m0 m').
  { intros o m l M H. rewrite (slots_at o m l s q M) in H. destruct (referred _ q); [|discriminate H]. destruct (Nat.eqb_spec q o) as [->|N].
    - injection H as <-. exists m. split; [exact M|]. repeat split.
    - exists m'. split; [exact H|apply alike_refl]. }
  assert (DA : forall o m l, map_at o s = Some m -> map_at q (with_data o m l s) = Some m' -> exists m0, map_at q s = Some m0 /\ alike m0 m').
  { intros o m l M H. unfold map_at, with_data in *. cbn in H. rewrite at_set_nat, M in H. destruct (Nat.eqb_spec q o) as [->|N].
    - injection H as <-. exists m. split; [exact M|]. repeat split.
    - exists m'. split; [exact H|apply alike_refl]. }
  assert (ID : map_at q s = Some m' -> exists m0, map_at q s = Some m0 /\ alike m0 m') by (intros H; exists m'; split; [exact H|apply alike_refl]).
  destruct e as [id sh meta ours|id|fd|o|o|fd r|o k v]; cbn [happen].
  - destruct (id_free id s && can_create sh meta) eqn:C; [|intros H; left; auto].
    assert (ADD : map_at q (add_map id sh meta s) = Some m' -> (exists m, map_at q s = Some m /\ alike m m') \/
      (q = k_next s /\ exists id0 sh0 meta0 ours0, ECreate id sh meta ours = ECreate id0 sh0 meta0 ours0 /\ m_id m' = id0)).
    { rewrite (add_map_at _ _ _ _ _ (proj1 W)). destruct (Nat.eqb_spec q (k_next s)) as [->|N].
      - intros [= <-]. right. split; [reflexivity|]. eexists _, _, _, _. split; reflexivity.
      - intros H. left. auto. }
    destruct ours.
    + destruct (k_limit s <=? free_fd s) eqn:L; [intros H; left; auto|]. unfold new_fd.
      change (free_fd (add_map id sh meta s)) with (free_fd s). change (k_limit (add_map id sh meta s)) with (k_limit s). rewrite L. exact ADD.
    + exact ADD.
  - unfold kopen. destruct (k_open s); [intros H; left; auto|]. destruct (by_id id (k_maps s)); [|intros H; left; auto]. unfold new_fd.
    destruct (k_limit s <=? free_fd s); intros H; left; auto.
  - unfold kclose. rewrite map_at_collect. destruct (referred _ q); [|discriminate]. intros H. left. auto.
  - destruct (map_at o s); intros H; left; auto.
  - rewrite map_at_collect. destruct (referred _ q); [|discriminate]. intros H. left. auto.
  - unfold kcall. destruct (behind fd s) as [o|]; [|intros H; left; auto]. destruct (map_at o s) as [m|] eqn:M; [|intros H; left; auto].
    destruct (m_meta m) as [meta|].
    + destruct (h_type (m_shape m) =? 12).
      * unfold karray_of. destruct (q_cmd r), (q_key r) as [k|], (q_value r) as [v|]; cbn [snd]; try (intros H; left; now auto);
          repeat match goal with
          | |- map_at q (snd (if ?b then _ else _)) = _ -> _ => destruct b
          | |- map_at q (snd (match get_ptr ?a ?b ?c with _ => _ end)) = _ -> _ => destruct (get_ptr a b c)
          | |- map_at q (snd (match slot ?a ?b with _ => _ end)) = _ -> _ => destruct (slot a b)
          end; cbn [snd]; intros H; left; eauto.
      * unfold khash_of. destruct (q_cmd r), (q_key r) as [k|], (q_value r) as [v|]; cbn [snd]; try (intros H; left; now auto);
          repeat match goal with
          | |- map_at q (snd (if ?b then _ else _)) = _ -> _ => destruct b
          | |- map_at q (snd (match get_ptr ?a ?b ?c with _ => _ end)) = _ -> _ => destruct (get_ptr a b c)
          | |- map_at q (snd (match slot ?a ?b with _ => _ end)) = _ -> _ => destruct (slot a b)
          end; cbn [snd]; intros H; left; eauto.
    + destruct (khash 1 (m_shape m) r (m_data m)) as [x l]. cbn [snd]. intros H. left. eauto.
  - unfold kstore. destruct (map_at o s) as [m|] eqn:M; intros H; left; eauto.
Qed.
Lemma at_next s m : sane s -> map_at (k_next s) s = Some m -> False.
Proof.
  intros [W _] H. apply map_at_in in H. assert (X := sn_next s W). rewrite Forall_forall in X. specialize (X _ H). cbn in X. lia.
Qed.
Lemma next_grows e s : (k_next s <= k_next (happen e s))%nat.
Proof.
  assert (KO : forall o m meta r, k_next (snd (karray_of o m meta r s)) = k_next s).
  { intros o m meta r. unfold karray_of. destruct (q_cmd r), (q_key r), (q_value r); cbn [snd]; try reflexivity;
      repeat match goal with
      | |- context [k_next (snd (if ?b then _ else _))] => destruct b
      | |- context [k_next (snd (match get_ptr ?a ?b ?c with _ => _ end))] => destruct (get_ptr a b c)
      | |- context [k_next (snd (match slot ?a ?b with _ => _ end))] => destruct (slot a b)
      end; reflexivity. }
  assert (KH : forall o m meta r, k_next (snd (khash_of o m meta r s)) = k_next s).
  { intros o m meta r. unfold khash_of. destruct (q_cmd r), (q_key r), (q_value r); cbn [snd]; try reflexivity;
      repeat match goal with
      | |- context [k_next (snd (if ?b then _ else _))] => destruct b
      | |- context [k_next (snd (match get_ptr ?a ?b ?c with _ => _ end))] => destruct (get_ptr a b c)
      | |- context [k_next (snd (match slot ?a ?b with _ => _ end))] => destruct (slot a b)
      end; reflexivity. }
  destruct e as [id sh meta ours|id|fd|o|o|fd r|o k v]; cbn [happen].
  - destruct (id_free id s && can_create sh meta); [|lia]. destruct ours; [|cbn; lia]. destruct (k_limit s <=? free_fd s) eqn:L; [lia|].
    unfold new_fd. change (free_fd (add_map id sh meta s)) with (free_fd s). change (k_limit (add_map id sh meta s)) with (k_limit s). rewrite L. cbn. lia.
  - unfold kopen. destruct (k_open s); [cbn; lia|]. destruct (by_id id (k_maps s)); [|cbn; lia]. unfold new_fd. destruct (k_limit s <=? free_fd s); cbn; lia.
  - cbn. lia.
  - destruct (map_at o s); cbn; lia.
  - cbn. lia.
  - unfold kcall. destruct (behind fd s); [|cbn; lia]. destruct (map_at n s) as [m|]; [|cbn; lia]. destruct (m_meta m).
    + destruct (h_type (m_shape m) =? 12); [rewrite KO|rewrite KH]; lia.
    + destruct (khash 1 (m_shape m) r (m_data m)). cbn. lia.
  - unfold kstore. destruct (map_at o s); cbn; lia.
Qed.

(** Afterwards, a map that was there is what it was or is gone, however much
    happens. *)
Lemma stays l : forall s q m m', sane s -> map_at q s = Some m -> map_at q (happened l s) = Some m' -> alike m m'.
Proof.
  induction l as [|e l IH]; intros s q m m' W M M'; cbn in M'.
  - assert (m' = m) by congruence. subst. apply alike_refl.
  - assert (W1 := happen_sane e s W). destruct (map_at q (happen e s)) as [m1|] eqn:M1.
    + assert (A := IH _ q m1 m' W1 M1 M'). destruct (was e s q m1 W M1) as [(m0 & M0 & B)|(-> & _)]; [|destruct (at_next s m W M)].
      assert (m0 = m) by congruence. subst m0. destruct A as (? & ? & ?), B as (? & ? & ?). repeat split; congruence.
    + exfalso. assert (Q : (q < k_next (happen e s))%nat).
      { apply map_at_in in M. assert (X := sn_next s (proj1 W)). rewrite Forall_forall in X. specialize (X _ M). cbn in X. assert (G := next_grows e s). lia. }
      clear IH M W. revert W1 M1 M' Q. generalize (happen e s). clear s. revert m'.
      induction l as [|e' l IH]; intros m' s W1 M1 M' Q; cbn in M'; [congruence|].
      refine (IH m' (happen e' s) (happen_sane e' s W1) _ M' _).
      * destruct (map_at q (happen e' s)) as [x|] eqn:X; [|reflexivity]. exfalso.
        destruct (was e' s q x W1 X) as [(m0 & M0 & _)|(E & _)]; [congruence|lia].
      * assert (G := next_grows e' s). lia.
Qed.

(** The only map with the number stays the only one. *)
Lemma only l : forall s id p, sane s -> not_reused id l -> (forall q m, map_at q s = Some m -> m_id m = id -> q = p) ->
  forall q m, map_at q (happened l s) = Some m -> m_id m = id -> q = p.
Proof.
  induction l as [|e l IH]; intros s id p W NR U; [exact U|]. inversion NR as [|? ? N1 N2]; subst. cbn.
  apply IH; [now apply happen_sane|exact N2|]. intros q m M E. destruct (was e s q m W M) as [(m0 & M0 & A)|(_ & id' & sh & meta & ours & -> & E')].
  - apply (U q m0 M0). destruct A as [A _]. congruence.
  - cbn in N1. congruence.
Qed.

(** * Races *)

Lemma race_type f t h meta k flags l s : sane s -> is_for h meta s -> key_ok (o_handle h) k ->
  match get_while linux f t h k flags (happened l) s with
  | (Ok i, s') => exists p m, map_at p (happened l s) = Some m /\ suits f t (m_shape m) /\ i_shape i = m_shape m /\
      s' = with_fds ((i_fd i, p) :: k_fds (happened l s)) (happened l s) /\ behind (i_fd i) (happened l s) = None
  | (Err e, s') => s' = s \/ s' = happened l s
  end.
Proof.
  intros W F KO. unfold get_while. destruct (find linux f h k flags s) as [[id|e] s1] eqn:FI.
  - assert (s1 = s).
    { destruct (index_dec h k) as [IX|(i & -> & IX)].
      - rewrite (find_spec f h meta k flags s F KO IX) in FI. now injection FI as _ <-.
      - rewrite (find_outside f h meta i flags s F KO IX) in FI. discriminate FI. }
    subst s1. assert (W2 := happened_sane l s W). assert (A := open_any f t id (happened l s) W2).
    destruct (map_from_id linux f t id (happened l s)) as [[i|e] s'].
    + destruct A as (p & m & M & ID & FD & SH & TY & SU & -> & C). exists p, m. rewrite FD. split; [exact M|]. split; [exact SU|]. split; [exact SH|].
      split; [reflexivity|]. apply free_fd_free.
    + now right.
  - left. destruct (index_dec h k) as [IX|(i & -> & IX)].
    + rewrite (find_spec f h meta k flags s F KO IX) in FI. now injection FI as _ <-.
    + rewrite (find_outside f h meta i flags s F KO IX) in FI. now injection FI as _ <-.
Qed.
Lemma race_map f t h meta k l s p m : sane s -> is_for h meta s -> key_ok (o_handle h) k -> index_in h k -> holds h k s = Some p -> map_at p s = Some m ->
  not_reused (m_id m) l -> can_open (happened l s) -> suits f t meta ->
  match map_at p (happened l s) with
  | Some _ => exists i, get_while linux f t h k 0 (happened l) s = (Ok i, with_fds ((i_fd i, p) :: k_fds (happened l s)) (happened l s))
  | None => get_while linux f t h k 0 (happened l) s = (Err (ESyscall ENOENT), happened l s)
  end.
Proof.
  intros W F KO IX H M NR C SU. unfold get_while. rewrite (find_ok f h meta k s p m W F KO IX H M).
  assert (W2 := happened_sane l s W). destruct (held_there s h meta k p W F H) as (m1 & M1 & _ & EQ). assert (m1 = m) by congruence. subst m1.
  destruct (map_at p (happened l s)) as [m2|] eqn:M2.
  - destruct (stays l s p m m2 W M M2) as (A & B & _). rewrite <- A.
    assert (S2 : suits f t (m_shape m2)) by (rewrite B; exact (proj1 (meta_suits f t meta _ EQ) SU)).
    rewrite (open_ok f t (happened l s) p m2 W2 M2 C S2).
    exists {| i_fd := free_fd (happened l s); i_shape := m_shape m2; i_type := t |}. reflexivity.
  - assert (U := only l s (m_id m) p W NR (fun q x X E => same_number s q p x m W X M E)).
    unfold map_from_id. cbn [linux s_open]. unfold kopen. destruct C as (KO2 & _ & _). rewrite KO2.
    destruct (by_id (m_id m) (k_maps (happened l s))) as [q|] eqn:B; [|reflexivity]. exfalso. apply by_id_in in B as (x & IN & E).
    assert (X : map_at q (happened l s) = Some x) by exact (at_nat_nodup q x _ (sn_maps _ (proj1 W2)) IN).
    rewrite (U q x X E) in X. congruence.
Qed.

(** * Things happening elsewhere *)

Definition keeps (o : nat) (fd : Z) (s s' : kern) : Prop :=
  forall m, behind fd s = Some o -> map_at o s = Some m ->
    behind fd s' = Some o /\ exists m', map_at o s' = Some m' /\ alike m m' /\ m_slots m' = m_slots m.
Lemma keeps_same o fd s : keeps o fd s s.
Proof. intros m B M. split; [exact B|]. exists m. split; [exact M|]. split; [apply alike_refl|reflexivity]. Qed.
Lemma keeps_slots o fd s o2 m2 l : o2 <> o -> map_at o2 s = Some m2 -> keeps o fd s (with_slots o2 m2 l s).
Proof.
  intros N M2 m B M. split; [exact B|]. exists m. split; [|split; [apply alike_refl|reflexivity]].
  rewrite slots_root; [exact M|exact M2|congruence|exact (behind_root s fd o B)].
Qed.
Lemma keeps_data o fd s o2 m2 l : o2 <> o -> map_at o2 s = Some m2 -> keeps o fd s (with_data o2 m2 l s).
Proof.
  intros N M2 m B M. split; [exact B|]. exists m. split; [|split; [apply alike_refl|reflexivity]].
  unfold map_at, with_data in *. cbn. rewrite at_set_nat. destruct (Nat.eqb_spec o o2); [congruence|exact M].
Qed.
Lemma keeps_new o fd s p : keeps o fd s (snd (new_fd p s)).
Proof.
  intros m B M. unfold new_fd. destruct (k_limit s <=? free_fd s); cbn [snd].
  - now apply keeps_same.
  - split.
    + unfold behind. cbn. destruct (Z.eqb_spec fd (free_fd s)) as [E|N]; [|exact B]. assert (X := proj1 (free_fd_free s)). congruence.
    + exists m. split; [exact M|]. split; [apply alike_refl|reflexivity].
Qed.
Lemma keeps_step o fd e s : sane s ->
  match e with ECall fd' _ => behind fd' s <> Some o | EClose fd' => fd' <> fd | EStore o' _ _ => o' <> o | _ => True end -> keeps o fd s (happen e s).
Proof.
  intros W Q. destruct e as [id sh meta ours|id|fd'|o'|o'|fd' r|o' k v]; cbn [happen].
  - destruct (id_free id s && can_create sh meta) eqn:C; [|apply keeps_same].
    assert (ADD : keeps o fd s (add_map id sh meta s)).
    { intros m B M. split; [exact B|]. exists m. split; [|split; [apply alike_refl|reflexivity]]. rewrite (add_map_at _ _ _ _ _ (proj1 W)).
      destruct (Nat.eqb_spec o (k_next s)) as [->|N]; [destruct (at_next s m W M)|exact M]. }
    destruct ours; [|exact ADD]. destruct (k_limit s <=? free_fd s); [apply keeps_same|]. intros m B M.
    destruct (ADD m B M) as (B1 & m1 & M1 & A1 & S1). destruct (keeps_new o fd (add_map id sh meta s) (k_next s) m1 B1 M1) as (B2 & m2 & M2 & A2 & S2).
    split; [exact B2|]. exists m2. split; [exact M2|]. split; [|congruence]. destruct A1 as (? & ? & ?), A2 as (? & ? & ?). repeat split; congruence.
  - unfold kopen. destruct (k_open s); [apply keeps_same|]. destruct (by_id id (k_maps s)); [apply keeps_new|apply keeps_same].
  - intros m B M. unfold kclose. split.
    + unfold behind. cbn. rewrite at_fd_filter. destruct (Z.eqb_spec fd fd'); [congruence|exact B].
    + exists m. split; [|split; [apply alike_refl|reflexivity]]. rewrite map_at_collect. rewrite referred_root; [exact M|].
      apply (behind_root _ fd). unfold behind. cbn. rewrite at_fd_filter. destruct (Z.eqb_spec fd fd'); [congruence|exact B].
  - destruct (map_at o' s); [|apply keeps_same]. exact (keeps_same o fd s).
  - intros m B M. split; [exact B|]. exists m. split; [|split; [apply alike_refl|reflexivity]]. rewrite map_at_collect.
    rewrite referred_root; [exact M|]. exact (behind_root (with_held (remove_one o' (k_held s)) s) fd o B).
  - unfold kcall. destruct (behind fd' s) as [o2|]; [|apply keeps_same]. assert (N : o2 <> o) by congruence.
    destruct (map_at o2 s) as [m|] eqn:M; [|apply keeps_same]. destruct (m_meta m) as [meta|].
    + destruct (h_type (m_shape m) =? 12).
      * unfold karray_of. destruct (q_cmd r), (q_key r) as [k|], (q_value r) as [v|]; cbn [snd]; try apply keeps_same;
          repeat match goal with
          | |- keeps _ _ _ (snd (if ?b then _ else _)) => destruct b
          | |- keeps _ _ _ (snd (match get_ptr ?a ?b ?c with _ => _ end)) => destruct (get_ptr a b c)
          | |- keeps _ _ _ (snd (match slot ?a ?b with _ => _ end)) => destruct (slot a b)
          end; cbn [snd]; try apply keeps_same; now apply keeps_slots.
      * unfold khash_of. destruct (q_cmd r), (q_key r) as [k|], (q_value r) as [v|]; cbn [snd]; try apply keeps_same;
          repeat match goal with
          | |- keeps _ _ _ (snd (if ?b then _ else _)) => destruct b
          | |- keeps _ _ _ (snd (match get_ptr ?a ?b ?c with _ => _ end)) => destruct (get_ptr a b c)
          | |- keeps _ _ _ (snd (match slot ?a ?b with _ => _ end)) => destruct (slot a b)
          end; cbn [snd]; try apply keeps_same; now apply keeps_slots.
    + destruct (khash 1 (m_shape m) r (m_data m)) as [x l]. cbn [snd]. now apply keeps_data.
  - unfold kstore. destruct (map_at o' s) as [m|] eqn:M; [|apply keeps_same]. now apply keeps_data.
Qed.
Lemma keeps_all o fd l : forall s, sane s -> elsewhere o fd l s -> keeps o fd s (happened l s).
Proof.
  induction l as [|e l IH]; intros s W E; [apply keeps_same|]. destruct E as [E1 E2]. cbn. intros m B M.
  destruct (keeps_step o fd e s W E1 m B M) as (B1 & m1 & M1 & A1 & S1). destruct (IH _ (happen_sane e s W) E2 m1 B1 M1) as (B2 & m2 & M2 & A2 & S2).
  split; [exact B2|]. exists m2. split; [exact M2|]. split; [|congruence]. destruct A1 as (? & ? & ?), A2 as (? & ? & ?). repeat split; congruence.
Qed.
Lemma kept h meta k o p m l s : sane s -> is_for h meta s -> behind (o_fd h) s = Some o -> holds h k s = Some p -> map_at p s = Some m ->
  elsewhere o (o_fd h) l s ->
  is_for h meta (happened l s) /\ holds h k (happened l s) = Some p /\
  exists m', map_at p (happened l s) = Some m' /\ m_id m' = m_id m /\ m_shape m' = m_shape m.
Proof.
  intros W F B H M E. assert (F0 := F). destruct F0 as (o' & mo & B0 & MO & SH & ME & K). assert (o' = o) by congruence. subst o'.
  destruct (keeps_all o (o_fd h) l s W E mo B MO) as (B2 & m2 & M2 & (A1 & A2 & A3) & S2).
  assert (F2 : is_for h meta (happened l s)).
  { exists o, m2. split; [exact B2|]. split; [exact M2|]. rewrite A2, A3. auto. }
  assert (H2 : holds h k (happened l s) = Some p).
  { unfold holds in *. rewrite B2, M2, S2. rewrite B, MO in H. exact H. }
  split; [exact F2|]. split; [exact H2|]. destruct (held_there _ h meta k p (happened_sane l s W) F2 H2) as (m' & M' & _).
  exists m'. split; [exact M'|]. destruct (stays l s p m m' W M M') as (? & ? & _). auto.
Qed.

(** * States of the methods are states that come about *)

Lemma call_reached fd f cpus h o s : reached s -> reached (snd (call (kcall fd) f cpus h o s)).
Proof.
  intros R. unfold call. destruct (plan f cpus h o) as [q|e]; [|exact R]. assert (X := reached_more [ECall fd q] s R). cbn in X. now destruct (kcall fd q s).
Qed.
Lemma set_reached f h k i flags s : reached s -> reached (snd (set linux f h k i flags s)).
Proof. apply call_reached. Qed.
Lemma remove_reached f h k s : reached s -> reached (snd (remove linux f h k s)).
Proof. apply call_reached. Qed.
Lemma release_reached i s : reached s -> reached (release linux i s).
Proof. exact (reached_more [EClose (i_fd i)] s). Qed.
Lemma open_reached f t id s : reached s -> reached (snd (map_from_id linux f t id s)).
Proof.
  intros R. unfold map_from_id. cbn [linux s_open s_info s_close]. assert (X := reached_more [EOpen id] s R). cbn in X.
  destruct (kopen id s) as [[fd|e] s1]; [|exact X]. cbn in X. assert (Y := reached_more [EClose fd] s1 X). cbn in Y.
  destruct (kinfo fd s1); [|exact Y]. destruct (convert f t _); [exact X|exact Y].
Qed.
Lemma get_reached f t h k flags s : reached s -> reached (snd (get linux f t h k flags s)).
Proof.
  intros R. unfold get, find. assert (X := call_reached (o_fd h) f 0 (o_handle h) (OGet k flags) s R).
  cbn [linux s_map]. destruct (call (kcall (o_fd h)) f 0 (o_handle h) (OGet k flags) s) as [[[]|e] s1]; cbn in X |- *; try exact X. now apply open_reached.
Qed.

(** * Programs *)

Lemma prog_inner h meta k s o : is_for h meta s -> key_ok (o_handle h) k -> behind (o_fd h) s = Some o ->
  kinner o (key_bytes k) s = match k with UIndex i => if i <? h_entries (hd_shape (o_handle h)) then holds h k s else None | _ => holds h k s end.
Proof.
  intros F KO B. assert (F' := F). destruct F' as (o' & m & B0 & M & _). assert (o' = o) by congruence. subst o'.
  destruct (key_read h meta k s o m F B M KO) as (ME & SH & CASES). unfold kinner, holds. rewrite B, M.
  destruct CASES as [(_ & TY & FS & i & K & LD)|(_ & TY & FS & b & K)]; rewrite TY, FS.
  - rewrite LD, SH. subst k. reflexivity.
  - subst k. reflexivity.
Qed.

(** A handle for a hash map reads what programs read. *)
Lemma set_nat_same {A} o (x : A) l : at_nat o l = Some x -> set_nat o x l = l.
Proof.
  induction l as [|[p y] l IH]; cbn; [reflexivity|]. destruct (Nat.eqb_spec o p); [intros [= ->]; reflexivity|]. intros H. now rewrite (IH H).
Qed.
Lemma data_same o m s : map_at o s = Some m -> with_data o m (m_data m) s = s.
Proof.
  intros M. unfold with_data. replace {| m_id := m_id m; m_shape := m_shape m; m_meta := m_meta m; m_slots := m_slots m; m_data := m_data m |} with m by now destruct m.
  rewrite (set_nat_same o m); [now destruct s|exact M].
Qed.
Lemma user_reads f fd kk vv ik s p m : behind fd s = Some p -> map_at p s = Some m -> m_meta m = None -> h_key (m_shape m) = kk ->
  Z.of_nat (length ik) = kk ->
  call (kcall fd) f 1 {| hd_wrap := WHashMap; hd_k := kk; hd_v := vv; hd_shape := m_shape m |} (OGet (UData ik) 0) s =
    (match kvalue p ik s with Some v => Ok (RData v) | None => Err EKeyNotFound end, s).
Proof.
  intros B M N HK L. unfold call, plan. cbn [methods hd_wrap meth_of existsb meth_eqb orb negb check_key bind key_bytes].
  unfold kcall, kvalue. rewrite B, M, N. unfold khash. cbn [q_cmd q_key q_value q_flags lookup negb Z.eqb].
  destruct (entry (firstn (Z.to_nat (h_key (m_shape m))) ik) (m_data m)) as [v|]; cbn [answer decode_value hd_wrap per_cpu];
    now rewrite (data_same p m s M).
Qed.
Lemma entry_put k k' v l : entry k' (put k v l) = if str_eqb k' k then Some v else entry k' l.
Proof.
  induction l as [|[p x] l IH]; cbn; [reflexivity|]. destruct (str_eqb k p) eqn:E; cbn.
  - apply str_eqb_eq in E. subst p. now destruct (str_eqb k' k).
  - destruct (str_eqb k' p) eqn:E'; [|exact IH]. apply str_eqb_eq in E'. subst p.
    destruct (str_eqb k' k) eqn:E2; [|reflexivity]. apply str_eqb_eq in E2. subst k'. rewrite str_eqb_refl in E. discriminate E.
Qed.
Lemma user_writes f fd kk vv ik v s p m : behind fd s = Some p -> map_at p s = Some m -> m_meta m = None -> h_key (m_shape m) = kk -> h_value (m_shape m) = vv ->
  In (h_type (m_shape m)) [1; 9] -> Z.of_nat (length ik) = kk -> Z.of_nat (length v) = vv ->
  forall s', call (kcall fd) f 1 {| hd_wrap := WHashMap; hd_k := kk; hd_v := vv; hd_shape := m_shape m |} (OSet (UData ik) (WData v) 0) s = (Ok RUnit, s') ->
    s' = with_data p m (put ik v (m_data m)) s.
Proof.
  intros B M N HK HV TY L LV s'. unfold call, plan. cbn [methods hd_wrap meth_of existsb meth_eqb orb negb check_key bind key_bytes val_bytes].
  unfold kcall. rewrite B, M, N. unfold khash. cbn [q_cmd q_key q_value q_flags update].
  rewrite (firstn_same (Z.to_nat (h_key (m_shape m)))) by lia.
  assert (C : copied 1 (m_shape m) = vv). { unfold copied. destruct TY as [E|[E|[]]]; rewrite <- E; cbn; exact HV. }
  rewrite C. rewrite (firstn_same (Z.to_nat vv)) by lia. cbn [Z.ltb Z.compare orb Z.eqb].
  destruct (entry ik (m_data m)) as [x|].
  - cbn [answer]. now intros [= <-].
  - destruct (h_entries (m_shape m) <=? Z.of_nat (length (m_data m))); cbn [answer]; [discriminate|]. now intros [= <-].
Qed.

(** What the handle for an inner hash map and the program see. *)
Lemma hash_shape f kk vv sh : suits f (VTyped WHashMap kk vv) sh -> In (h_type sh) [1; 9] /\ h_key sh = kk /\ h_value sh = vv.
Proof.
  intros [A B]. cbn in A. split; [exact A|]. destruct B as (B1 & B2 & _). split; [exact (B1 kk eq_refl)|exact (B2 vv eq_refl)].
Qed.
Lemma inner_read f h meta k flags kk vv ik s o i s1 : sane s -> is_for h meta s -> key_ok (o_handle h) k -> behind (o_fd h) s = Some o ->
  Z.of_nat (length ik) = kk -> get linux f (VTyped WHashMap kk vv) h k flags s = (Ok i, s1) ->
  call (kcall (i_fd i)) f 1 (as_hash i kk vv) (OGet (UData ik) 0) s1 =
    (match get_value helpers o (key_bytes k) ik s with Some v => Ok (RData v) | None => Err EKeyNotFound end, s1).
Proof.
  intros W F KO B L G. assert (A := get_any f (VTyped WHashMap kk vv) h meta k flags s W F KO). rewrite G in A.
  destruct A as (p & m & H & -> & FR & M & SH & TY & SU & _ & _ & IX).
  destruct (held_there s h meta k p W F H) as (m1 & M1 & NM & _). assert (m1 = m) by congruence. subst m1.
  destruct (hash_shape f kk vv _ SU) as (HT & HK & HV). unfold as_hash. rewrite SH.
  set (s1 := with_fds ((i_fd i, p) :: k_fds s) s).
  assert (B1 : behind (i_fd i) s1 = Some p) by (unfold behind, s1; cbn; now rewrite Z.eqb_refl).
  rewrite (user_reads f (i_fd i) kk vv ik s1 p m B1 M NM HK L). unfold get_value, helpers. cbn [p_inner p_lookup].
  rewrite (prog_inner h meta k s o F KO B).
  replace (match k with UIndex j => if j <? h_entries (hd_shape (o_handle h)) then holds h k s else None | _ => holds h k s end) with (Some p).
  - reflexivity.
  - destruct k as [b|j|fd|pl d|ci ca]; cbn in IX; try (now rewrite H). destruct (Z.ltb_spec j (h_entries (hd_shape (o_handle h)))); [now rewrite H|lia].
Qed.
Lemma inner_write f h meta k flags kk vv ik v s o i s1 s2 : sane s -> is_for h meta s -> key_ok (o_handle h) k -> behind (o_fd h) s = Some o ->
  Z.of_nat (length ik) = kk -> Z.of_nat (length v) = vv -> get linux f (VTyped WHashMap kk vv) h k flags s = (Ok i, s1) ->
  call (kcall (i_fd i)) f 1 (as_hash i kk vv) (OSet (UData ik) (WData v) 0) s1 = (Ok RUnit, s2) ->
  get_value helpers o (key_bytes k) ik s2 = Some v /\
  forall ik', Z.of_nat (length ik') = kk -> ik' <> ik -> get_value helpers o (key_bytes k) ik' s2 = get_value helpers o (key_bytes k) ik' s.
Proof.
  intros W F KO B L LV G CW. assert (A := get_any f (VTyped WHashMap kk vv) h meta k flags s W F KO). rewrite G in A.
  destruct A as (p & m & H & -> & FR & M & SH & TY & SU & _ & _ & IX).
  destruct (held_there s h meta k p W F H) as (m1 & M1 & NM & _). assert (m1 = m) by congruence. subst m1.
  destruct (hash_shape f kk vv _ SU) as (HT & HK & HV). unfold as_hash in CW. rewrite SH in CW.
  set (s1 := with_fds ((i_fd i, p) :: k_fds s) s) in *.
  assert (B1 : behind (i_fd i) s1 = Some p) by (unfold behind, s1; cbn; now rewrite Z.eqb_refl).
  assert (E := user_writes f (i_fd i) kk vv ik v s1 p m B1 M NM HK HV HT L LV s2 CW).
  assert (PI : kinner o (key_bytes k) s = Some p).
  { rewrite (prog_inner h meta k s o F KO B). destruct k as [b|j|fd|pl d|ci ca]; cbn in IX; try exact H.
    destruct (Z.ltb_spec j (h_entries (hd_shape (o_handle h)))); [exact H|lia]. }
  destruct F as (o' & mo & B0 & MO & _ & ME & _). assert (o' = o) by congruence. subst o'.
  assert (N : o <> p) by (intros ->; congruence).
  assert (MO2 : map_at o s2 = map_at o s).
  { rewrite E. unfold map_at, with_data. cbn. rewrite at_set_nat. destruct (Nat.eqb_spec o p); [congruence|reflexivity]. }
  assert (PI2 : kinner o (key_bytes k) s2 = Some p) by (unfold kinner in *; now rewrite MO2).
  assert (MP : map_at p s2 = Some {| m_id := m_id m; m_shape := m_shape m; m_meta := m_meta m; m_slots := m_slots m; m_data := put ik v (m_data m) |}).
  { rewrite E. unfold map_at, with_data in *. cbn. rewrite at_set_nat, Nat.eqb_refl, M. reflexivity. }
  unfold get_value, helpers. cbn [p_inner p_lookup]. rewrite PI, PI2. unfold kvalue. rewrite MP, M. cbn [m_shape m_data]. split.
  - rewrite (firstn_same (Z.to_nat (h_key (m_shape m)))) by lia. now rewrite entry_put, str_eqb_refl.
  - intros ik' L' NE. rewrite (firstn_same (Z.to_nat (h_key (m_shape m))) ik') by lia. rewrite entry_put. now rewrite (proj2 (str_eqb_neq _ _) NE).
Qed.

(** What a program stores through a pointer it got. *)
Lemma prog_store h meta k s o ik v : sane s -> is_for h meta s -> key_ok (o_handle h) k -> behind (o_fd h) s = Some o ->
  match store_value helpers o (key_bytes k) ik v s with
  | (true, s') => get_value helpers o (key_bytes k) ik s <> None /\ get_value helpers o (key_bytes k) ik s' = Some v /\
                  is_for h meta s' /\ (forall k', holds h k' s' = holds h k' s) /\ k_fds s' = k_fds s
  | (false, s') => get_value helpers o (key_bytes k) ik s = None /\ s' = s
  end.
Proof.
  intros W F KO B. unfold store_value, get_value, helpers. cbn [p_inner p_lookup p_store].
  destruct (kinner o (key_bytes k) s) as [p|] eqn:PI; [|split; reflexivity].
  destruct (kvalue p ik s) as [x|] eqn:KV; [|split; reflexivity]. split; [discriminate|].
  assert (H : holds h k s = Some p).
  { rewrite (prog_inner h meta k s o F KO B) in PI. destruct k as [b|j|fd|pl d|ci ca]; try exact PI. destruct (_ <? _) in PI; [exact PI|discriminate PI]. }
  destruct (held_there s h meta k p W F H) as (m & M & NM & _). assert (F' := F). destruct F' as (o' & mo & B0 & MO & SH & ME & KD).
  assert (o' = o) by congruence. subst o'. assert (N : o <> p) by (intros ->; congruence).
  assert (MO2 : map_at o (kstore p ik v s) = map_at o s).
  { unfold kstore. rewrite M. unfold map_at, with_data. cbn. rewrite at_set_nat. destruct (Nat.eqb_spec o p); [congruence|reflexivity]. }
  assert (FD : k_fds (kstore p ik v s) = k_fds s) by (unfold kstore; rewrite M; reflexivity).
  assert (BE : forall fd, behind fd (kstore p ik v s) = behind fd s) by (intros fd; unfold behind; now rewrite FD).
  split.
  - assert (PI2 : kinner o (key_bytes k) (kstore p ik v s) = Some p) by (unfold kinner in *; now rewrite MO2).
    rewrite PI2. unfold kvalue, kstore. rewrite M. unfold map_at, with_data in *. cbn. rewrite at_set_nat, Nat.eqb_refl, M. cbn.
    now rewrite entry_put, str_eqb_refl.
  - split; [|split; [|exact FD]].
    + exists o, mo. rewrite BE, MO2. auto.
    + intros k'. unfold holds. rewrite BE, B, MO2. reflexivity.
Qed.

(** * Putting in and taking out *)

(** What was put in comes back, also after the handle was dropped. *)
Lemma set_get f t h meta k i flags s p r s1 : sane s -> is_for h meta s -> key_ok (o_handle h) k -> index_in h k -> behind (i_fd i) s = Some p -> i_fd i <> o_fd h ->
  set linux f h k i flags s = (Ok r, s1) -> can_open (release linux i s1) -> suits f t meta ->
  exists j, get linux f t h k 0 (release linux i s1) = (Ok j, with_fds ((i_fd j, p) :: k_fds (release linux i s1)) (release linux i s1)).
Proof.
  intros W F KO IX BI NE S C SU. assert (A := set_any f h meta k i flags s p W F KO BI). assert (W1 := set_sane' f h k i flags s W). rewrite S in A, W1.
  cbn in W1. destruct A as (_ & H1 & _ & FD & _ & F1 & _). assert (F1' := F1). destruct F1' as (o & mo & B1 & _).
  destruct (held_there s1 h meta k p W1 F1 H1) as (m & M & _).
  assert (K := kept h meta k o p m [EClose (i_fd i)] s1 W1 F1 B1 H1 M (conj NE Logic.I)). destruct K as (F2 & H2 & _). cbn [happened happen] in F2, H2.
  assert (W2 := happen_sane (EClose (i_fd i)) s1 W1). cbn [happen] in W2.
  destruct (get_held f t h meta k (release linux i s1) p W2 F2 KO IX H2 C SU) as (j & mj & G & _). now exists j.
Qed.

Lemma inner_types w k v : inner_type (VTyped w k v) = true -> Forall kernel_inner (alias_types w).
Proof.
  destruct w; cbn; intros H; try discriminate H; repeat (apply Forall_cons; [split; [lia|intros X; cbn in X; intuition lia]|]); apply Forall_nil.
Qed.
