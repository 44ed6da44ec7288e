(** Maps of maps: storing and removing, and other things happening. *)
From Verif Require Import Base Text MapModel TypedModel TypedSpec TypedProofs NestModel NestSpec NestProofs NestProofs2 NestProofs3.
Import ListNotations.
Local Open Scope Z_scope.

Definition slotted (m : kmap) (l : list (list Z * nat)) : kmap :=
  {| m_id := m_id m; m_shape := m_shape m; m_meta := m_meta m; m_slots := l; m_data := m_data m |}.
Lemma behind_root s fd o : behind fd s = Some o -> In o (roots s).
Proof. intros H. apply at_fd_in in H. unfold roots. apply in_app_iff. left. now apply (in_map snd) in H. Qed.
Lemma slots_at o m l s q : map_at o s = Some m ->
  map_at q (with_slots o m l s) = if referred (with_maps (set_nat o (slotted m l) (k_maps s)) s) q then (if Nat.eqb q o then Some (slotted m l) else map_at q s) else None.
Proof.
  intros M. unfold with_slots. rewrite map_at_collect. fold (slotted m l). destruct (referred _ q); [|reflexivity].
  unfold map_at in *. cbn. rewrite at_set_nat, M. reflexivity.
Qed.
Lemma slots_self o m l s : map_at o s = Some m -> In o (roots s) -> map_at o (with_slots o m l s) = Some (slotted m l).
Proof.
  intros M R. rewrite (slots_at o m l s o M). rewrite Nat.eqb_refl. rewrite referred_root; [reflexivity|exact R].
Qed.
Lemma slots_other o m l s q : map_at o s = Some m -> q <> o -> map_at q (with_slots o m l s) = map_at q s \/ map_at q (with_slots o m l s) = None.
Proof.
  intros M N. rewrite (slots_at o m l s q M). destruct (Nat.eqb_spec q o); [congruence|]. destruct (referred _ q); auto.
Qed.
Lemma slots_root o m l s q : map_at o s = Some m -> q <> o -> In q (roots s) -> map_at q (with_slots o m l s) = map_at q s.
Proof.
  intros M N R. rewrite (slots_at o m l s q M). destruct (Nat.eqb_spec q o); [congruence|]. rewrite referred_root; [reflexivity|exact R].
Qed.

Lemma put_changed h meta k v p s o m : sane s -> is_for h meta s -> behind (o_fd h) s = Some o -> map_at o s = Some m -> m_meta m = Some meta ->
  get_ptr meta v s = Ok p -> changed h meta k (Some p) s (with_slots o m (put_slot (key_bytes k) p (m_slots m)) s).
Proof.
  intros W F B M ME G. assert (SELF := slots_self o m (put_slot (key_bytes k) p (m_slots m)) s M (behind_root s _ o B)).
  assert (B' : behind (o_fd h) (with_slots o m (put_slot (key_bytes k) p (m_slots m)) s) = Some o) by exact B.
  unfold changed, holds. rewrite B', B, SELF, M. cbn [slotted m_slots].
  split; [now rewrite slot_put, str_eqb_refl|]. split.
  { intros k' N. rewrite slot_put. destruct (str_eqb (key_bytes k') (key_bytes k)) eqn:E; [|reflexivity]. apply str_eqb_eq in E. congruence. }
  split; [reflexivity|]. split; [reflexivity|]. split.
  { destruct F as (o' & m' & B0 & M0 & SH & ME0 & K). assert (o' = o) by congruence. subst o'. assert (m' = m) by congruence. subst m'.
    exists o, (slotted m (put_slot (key_bytes k) p (m_slots m))). cbn. auto. }
  split.
  - intros q mq MQ N. assert (q <> o) by congruence. destruct (slots_other o m (put_slot (key_bytes k) p (m_slots m)) s q M H) as [E|E]; [left; congruence|right; exact E].
  - intros q mq MQ N R. assert (q <> o) by congruence. now rewrite slots_root.
Qed.
Lemma del_changed h meta k s o m : sane s -> is_for h meta s -> behind (o_fd h) s = Some o -> map_at o s = Some m -> m_meta m = Some meta ->
  changed h meta k None s (with_slots o m (drop_slot (key_bytes k) (m_slots m)) s).
Proof.
  intros W F B M ME. assert (SELF := slots_self o m (drop_slot (key_bytes k) (m_slots m)) s M (behind_root s _ o B)).
  assert (B' : behind (o_fd h) (with_slots o m (drop_slot (key_bytes k) (m_slots m)) s) = Some o) by exact B.
  unfold changed, holds. rewrite B', B, SELF, M. cbn [slotted m_slots].
  split; [now rewrite slot_drop, str_eqb_refl|]. split.
  { intros k' N. rewrite slot_drop. destruct (str_eqb (key_bytes k') (key_bytes k)) eqn:E; [|reflexivity]. apply str_eqb_eq in E. congruence. }
  split; [reflexivity|]. split; [reflexivity|]. split.
  { destruct F as (o' & m' & B0 & M0 & SH & ME0 & K). assert (o' = o) by congruence. subst o'. assert (m' = m) by congruence. subst m'.
    exists o, (slotted m (drop_slot (key_bytes k) (m_slots m))). cbn. auto. }
  split.
  - intros q mq MQ N. assert (q <> o) by congruence. destruct (slots_other o m (drop_slot (key_bytes k) (m_slots m)) s q M H) as [E|E]; [left; congruence|right; exact E].
  - intros q mq MQ N R. assert (q <> o) by congruence. now rewrite slots_root.
Qed.

Lemma fd_range s fd p : sane s -> behind fd s = Some p -> 0 <= fd < 2 ^ 31.
Proof.
  intros [W _] B. apply at_fd_in in B. assert (X := sn_fd_range s W). rewrite Forall_forall in X. specialize (X _ B). cbn in X.
  assert (Y := sn_limit s W). lia.
Qed.
Lemma plan_set f h meta k fd flags s : is_for h meta s -> key_ok (o_handle h) k -> index_in h k ->
  plan f 0 (o_handle h) (OSet k (WFd fd) flags) = Ok (update (Some (key_bytes k)) (le_enc 4 fd) flags).
Proof.
  intros F KO IX. assert (F' := F). destruct F' as (o & m & B & M & _). destruct (key_read h meta k s o m F B M KO) as (ME & SH & CASES).
  unfold plan, check_key. destruct CASES as [(-> & _ & _ & i & K & _)|(-> & _ & _ & b & K)]; subst k.
  - cbn [methods meth_of existsb meth_eqb orb negb bounded]. unfold check_bounds. cbn in IX.
    destruct (Z.leb_spec (h_entries (hd_shape (o_handle h))) i) as [L|L]; [lia|reflexivity].
  - reflexivity.
Qed.

(** What the kernel wants of a map to be stored. *)
Lemma ptr_spec meta fd s p m : sane s -> behind fd s = Some p -> map_at p s = Some m -> m_meta m = None ->
  get_ptr meta (le_enc 4 fd) s = if meta_equal meta (m_shape m) then Ok p else Err EINVAL.
Proof.
  intros W B M N. unfold get_ptr. rewrite (firstn_same 4) by apply le_enc_length. assert (R := fd_range s fd p W B).
  rewrite le4 by lia. now rewrite B, M, N.
Qed.
Lemma index_dec h k : index_in h k \/ exists i, k = UIndex i /\ ~ index_in h k.
Proof.
  destruct k; cbn; auto. destruct (Z.lt_ge_cases i (h_entries (hd_shape (o_handle h)))) as [L|L]; [now left|right]. exists i. split; [reflexivity|lia].
Qed.
Lemma set_outside f h meta i x flags s : is_for h meta s -> key_ok (o_handle h) (UIndex i) -> ~ index_in h (UIndex i) ->
  set linux f h (UIndex i) x flags s = (Err (EOutOfBounds i (h_entries (hd_shape (o_handle h)))), s).
Proof.
  intros (o & m & B & M & SH & ME & KIND) KO IX. unfold set, call, plan, check_key. unfold key_ok in KO. cbn in IX.
  destruct KIND as [(E & TY & KS)|(E & TY & KS)]; rewrite E in *; [|destruct KO].
  cbn [methods meth_of existsb meth_eqb orb negb bounded]. unfold check_bounds.
  destruct (Z.leb_spec (h_entries (hd_shape (o_handle h))) i); [reflexivity|lia].
Qed.

Lemma set_any f h meta k i flags s p : sane s -> is_for h meta s -> key_ok (o_handle h) k -> behind (i_fd i) s = Some p ->
  match set linux f h k i flags s with
  | (Ok r, s') => r = RUnit /\ changed h meta k (Some p) s s'
  | (Err e, s') => s' = s
  end.
Proof.
  intros W F KO BI. destruct (index_dec h k) as [IX|(ix & -> & IX)]; [|now rewrite (set_outside f h meta ix i flags s F KO IX)].
  unfold set, call. rewrite (plan_set f h meta k (i_fd i) flags s F KO IX). cbn [linux s_map].
  assert (F' := F). destruct F' as (o & m & B & M & _). destruct (key_read h meta k s o m F B M KO) as (ME & SH & CASES).
  assert (FD : le_dec (firstn 4 (le_enc 4 (i_fd i))) = i_fd i).
  { rewrite (firstn_same 4) by apply le_enc_length. apply le4. assert (R := fd_range s _ p W BI). lia. }
  unfold kcall. rewrite B, M, ME. destruct CASES as [(_ & TY & FS & ix & K & LD)|(_ & TY & FS & b & K)]; rewrite TY.
  - unfold karray_of. cbn [q_cmd q_key q_value q_flags update]. rewrite FS. destruct (negb (flags =? 0)); [reflexivity|].
    destruct (negb _); [reflexivity|]. destruct (get_ptr meta (le_enc 4 (i_fd i)) s) as [p'|e] eqn:G; [|reflexivity].
    cbn [answer]. assert (E := proj1 (get_ptr_spec _ _ _ _ G)). rewrite FD in E. assert (p' = p) by congruence. subst p'.
    split; [reflexivity|]. eapply put_changed; eassumption.
  - unfold khash_of. cbn [q_cmd q_key q_value q_flags update]. rewrite FS.
    destruct (get_ptr meta (le_enc 4 (i_fd i)) s) as [p'|e] eqn:G; [|reflexivity].
    assert (E := proj1 (get_ptr_spec _ _ _ _ G)). rewrite FD in E. assert (p' = p) by congruence. subst p'.
    destruct ((flags <? 0) || (2 <? flags)); [reflexivity|]. destruct (slot (key_bytes k) (m_slots m)).
    + destruct (flags =? 1); [reflexivity|]. cbn [answer]. split; [reflexivity|]. eapply put_changed; eassumption.
    + destruct (flags =? 2); [reflexivity|]. destruct (h_entries (m_shape m) <=? _); [reflexivity|]. cbn [answer].
      split; [reflexivity|]. eapply put_changed; eassumption.
Qed.
(** Accepted: a map of the shape asked for, room for it, flags 0. *)
Lemma set_ok f h meta k i s p m : sane s -> is_for h meta s -> key_ok (o_handle h) k -> index_in h k -> behind (i_fd i) s = Some p ->
  map_at p s = Some m -> m_meta m = None -> meta_equal meta (m_shape m) = true ->
  (hd_wrap (o_handle h) = WHashOfMaps -> holds h k s <> None \/ count h s < h_entries (hd_shape (o_handle h))) ->
  exists s', set linux f h k i 0 s = (Ok RUnit, s').
Proof.
  intros W F KO IX BI MI NM EQ ROOM. unfold set, call. rewrite (plan_set f h meta k (i_fd i) 0 s F KO IX). cbn [linux s_map].
  assert (F' := F). destruct F' as (o & mo & B & M & _). destruct (key_read h meta k s o mo F B M KO) as (ME & SH & CASES).
  assert (G := ptr_spec meta (i_fd i) s p m W BI MI NM). rewrite EQ in G.
  unfold holds, count in ROOM. rewrite B, M in ROOM.
  unfold kcall. rewrite B, M, ME. destruct CASES as [(_ & TY & FS & ix & K & LD)|(HW & TY & FS & b & K)]; rewrite TY.
  - unfold karray_of. cbn [q_cmd q_key q_value q_flags update]. rewrite FS, LD, G. cbn [negb Z.eqb]. rewrite <- SH.
    rewrite (index_ltb h k ix IX K). cbn [negb answer]. eauto.
  - specialize (ROOM HW). unfold khash_of. cbn [q_cmd q_key q_value q_flags update]. rewrite FS, G. cbn [Z.ltb Z.compare orb Z.eqb].
    destruct (slot (key_bytes k) (m_slots mo)) as [x|]; [cbn [answer]; eauto|]. destruct ROOM as [R|R]; [congruence|].
    rewrite SH in R. destruct (Z.leb_spec (h_entries (m_shape mo)) (Z.of_nat (length (m_slots mo)))) as [L|L]; [lia|]. cbn [answer]. eauto.
Qed.
Lemma call_sane fd f cpus h o s : sane s -> sane (snd (call (kcall fd) f cpus h o s)).
Proof.
  intros W. unfold call. destruct (plan f cpus h o) as [q|e]; [|exact W]. assert (X := kcall_sane fd q s W). destruct (kcall fd q s). exact X.
Qed.
Lemma set_sane' f h k i flags s : sane s -> sane (snd (set linux f h k i flags s)).
Proof. apply call_sane. Qed.
(** A map of another shape is refused. *)
Lemma set_unsuited f h meta k i flags s p m : sane s -> is_for h meta s -> key_ok (o_handle h) k -> behind (i_fd i) s = Some p ->
  map_at p s = Some m -> m_meta m = None -> meta_equal meta (m_shape m) = false ->
  exists e, set linux f h k i flags s = (Err e, s).
Proof.
  intros W F KO BI MI NM EQ. assert (A := set_any f h meta k i flags s p W F KO BI).
  assert (W' := set_sane' f h k i flags s W). destruct (set linux f h k i flags s) as [[r|e] s'] eqn:E; [|exists e; now rewrite A].
  exfalso. cbn in W'. destruct A as (_ & CH & _ & _ & _ & F' & OTHER & _). destruct (held_there s' h meta k p W' F' CH) as (m' & M' & _ & EQ').
  assert (N : behind (o_fd h) s <> Some p).
  { intros X. destruct F as (o & mo & B & M & _ & ME & _). congruence. }
  destruct (OTHER p m MI N) as [X|X]; congruence.
Qed.

Lemma remove_any f h meta k s : sane s -> is_for h meta s -> key_ok (o_handle h) k -> hd_wrap (o_handle h) = WHashOfMaps ->
  match holds h k s with
  | Some _ => exists s', remove linux f h k s = (Ok RUnit, s') /\ changed h meta k None s s'
  | None => remove linux f h k s = (Err (ESyscall ENOENT), s)
  end.
Proof.
  intros W F KO HW. assert (F' := F). destruct F' as (o & m & B & M & _). destruct (key_read h meta k s o m F B M KO) as (ME & SH & CASES).
  unfold remove, call, plan, check_key. destruct CASES as [(X & _)|(_ & TY & FS & b & K)]; [congruence|]. rewrite HW.
  cbn [methods meth_of existsb meth_eqb orb negb bounded]. subst k. cbn [bind linux s_map]. unfold holds, kcall. rewrite B, M, ME, TY.
  unfold khash_of. cbn [q_cmd q_key q_value q_flags delete]. rewrite FS. destruct (slot (key_bytes (UData b)) (m_slots m)); [|reflexivity].
  cbn [answer]. eexists. split; [reflexivity|]. eapply del_changed; eassumption.
Qed.
