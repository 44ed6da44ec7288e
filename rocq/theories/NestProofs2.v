(** Maps of maps: every state that comes about is sane. *)
From Verif Require Import Base Text MapModel TypedModel TypedSpec NestModel NestSpec NestProofs.
Import ListNotations.
Local Open Scope Z_scope.

Lemma referred_mono s s' o : (forall r, In r (roots s) -> In r (roots s')) ->
  (forall r m, map_at r s = Some m -> exists m', map_at r s' = Some m' /\ forall p, In p (map snd (m_slots m)) -> In p (map snd (m_slots m'))) ->
  referred s o = true -> referred s' o = true.
Proof.
  intros R M H. destruct (referred_cases s o H) as [RO|(r & m & RR & MR & IN)].
  - apply referred_root. auto.
  - destruct (M r m MR) as (m' & M' & I). exact (referred_slot s' r o m' (R r RR) M' (I o IN)).
Qed.

Lemma map_at_fds l s o : map_at o (with_fds l s) = map_at o s.
Proof. reflexivity. Qed.
Lemma map_at_held l s o : map_at o (with_held l s) = map_at o s.
Proof. reflexivity. Qed.
Lemma map_at_in s o m : map_at o s = Some m -> In (o, m) (k_maps s).
Proof. apply at_nat_in. Qed.

(** A new descriptor for a map that is there. *)
Lemma fd_sane0 fd o s : sane0 s -> map_at o s <> None -> behind fd s = None -> 0 <= fd < k_limit s -> sane0 (with_fds ((fd, o) :: k_fds s) s).
Proof.
  intros W M B R. constructor; try apply W.
  - cbn. constructor; [|apply W]. now apply at_fd_none.
  - cbn. constructor; [exact R|apply W].
  - intros p H. cbn in H. rewrite map_at_fds. destruct H as [<-|H]; [exact M|]. now apply W.
Qed.
Lemma fd_sane fd o s : sane s -> map_at o s <> None -> behind fd s = None -> 0 <= fd < k_limit s -> sane (with_fds ((fd, o) :: k_fds s) s).
Proof.
  intros [W F] M B R. split; [now apply fd_sane0|]. cbn. apply Forall_forall. intros e H. rewrite Forall_forall in F.
  apply (referred_mono s); [| |auto].
  - intros r. cbn. auto.
  - intros r m E. exists m. auto.
Qed.
Lemma new_fd_sane o s : sane s -> map_at o s <> None -> sane (snd (new_fd o s)).
Proof.
  intros W M. unfold new_fd. destruct (Z.leb_spec (k_limit s) (free_fd s)); [exact W|]. cbn.
  destruct (free_fd_free s) as [A B]. apply fd_sane; [exact W|exact M|exact A|lia].
Qed.
Lemma kopen_sane id s : sane s -> sane (snd (kopen id s)).
Proof.
  intros W. unfold kopen. destruct (k_open s); [exact W|]. destruct (by_id id (k_maps s)) as [o|] eqn:E; [|exact W].
  apply new_fd_sane; [exact W|]. apply by_id_in in E as (m & E & _). unfold map_at.
  rewrite (at_nat_nodup o m _ (sn_maps s (proj1 W)) E). discriminate.
Qed.
Lemma kclose_sane fd s : sane s -> sane (kclose fd s).
Proof.
  intros [W _]. apply collect_sane. constructor; try apply W.
  - apply filter_nodup, W.
  - apply filter_forall, W.
  - intros p H. rewrite map_at_fds. apply W. unfold roots in *. cbn in H. apply in_app_iff in H as [H|H]; apply in_app_iff; [left|right; exact H].
    apply in_map_iff in H as (e & E & H). apply filter_In in H as [H _]. apply in_map_iff. eauto.
Qed.
Lemma release_sane o s : sane s -> sane (collect (with_held (remove_one o (k_held s)) s)).
Proof.
  intros [W _]. apply collect_sane. constructor; try apply W. intros p H. rewrite map_at_held. apply W. unfold roots in *. cbn in H.
  apply in_app_iff in H as [H|H]; apply in_app_iff; [left; exact H|right]. clear -H. induction (k_held s) as [|x l IH]; [destruct H|].
  cbn in H. destruct (Nat.eqb o x); [now right|]. destruct H as [H|H]; [now left|right; auto].
Qed.
Lemma take_sane o s : sane s -> map_at o s <> None -> sane (with_held (o :: k_held s) s).
Proof.
  intros [W F] M. split.
  - constructor; try apply W. intros p H. rewrite map_at_held. unfold roots in H. cbn in H. apply in_app_iff in H as [H|[<-|H]];
      [apply W; apply in_app_iff; now left|exact M|apply W; apply in_app_iff; now right].
  - cbn. apply Forall_forall. intros e H. rewrite Forall_forall in F. apply (referred_mono s); [| |auto].
    + intros r. unfold roots. cbn. rewrite !in_app_iff. cbn. tauto.
    + intros r m E. exists m. auto.
Qed.

Lemma data_sane o m l s : sane s -> map_at o s = Some m -> sane (with_data o m l s).
Proof.
  intros [W F] M. split.
  - apply (set_sane o m); auto; cbn.
    + exact (sn_flat s W o m M).
    + intros meta H p P. exact (sn_slots s W o m meta M H p P).
  - apply Forall_forall. intros e H. apply (referred_mono s).
    + auto.
    + intros r x R. unfold map_at, with_data. cbn. rewrite at_set_nat. destruct (Nat.eqb_spec r o) as [->|N].
      * unfold map_at in M, R. rewrite M in *. injection R as <-. eexists. split; [reflexivity|]. auto.
      * exists x. auto.
    + assert (X : In (fst e) (map fst (k_maps s))). { rewrite <- (set_nat_fst o {| m_id := m_id m; m_shape := m_shape m; m_meta := m_meta m; m_slots := m_slots m; m_data := l |}). now apply in_map. }
      apply in_map_iff in X as (e' & E' & X). rewrite <- E'. rewrite Forall_forall in F. auto.
Qed.

Lemma slots_sane o m meta l s : sane s -> map_at o s = Some m -> m_meta m = Some meta ->
  (forall p, In p (map snd l) -> In p (map snd (m_slots m)) \/ exists i, map_at p s = Some i /\ m_meta i = None /\ meta_equal meta (m_shape i) = true) ->
  sane (with_slots o m l s).
Proof.
  intros [W F] M E SL. apply collect_sane. apply (set_sane o m); auto; cbn.
  - intros N. congruence.
  - intros meta' E' p P. assert (meta' = meta) by congruence. subst meta'. destruct (SL p P) as [H|H]; [|exact H].
    exact (sn_slots s W o m meta M E p H).
Qed.
Lemma get_ptr_spec meta v s p : get_ptr meta v s = Ok p ->
  behind (le_dec (firstn 4 v)) s = Some p /\ exists i, map_at p s = Some i /\ m_meta i = None /\ meta_equal meta (m_shape i) = true.
Proof.
  unfold get_ptr. destruct (behind _ s) as [o|]; [|discriminate]. destruct (map_at o s) as [i|] eqn:I; [|discriminate].
  destruct (m_meta i) eqn:E; [discriminate|]. destruct (meta_equal meta (m_shape i)) eqn:Q; [|discriminate]. intros [= <-]. eauto.
Qed.
Lemma put_sane o m meta k v p s : sane s -> map_at o s = Some m -> m_meta m = Some meta -> get_ptr meta v s = Ok p ->
  sane (with_slots o m (put_slot k p (m_slots m)) s).
Proof.
  intros W M E G. apply (slots_sane o m meta); auto. intros q Q. apply put_slot_in in Q as [->|Q]; [right|left; exact Q].
  exact (proj2 (get_ptr_spec meta v s p G)).
Qed.
Lemma del_sane o m meta k s : sane s -> map_at o s = Some m -> m_meta m = Some meta ->
  sane (with_slots o m (drop_slot k (m_slots m)) s).
Proof. intros W M E. apply (slots_sane o m meta); auto. intros q Q. left. now apply drop_slot_in in Q. Qed.

Lemma karray_sane o m meta q s : sane s -> map_at o s = Some m -> m_meta m = Some meta -> sane (snd (karray_of o m meta q s)).
Proof.
  intros W M E. unfold karray_of. destruct (q_cmd q), (q_key q) as [k|], (q_value q) as [v|]; cbn; try exact W;
    repeat match goal with
    | |- sane (snd (if ?b then _ else _)) => destruct b
    | |- sane (snd (match get_ptr ?a ?b ?c with _ => _ end)) => destruct (get_ptr a b c) eqn:?
    | |- sane (snd (match slot ?a ?b with _ => _ end)) => destruct (slot a b)
    end; cbn; try exact W; try (eapply put_sane; eassumption); eapply del_sane; eassumption.
Qed.
Lemma khash_sane o m meta q s : sane s -> map_at o s = Some m -> m_meta m = Some meta -> sane (snd (khash_of o m meta q s)).
Proof.
  intros W M E. unfold khash_of. destruct (q_cmd q), (q_key q) as [k|], (q_value q) as [v|]; cbn; try exact W;
    repeat match goal with
    | |- sane (snd (if ?b then _ else _)) => destruct b
    | |- sane (snd (match get_ptr ?a ?b ?c with _ => _ end)) => destruct (get_ptr a b c) eqn:?
    | |- sane (snd (match slot ?a ?b with _ => _ end)) => destruct (slot a b)
    end; cbn; try exact W; try (eapply put_sane; eassumption); eapply del_sane; eassumption.
Qed.
Lemma kcall_sane fd q s : sane s -> sane (snd (kcall fd q s)).
Proof.
  intros W. unfold kcall. destruct (behind fd s) as [o|]; [|exact W]. destruct (map_at o s) as [m|] eqn:M; [|exact W].
  destruct (m_meta m) as [meta|] eqn:E.
  - destruct (h_type (m_shape m) =? 12); [now apply karray_sane|now apply khash_sane].
  - destruct (khash 1 (m_shape m) q (m_data m)) as [r l]. cbn. now apply data_sane.
Qed.
Lemma kstore_sane o k v s : sane s -> sane (kstore o k v s).
Proof. intros W. unfold kstore. destruct (map_at o s) as [m|] eqn:M; [|exact W]. apply data_sane; auto. Qed.

Lemma add_map_at id sh meta s o : sane0 s -> map_at o (add_map id sh meta s) =
  if Nat.eqb o (k_next s) then Some {| m_id := id; m_shape := sh; m_meta := meta; m_slots := []; m_data := [] |} else map_at o s.
Proof.
  intros W. unfold map_at. cbn. rewrite at_nat_app. cbn. destruct (Nat.eqb_spec o (k_next s)) as [->|N].
  - destruct (at_nat (k_next s) (k_maps s)) as [m|] eqn:E; [|reflexivity]. apply at_nat_in in E.
    assert (X := sn_next s W). rewrite Forall_forall in X. specialize (X _ E). cbn in X. lia.
  - now destruct (at_nat o (k_maps s)).
Qed.
Lemma nodup_snoc {A} (l : list A) x : NoDup l -> ~ In x l -> NoDup (l ++ [x]).
Proof.
  induction 1 as [|y l N ND IH]; cbn; intros H; [constructor; [tauto|constructor]|]. constructor.
  - rewrite in_app_iff. cbn. intros [X|[X|[]]]; [tauto|]. apply H. now left.
  - apply IH. tauto.
Qed.
Lemma add_map_sane0 id sh meta s : sane0 s -> id_free id s = true -> sane0 (add_map id sh meta s).
Proof.
  intros W F. unfold id_free in F. apply andb_prop in F as [F FN]. apply andb_prop in F as [F1 F2].
  destruct (by_id id (k_maps s)) eqn:B; [discriminate FN|]. apply by_id_none in B. clear FN.
  constructor.
  - cbn. rewrite map_app. cbn. apply nodup_snoc; [apply W|]. intros H. apply in_map_iff in H as (e & E & H).
    assert (X := sn_next s W). rewrite Forall_forall in X. specialize (X _ H). lia.
  - cbn. apply Forall_app. split; [|constructor; [cbn; lia|constructor]]. assert (X := sn_next s W).
    eapply Forall_impl; [|exact X]. cbn. intros e. lia.
  - cbn. rewrite map_app. cbn. apply nodup_snoc; [apply W|exact B].
  - cbn. apply Forall_app. split; [apply W|constructor; [cbn; lia|constructor]].
  - apply W. - apply W. - apply W.
  - intros o H. rewrite (add_map_at _ _ _ _ _ W). destruct (Nat.eqb o (k_next s)); [discriminate|]. now apply W.
  - intros o m. rewrite (add_map_at _ _ _ _ _ W). destruct (Nat.eqb o (k_next s)); [|apply W]. now intros [= <-].
  - intros o m meta'. rewrite (add_map_at _ _ _ _ _ W). destruct (Nat.eqb o (k_next s)).
    + intros [= <-] _ p [].
    + intros M E p P. destruct (sn_slots s W o m meta' M E p P) as (i & I & X). exists i. split; [|exact X].
      rewrite (add_map_at _ _ _ _ _ W). destruct (Nat.eqb_spec p (k_next s)) as [->|N]; [|exact I].
      apply map_at_in in I. assert (Y := sn_next s W). rewrite Forall_forall in Y. specialize (Y _ I). cbn in Y. lia.
Qed.
Lemma add_referred id sh meta s o : sane0 s -> referred s o = true -> referred (add_map id sh meta s) o = true.
Proof.
  intros W. apply referred_mono; [auto|]. intros r m M. exists m. split; [|auto]. rewrite (add_map_at _ _ _ _ _ W).
  destruct (Nat.eqb_spec r (k_next s)) as [->|N]; [|exact M]. apply map_at_in in M. assert (Y := sn_next s W).
  rewrite Forall_forall in Y. specialize (Y _ M). cbn in Y. lia.
Qed.

Lemma happen_sane e s : sane s -> sane (happen e s).
Proof.
  intros W. destruct e as [id sh meta ours|id|fd|o|o|fd q|o k v]; cbn [happen].
  - destruct (id_free id s && can_create sh meta) eqn:C; [|exact W]. apply andb_prop in C as [C _].
    assert (W0 := add_map_sane0 id sh meta s (proj1 W) C).
    assert (AT : map_at (k_next s) (add_map id sh meta s) <> None).
    { rewrite (add_map_at _ _ _ _ _ (proj1 W)). rewrite Nat.eqb_refl. discriminate. }
    destruct ours.
    + destruct (Z.leb_spec (k_limit s) (free_fd s)) as [L|L]; [exact W|]. unfold new_fd.
      change (free_fd (add_map id sh meta s)) with (free_fd s). change (k_limit (add_map id sh meta s)) with (k_limit s).
      destruct (Z.leb_spec (k_limit s) (free_fd s)) as [L'|L']; [lia|]. cbn [snd]. destruct (free_fd_free s) as [FA FB]. split.
      * apply fd_sane0; [exact W0|exact AT|exact FA|cbn; lia].
      * apply Forall_forall. intros e H. change (In e (k_maps s ++ [(k_next s, {| m_id := id; m_shape := sh; m_meta := meta; m_slots := []; m_data := [] |})])) in H.
        apply in_app_iff in H as [H|[<-|[]]].
        -- apply (referred_mono (add_map id sh meta s)).
           ++ intros r R. now right.
           ++ intros r m M. exists m. auto.
           ++ apply add_referred; [apply W|]. destruct W as [_ F]. rewrite Forall_forall in F. auto.
        -- apply referred_root. now left.
    + split.
      * constructor; try apply W0. intros p H. unfold roots in H. cbn in H. apply in_app_iff in H as [H|[<-|H]];
          [apply W0; apply in_app_iff; now left|exact AT|apply W0; apply in_app_iff; now right].
      * apply Forall_forall. intros e H. change (In e (k_maps s ++ [(k_next s, {| m_id := id; m_shape := sh; m_meta := meta; m_slots := []; m_data := [] |})])) in H.
        apply in_app_iff in H as [H|[<-|[]]].
        -- apply (referred_mono (add_map id sh meta s)).
           ++ intros r. unfold roots. cbn. rewrite !in_app_iff. cbn. tauto.
           ++ intros r m M. exists m. auto.
           ++ apply add_referred; [apply W|]. destruct W as [_ F]. rewrite Forall_forall in F. auto.
        -- apply referred_root. unfold roots. cbn. apply in_app_iff. right. now left.
  - now apply kopen_sane.
  - now apply kclose_sane.
  - destruct (map_at o s) as [m|] eqn:M; [|exact W]. apply take_sane; [exact W|congruence].
  - now apply release_sane.
  - now apply kcall_sane.
  - now apply kstore_sane.
Qed.

Lemma start_sane limit open info : limit <= 2 ^ 31 -> sane (start limit open info).
Proof.
  intros L. split; [|constructor]. constructor; cbn; try constructor; try exact L; try discriminate. intros o [].
Qed.
Lemma happened_sane l : forall s, sane s -> sane (happened l s).
Proof. induction l as [|e l IH]; intros s W; [exact W|]. apply IH. now apply happen_sane. Qed.
Lemma reached_sane s : reached s -> sane s.
Proof. intros (limit & open & info & l & L & ->). apply happened_sane. now apply start_sane. Qed.
Lemma reached_more l s : reached s -> reached (happened l s).
Proof.
  intros (limit & open & info & l0 & L & ->). exists limit, open, info, (l0 ++ l). split; [exact L|].
  generalize (start limit open info). induction l0 as [|e l0 IH]; intros s; [reflexivity|]. cbn. apply IH.
Qed.
