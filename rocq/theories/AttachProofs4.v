(** What success of load and attach means. *)
From Verif Require Import Base AttachModel AttachSpec AttachProofs AttachProofs2 AttachProofs3.
Local Open Scope Z_scope.

Lemma prog_in i s : p_fd (prog_at i s) <> None \/ p_obj (prog_at i s) = true -> (i < length (s_progs s))%nat.
Proof.
  intros H. destruct (Nat.lt_ge_cases i (length (s_progs s))) as [|G]; [assumption|exfalso].
  unfold prog_at in H. rewrite nth_overflow in H by exact G. destruct H as [H|H]; [now apply H|discriminate H].
Qed.
Lemma ask_fields s : s_next (snd (ask s)) = s_next s /\ s_progs (snd (ask s)) = s_progs s /\ s_log (snd (ask s)) = s_log s /\ s_fds (snd (ask s)) = s_fds s /\ s_slots (snd (ask s)) = s_slots s.
Proof. unfold ask. destruct (s_fail s); repeat split. Qed.
Lemma load_done i s t : load i s = (Ok tt, t) ->
  fst (ask s) = false /\ p_fd (prog_at i s) = None /\ p_obj (prog_at i s) = true /\ p_fd (prog_at i t) = Some (s_next s) /\ s_log t = s_log s ++ [Loaded i].
Proof.
  unfold load. destruct (p_fd (prog_at i s)) eqn:F; [discriminate|]. destruct (p_obj (prog_at i s)) eqn:O; cbn [negb]; [|discriminate].
  pose proof (ask_fields s) as (A1 & A2 & A3 & _). pose proof (prog_in i s (or_intror O)) as L. destruct (ask s) as [f s1]. cbn [fst snd] in *. destruct f; [discriminate|].
  unfold take_next. intros H. apply pair_equal_spec in H as [_ <-]. repeat split.
  - unfold prog_at, note, put_prog, set_progs, set_next. cbn [s_progs]. rewrite A2.
    change (p_fd (prog_at i (put_prog i (with_fd (Some (s_next s1)) (prog_at i s)) s)) = Some (s_next s)). rewrite prog_at_put by exact L. cbn. now rewrite A1.
  - unfold note. cbn. now rewrite A3.
Qed.
Lemma insert_done i l s k t : (i < length (s_progs s))%nat -> insert i l s = (Ok k, t) ->
  k = base_key (l_base l) /\ In l (p_links (prog_at i t)) /\ s_log t = s_log s /\ s_fds t = s_fds s /\ s_slots t = s_slots s.
Proof.
  intros L. unfold insert. destruct (existsb _ _); [discriminate|]. intros H. apply pair_equal_spec in H as [H <-]. apply ok_inj in H. subst k. split; [reflexivity|]. split.
  - rewrite prog_at_put by exact L. cbn. apply in_or_app. right. now left.
  - repeat split.
Qed.
Lemma kernel_attach_done m place g s a t : kernel_attach m place g s = Some (a, t) ->
  (exists l, s_log t = l ++ [MadeCall m a]) /\ In {| sl_mode := m; sl_place := place; sl_prog := g; sl_att := a |} (s_slots t) /\ s_progs t = s_progs s.
Proof.
  unfold kernel_attach. intros H.
  assert (forall s0, s_progs s0 = s_progs s -> Some (let (a0, s1) := take_next s0 in (a0, note [MadeCall m a0] (set_slots (s_slots s1 ++ [{| sl_mode := m; sl_place := place; sl_prog := g; sl_att := a0 |}]) s1))) = Some (a, t) ->
    (exists l, s_log t = l ++ [MadeCall m a]) /\ In {| sl_mode := m; sl_place := place; sl_prog := g; sl_att := a |} (s_slots t) /\ s_progs t = s_progs s) as G.
  { intros s0 E X. apply some_inj in X. unfold take_next in X. apply pair_equal_spec in X as [<- <-]. split; [eexists; reflexivity|]. split; [cbn; apply in_or_app; right; now left|exact E]. }
  destruct m.
  - destruct (existsb _ _); [discriminate|]. exact (G s eq_refl H).
  - destruct (existsb _ _); [discriminate|]. exact (G s eq_refl H).
  - eapply G; [|exact H]. reflexivity.
Qed.
Lemma find_fresh (fd a : Z) l : ~ In fd (map fst l) -> find (fun p => fst p =? fd) (l ++ [(fd, a)]) = Some (fd, a).
Proof.
  induction l as [|[x y] l IH]; intros N; cbn [app find fst]; [now rewrite Z.eqb_refl|]. cbn [map fst] in N. destruct (Z.eqb_spec x fd) as [->|]; [exfalso; apply N; now left|].
  apply IH. intros I. apply N. now right.
Qed.
Lemma attach_done l i h s k t : reached l s -> attach i h s = (Ok k, t) ->
  fst (ask s) = false /\ p_fd (prog_at i s) <> None /\ exists x, In x (p_links (prog_at i t)) /\ base_key (l_base x) = k /\ newest (l_base x) t.
Proof.
  intros FR. unfold attach. destruct (p_fd (prog_at i s)) as [g|] eqn:F; [|discriminate]. assert (i < length (s_progs s))%nat as L by (apply prog_in; left; rewrite F; discriminate).
  pose proof (ask_fields s) as (A1 & A2 & A3 & A4 & A5). destruct (ask s) as [f s1]. cbn [fst snd] in *. destruct f; [discriminate|]. intros H. split; [reflexivity|]. split; [discriminate|].
  destruct h as [|m place dup raw drops].
  - unfold take_next in H. apply insert_done in H as (-> & I & E1 & E2 & _); [|cbn; now rewrite A2]. eexists. split; [exact I|]. split; [reflexivity|]. cbn [l_base newest].
    exists (s_next s1). split; [|exists (s_log s1); exact E1]. unfold att_of. rewrite E2. cbn [note set_fds set_next s_fds s_next]. rewrite A4, find_fresh; [reflexivity|].
    apply (fds_fresh _ _ _ (reached_good _ _ FR)). lia.
  - destruct (kernel_attach m place g s1) as [[a s2]|] eqn:K; [|discriminate]. apply kernel_attach_done in K as (K1 & K2 & K3). unfold take_next in H.
    apply insert_done in H as (-> & I & E1 & _ & E3); [|cbn; now rewrite K3, A2]. eexists. split; [exact I|]. split; [reflexivity|]. cbn [l_base newest c_mode c_place c_prog c_att].
    rewrite E1, E3. split; [exact K1|exact K2].
Qed.
