(** Proofs: the programs of a loaded object behave as its file says. *)
From Verif Require Import Base Text Insn PatchModel LinkModel BtfTypes BtfModel BtfExt CoreModel BtfSanitize ExternModel ExternSpec ExternProofs ExternProps PinModel UtilModel TypedModel ProgModel ObjModel WholeModel WholeSpec LoaderModel LoaderSpec LoaderProofs LoaderProofs2 LoaderProofs3 RunSpec RunProofs RunProofs2 RunSpec2.
Local Open Scope Z_scope.

Lemma build_behaves M c k fd o w e w' : few_helpers M -> build c k fd o w = (Ok e, w') -> code_behaves M k o e.
Proof.
  intros FH. unfold build. destruct (typed_maps _) as [[]|e0]; [|intros H; apply pair_equal_spec in H as [H _]; discriminate H].
  destruct (make_maps c k _ w) as [[ms|e0] w1] eqn:MM; [|intros H; apply pair_equal_spec in H as [H _]; discriminate H].
  intros H. apply pair_equal_spec in H as [H <-].
  destruct (finish (whole o) (map info_of ms) (k_probe k)) as [l|e0] eqn:F; cbn [failing bind] in H; [|discriminate H].
  destruct (classify c ms) as [vs|e0] eqn:C; cbn [bind] in H; [|discriminate H]. apply ok_inj in H. subst e.
  destruct (classify_ok _ _ _ C) as [C1 _]. unfold code_behaves. cbn [e_maps e_progs]. rewrite C1. change (map told ms) with (map info_of ms).
  change (code_of_object o) with (whole o).
  intros W K N S OM x X B T. apply in_map_iff in X as (pf & <- & X). destruct pf as [p f'].
  exact (finish_behaves M (whole o) (map info_of ms) (k_probe k) l p f' W K N S OM FH F X B T).
Qed.
Lemma load_behaves M c k o t u e t' u' : few_helpers M -> load c k o t u = (Ok e, t', u') ->
  exists ms fd o1 o2 tb, configured c o ms /\ sent k (with_maps ms o) fd o1 /\ suited k tb o1 o2 /\
    (forall b, tb = Some b -> t' = TParsed b) /\ (tb = None -> uses_target o1 -> unparsed t /\ exists n, next_answer u = Err n) /\
    maps_of c k ms e (u_kernel u) (u_kernel u') /\ programs_of c k o fd e /\ code_behaves M k o2 e.
Proof.
  intros FH.
  unfold load, configured. destruct (patch_map_data _ _ _) as [ms|e0]; cbn [failing bind]; [|intros H; apply pair_equal_spec in H as [H _]; apply pair_equal_spec in H as [H _]; discriminate H].
  destruct (upload k (with_maps ms o)) as [[o1 fd]|e0] eqn:U; [|intros H; apply pair_equal_spec in H as [H _]; apply pair_equal_spec in H as [H _]; discriminate H].
  destruct (adapt k o1 t u) as [[[o2|e0] t1] u1] eqn:A; [|intros H; apply pair_equal_spec in H as [H _]; apply pair_equal_spec in H as [H _]; discriminate H].
  destruct (build c k fd o2 (u_kernel u1)) as [r w] eqn:B. intros H. apply pair_equal_spec in H as [H <-]. apply pair_equal_spec in H as [-> <-].
  destruct (adapt_ok _ _ _ _ _ _ _ A) as (tb & S & T1 & T2). destruct (adapt_step _ _ _ _ _ _ _ A) as [K _].
  pose proof (build_behaves M _ _ _ _ _ _ _ FH B) as B3. destruct (build_ok _ _ _ _ _ _ _ B) as (B1 & B2 & _). apply upload_sent in U.
  assert (P : p_maps o1 = ms) by (inversion U; subst; reflexivity).
  assert (Q : p_progs o1 = p_progs o) by (inversion U; subst; reflexivity).
  exists ms, fd, o1, o2, tb. split; [reflexivity|]. split; [exact U|]. split; [exact S|]. split; [exact T1|]. split; [exact T2|]. split; [|split; [|exact B3]].
  - rewrite (su_maps _ _ _ _ S), P, K in B1. exact B1.
  - destruct B2 as [Q1 Q2 Q3 Q4 Q5 Q6]. constructor; try assumption. rewrite Q1, (su_progs _ _ _ _ S). exact Q.
Qed.
