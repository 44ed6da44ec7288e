From Coq Require Import String.
From Verif Require Import Base Text TextSplit LogModel BuildModel BuildSpec BuildProofs BuildProofs2.
Local Open Scope Z_scope.

(** * Copies *)

Lemma put_same p x f : put p x f p = Some x.
Proof. unfold put. now rewrite str_eqb_refl. Qed.
Lemma put_other p x f q : q <> p -> put p x f q = f q.
Proof. intros N. unfold put. now rewrite (proj2 (str_eqb_neq _ _) N). Qed.

Lemma copy_ok src dst f f' : copy src dst f = Some f' -> exists c, f src = Some (NFile c) /\ f dst <> Some NDir /\ f' = put dst (NFile c) f.
Proof.
  unfold copy. destruct (f src) as [[c|]|] eqn:E; try discriminate. destruct (f dst) as [[d|]|] eqn:F; try discriminate; intros H; apply some_inj in H; subst f'; exists c;
    (split; [reflexivity|]); (split; [discriminate|reflexivity]).
Qed.

Lemma cons_tail {A} (a b : A) l k : a :: l = b :: k -> l = k.
Proof. intros H. now injection H. Qed.
Lemma slash_inj out a b : slash out a = slash out b -> a = b.
Proof. unfold slash. intros H. apply app_inv_head in H. now injection H. Qed.

Lemma copy_all_other out l f x f' q : copy_all out l f = (x, f') -> (forall n e, In (n, e) l -> q <> slash out n) -> f' q = f q.
Proof.
  revert f. induction l as [|[n e] l IH]; intros f H Q; cbn [copy_all] in H.
  - apply pair_equal_spec in H as [_ <-]. reflexivity.
  - destruct (copy e (slash out n) f) as [f1|] eqn:C.
    + rewrite (IH _ H) by (intros a b I; apply (Q a b); now right). apply copy_ok in C as (c & _ & _ & ->). apply put_other. apply (Q n e). now left.
    + apply pair_equal_spec in H as [_ <-]. reflexivity.
Qed.

Lemma copy_all_dir out l f f' q : copy_all out l f = (Ok tt, f') -> f q = Some NDir -> forall n e, In (n, e) l -> q <> slash out n.
Proof.
  revert f. induction l as [|[n e] l IH]; intros f H Q a b I; [contradiction|]. cbn [copy_all] in H.
  destruct (copy e (slash out n) f) as [f1|] eqn:C; [|discriminate H]. apply copy_ok in C as (c & _ & N & ->).
  assert (q <> slash out n) as NE by (intros ->; contradiction).
  destruct I as [I|I]; [injection I as <- <-; exact NE|]. apply (IH _ H) with (e := b); [|exact I]. now rewrite put_other.
Qed.

Lemma copy_all_file out l f f' : copy_all out l f = (Ok tt, f') -> NoDup (map fst l) -> (forall n e m d, In (n, e) l -> In (m, d) l -> e <> slash out m) ->
  forall n e, In (n, e) l -> f' (slash out n) = f e.
Proof.
  revert f. induction l as [|[n e] l IH]; intros f H ND S a b I; [contradiction|]. cbn [copy_all] in H. cbn [map fst] in ND. inversion ND as [|? ? NI ND']; subst.
  destruct (copy e (slash out n) f) as [f1|] eqn:C; [|discriminate H]. apply copy_ok in C as (c & F & _ & ->). destruct I as [I|I].
  - injection I as <- <-. rewrite (copy_all_other _ _ _ _ _ (slash out n) H).
    + rewrite put_same. now rewrite F.
    + intros m d J EQ. apply slash_inj in EQ. subst m. apply NI. apply in_map_iff. exists (n, d). split; [reflexivity|exact J].
  - rewrite (IH _ H ND') with (n := a) (e := b); [|intros x y z w J K; apply (S x y z w); now right|exact I].
    apply put_other. apply (S a b n e); [now right|now left].
Qed.

Lemma copy_all_works out l f : (forall n e, In (n, e) l -> exists c, f e = Some (NFile c)) -> (forall n e, In (n, e) l -> f (slash out n) <> Some NDir) ->
  exists f', copy_all out l f = (Ok tt, f') /\ forall q, f q <> Some NDir -> f' q <> Some NDir.
Proof.
  revert f. induction l as [|[n e] l IH]; intros f S D; [exists f; split; [reflexivity|auto]|]. cbn [copy_all].
  destruct (S n e (or_introl eq_refl)) as [c C]. pose proof (D n e (or_introl eq_refl)) as N.
  assert (copy e (slash out n) f = Some (put (slash out n) (NFile c) f)) as ->.
  { unfold copy. rewrite C. destruct (f (slash out n)) as [[d|]|]; [reflexivity|now destruct N|reflexivity]. }
  assert (forall q, f q <> Some NDir -> put (slash out n) (NFile c) f q <> Some NDir) as K.
  { intros q Q. unfold put. destruct (str_eqb q (slash out n)); [discriminate|exact Q]. }
  destruct (IH (put (slash out n) (NFile c) f)) as (f' & A & B).
  - intros a b I. unfold put. destruct (str_eqb b (slash out n)); [eauto|]. apply (S a b). now right.
  - intros a b I. apply K. apply (D a b). now right.
  - exists f'. split; [exact A|]. intros q Q. apply B. now apply K.
Qed.

(** * The directory of the builds *)

Lemma below_not_slash out n r : name_ok n -> out ++ txt "/aya-build" ++ 47 :: r <> slash out n.
Proof.
  intros N E. unfold slash in E. apply app_inv_head in E. change (txt "/aya-build" ++ 47 :: r) with (47 :: txt "aya-build" ++ 47 :: r) in E. apply cons_tail in E.
  apply N. rewrite <- E. apply in_or_app. right. now left.
Qed.

Definition building (out q : list Z) : Prop := q = out ++ txt "/aya-build" \/ below (out ++ txt "/aya-build") q.
Lemma building_not_slash out n q : name_ok n -> n <> txt "aya-build" -> building out q -> q <> slash out n.
Proof.
  intros N A [-> | [r ->]] E.
  - unfold slash in E. apply app_inv_head in E. change (txt "/aya-build") with (47 :: txt "aya-build") in E. apply cons_tail in E. now subst n.
  - rewrite <- app_assoc in E. exact (below_not_slash _ _ _ N E).
Qed.

(** What is known of the commands. *)
Record tame (M : machine) (out : list Z) (c : command) : Prop := {
  t_change : forall f q, snd (m_cargo M c f) q <> f q -> building out q;
  t_exe : forall f n e, In (n, e) (reported (fst (m_cargo M c f))) -> below (out ++ txt "/aya-build") e /\ exists x, snd (m_cargo M c f) e = Some (NFile x);
  t_dir : forall f, r_spawned (fst (m_cargo M c f)) = true -> snd (m_cargo M c f) (out ++ txt "/aya-build") = Some NDir
}.

Lemma below_trans a b c : below a b -> below b c -> below a c.
Proof. intros [r ->] [r' ->]. exists (r ++ 47 :: r'). now rewrite <- app_assoc. Qed.

Lemma tidy_tame M out t nightly endian arch p : tidy M out -> (endian = txt "big" \/ endian = txt "little") ->
  tame M out (cargo M (prefix_of M t) nightly (bpf_target endian) (target_arch_fixup arch) out p).
Proof.
  intros T EO. destruct (cargo_right M t nightly out endian arch p EO) as [(q & AS & Q) _].
  assert (q_dir q = Some (out ++ txt "/aya-build/target/" ++ p_name p)) as QD by tauto. clear Q.
  set (c := cargo _ _ _ _ _ _ _) in *.
  assert (below (out ++ txt "/aya-build/target") (out ++ txt "/aya-build/target/" ++ p_name p)) as B by (exists (p_name p); now rewrite <- app_assoc).
  assert (below (out ++ txt "/aya-build") (out ++ txt "/aya-build/target")) as B' by (exists (txt "target"); now rewrite <- app_assoc).
  assert (below (out ++ txt "/aya-build") (out ++ txt "/aya-build/target/" ++ p_name p)) as B2 by (eapply below_trans; eassumption).
  pose proof (fun f => T c q _ f (ex_intro _ t AS) QD B) as TT. constructor.
  - intros f x D. destruct (TT f) as (A & _). destruct (A x D) as [X|[-> |[-> | ->]]].
    + right. eapply below_trans; eassumption.
    + right. exact B2.
    + right. exact B'.
    + left. reflexivity.
  - intros f n e I. destruct (TT f) as (_ & A & _). destruct (A n e I) as [X Y]. split; [|exact Y]. eapply below_trans; eassumption.
  - intros f S. destruct (TT f) as (_ & _ & A). now apply A.
Qed.

(** * Copied *)

Definition dec_files (f g : files) (q : list Z) : {f q = g q} + {f q <> g q}.
Proof. decide equality. decide equality. apply list_eq_dec, Z.eq_dec. Qed.

Lemma went_copied M cmd_of out : (forall p, tame M out (cmd_of p)) -> forall l s s', went M cmd_of out l s (Ok tt) s' ->
  exists new, s_runs s' = s_runs s ++ new /\
    (NoDup (map fst (all_reported new)) -> (forall n e, In (n, e) (all_reported new) -> name_ok n) ->
      (forall y n e, In y new -> In (n, e) (reported (snd (fst y))) -> s_files s' (slash out n) = snd y e /\ exists c, snd y e = Some (NFile c)) /\
      (forall q, ~ building out q -> (forall n e, In (n, e) (all_reported new) -> q <> slash out n) -> s_files s' q = s_files s q)).
Proof.
  intros TM l s s' W. remember (Ok tt) as x eqn:EX. revert EX. induction W as [s|p l s e s' E|p l s s1 x s' E W IH]; intros EX; [|discriminate EX|].
  - exists []. rewrite app_nil_r. split; [reflexivity|]. intros _ _. split; [intros y n e []|reflexivity].
  - destruct (IH EX) as (new & N & G). clear IH. inversion E as [| | |r f y s2 R SP A B C D F]; subst.
    exists ((cmd_of p, r, f) :: new). split; [rewrite N, A, <- app_assoc; reflexivity|]. unfold all_reported. cbn [flat_map fst snd]. intros ND NO.
    rewrite map_app in ND. assert (forall n e, In (n, e) (reported r) -> name_ok n) as NO1 by (intros n e I; apply (NO n e), in_or_app; now left).
    assert (NoDup (map fst (reported r)) /\ NoDup (map fst (all_reported new)) /\ forall n, In n (map fst (reported r)) -> ~ In n (map fst (all_reported new))) as (ND1 & ND2 & ND3).
    { clear -ND. change (flat_map (fun x => reported (snd (fst x))) new) with (all_reported new) in ND. induction (map fst (reported r)) as [|a k IHk]; [split; [constructor|]; split; [exact ND|intros n []]|].
      inversion ND as [|? ? X Y]; subst. destruct (IHk Y) as (P & Q & S). split; [constructor; [intros I; apply X, in_or_app; now left|exact P]|]. split; [exact Q|].
      intros n [<- |I]; [intros J; apply X, in_or_app; now right|now apply S]. }
    destruct (G ND2 ltac:(intros n e I; apply (NO n e), in_or_app; now right)) as [G1 G2]. clear G.
    destruct (TM p) as [T1 T2 T3]. specialize (T1 (s_files s)). specialize (T2 (s_files s)). specialize (T3 (s_files s)). rewrite R in T1, T2, T3. cbn [fst snd] in T1, T2, T3.
    assert (forall n e, In (n, e) (reported r) -> n <> txt "aya-build") as NA.
    { intros n e I ->. refine (copy_all_dir _ _ _ _ _ D (T3 SP) _ _ I _). unfold slash. reflexivity. }
    assert (forall n e m d, In (n, e) (reported r) -> In (m, d) (reported r) -> e <> slash out m) as ED.
    { intros n e m d I J. apply building_not_slash; [exact (NO1 _ _ J)|exact (NA _ _ J)|]. right. exact (proj1 (T2 _ _ I)). }
    split.
    + intros y n e [<- |I] J.
      * cbn [fst snd] in J |- *. split; [|exact (proj2 (T2 _ _ J))]. rewrite <- (copy_all_file _ _ _ _ D ND1 ED _ _ J). apply G2.
        -- intros B'. exact (building_not_slash _ _ _ (NO1 _ _ J) (NA _ _ J) B' eq_refl).
        -- intros m d K EQ. apply slash_inj in EQ. subst m. apply (ND3 n); [apply in_map_iff; exists (n, e); split; [reflexivity|exact J]|apply in_map_iff; exists (n, d); split; [reflexivity|exact K]].
      * exact (G1 _ _ _ I J).
    + intros q NB Q. rewrite G2; [|exact NB|intros n e I; apply (Q n e), in_or_app; now right].
      rewrite (copy_all_other _ _ _ _ _ q D) by (intros n e I; apply (Q n e), in_or_app; now left).
      destruct (dec_files f (s_files s) q) as [EQ|NE]; [exact EQ|]. destruct (NB (T1 _ NE)).
Qed.

Lemma copied M l t s nightly out endian arch s' : not_skipped M -> set_up M t nightly out endian arch -> tidy M out -> build_ebpf M l t s = (Ok tt, s') ->
  exists new, s_runs s' = s_runs s ++ new /\
    (NoDup (map fst (all_reported new)) -> (forall n e, In (n, e) (all_reported new) -> name_ok n) ->
      (forall y n e, In y new -> In (n, e) (reported (snd (fst y))) -> s_files s' (out ++ 47 :: n) = snd y e /\ exists c, snd y e = Some (NFile c)) /\
      (forall q, q <> out ++ txt "/aya-build" -> ~ below (out ++ txt "/aya-build") q -> (forall n e, In (n, e) (all_reported new) -> q <> out ++ 47 :: n) -> s_files s' q = s_files s q)).
Proof.
  intros NS SU T H. rewrite (ebpf_all _ _ _ _ _ _ _ _ NS SU) in H. apply build_all_went in H.
  apply (went_copied _ _ _ (fun p => tidy_tame M out t nightly endian arch p T (su_endian_ok _ _ _ _ _ _ SU))) in H as (new & A & B).
  destruct (start_runs M s) as [S1 S2]. exists new. rewrite S1 in A. split; [exact A|]. intros ND NO. destruct (B ND NO) as [B1 B2]. split; [exact B1|].
  intros q Q1 Q2 Q3. rewrite <- S2. apply B2; [intros [X|X]; contradiction|exact Q3].
Qed.

(** * Success *)

Lemma works_ok M l t s nightly out endian arch : not_skipped M -> set_up M t nightly out endian arch -> tidy M out -> works M -> no_dirs out (s_files s) ->
  exists s', build_ebpf M l t s = (Ok tt, s').
Proof.
  intros NS SU T WK D. rewrite (ebpf_all _ _ _ _ _ _ _ _ NS SU). destruct (start_runs M s) as [_ S2].
  assert (no_dirs out (s_files (start M s))) as D0 by (rewrite S2; exact D). revert D0. generalize (start M s). clear s S2 D.
  induction l as [|p l IH]; intros s D; cbn [build_all]; [eauto|].
  pose proof (tidy_tame M out t nightly endian arch p T (su_endian_ok _ _ _ _ _ _ SU)) as [T1 T2 T3].
  destruct (build_one _ _ _ _ _ _ p s) as [x s1] eqn:E. apply build_one_ended in E.
  set (c := cargo _ _ _ _ _ _ p) in *. destruct (WK c (s_files s)) as (W1 & W2 & W3 & W4).
  inversion E as [s2 SP A B C|r f ws s2 R SP A B C D'|r f s2 R SP A B C D'|r f y s2 R SP A B C D' F]; subst.
  - rewrite W1 in SP. discriminate SP.
  - rewrite R in W3. contradiction.
  - rewrite R in W2. cbn [fst] in W2. rewrite W2 in B. discriminate B.
  - specialize (T1 (s_files s)). specialize (T2 (s_files s)). rewrite R in T1, T2, W4. cbn [fst snd] in T1, T2, W4.
    assert (no_dirs out f) as DF.
    { intros n N NA. destruct (dec_files f (s_files s) (out ++ 47 :: n)) as [EQ|NE]; [rewrite EQ; now apply D|].
      destruct (building_not_slash _ _ _ N NA (T1 _ NE)). reflexivity. }
    destruct (copy_all_works out (reported r) f) as (f' & CA & K).
    + intros n e I. exact (proj2 (T2 _ _ I)).
    + intros n e I. destruct (W4 _ _ I) as [X Y]. exact (DF n X Y).
    + rewrite CA in D'. apply pair_equal_spec in D' as [<- D']. apply IH. rewrite <- D'. intros n N NA. apply K. now apply DF.
Qed.

(** * Lines *)

Lemma strip_app p l : strip p (p ++ l) = Some l.
Proof. unfold strip. rewrite starts_with_app. f_equal. apply skipn_app_exact. reflexivity. Qed.
Lemma strip_cons a p l : strip (a :: p) (a :: l) = strip p l.
Proof. unfold strip. cbn [starts_with length skipn]. now rewrite Z.eqb_refl. Qed.
Lemma warning_directive l : directive_of (warning l) = DWarning l.
Proof. unfold directive_of, warning. now rewrite strip_app. Qed.
Lemma rerun_directive p : directive_of (rerun p) = DChanged (p_root p).
Proof. unfold directive_of, rerun. rewrite strip_app. reflexivity. Qed.
Lemma warnings_app a b : warnings (a ++ b) = warnings a ++ warnings b.
Proof. apply flat_map_app. Qed.
Lemma changed_app a b : changed (a ++ b) = changed a ++ changed b.
Proof. apply flat_map_app. Qed.
Lemma warnings_map l : warnings (map warning l) = l.
Proof. induction l as [|a l IH]; [reflexivity|]. unfold warnings in *. cbn [map flat_map]. now rewrite warning_directive, IH. Qed.
Lemma changed_map l : changed (map warning l) = [].
Proof. induction l as [|a l IH]; [reflexivity|]. unfold changed in *. cbn [map flat_map]. now rewrite warning_directive, IH. Qed.
Lemma known_map l : Forall (fun x => directive_of x <> DOther) (map warning l).
Proof. apply Forall_forall. intros x I. apply in_map_iff in I as (w & <- & _). rewrite warning_directive. discriminate. Qed.

Lemma res_dec (e : berr) : e = ESpawn \/ e <> ESpawn.
Proof. destruct e; first [left; reflexivity|right; discriminate]. Qed.

(** What a package says. *)
Lemma ended_lines M c out p s x s' : ended M c out p s x s' -> exists ws, s_lines s' = s_lines s ++ rerun p :: map warning ws /\ (x <> Err EJson -> x <> Err ESpawn -> exists r f, s_runs s' = s_runs s ++ [(c, r, f)] /\ ws = told r) /\ (x = Err ESpawn -> s_runs s' = s_runs s /\ ws = []).
Proof.
  intros H. inversion H; subst.
  - exists []. split; [assumption|]. split; [intros _ X; now destruct X|intros _; split; [assumption|reflexivity]].
  - exists ws. split; [assumption|]. split; [intros X; now destruct X|discriminate].
  - exists (told r). split; [assumption|]. split; [|discriminate]. intros _ _. eexists _, _. split; [eassumption|reflexivity].
  - exists (told r). split; [assumption|]. split; [intros _ _; eexists _, _; split; [eassumption|reflexivity]|].
    intros ->. exfalso. match goal with X : copy_all _ _ _ = _ |- _ => revert X end. clear. generalize (reported r) f. induction l as [|[n e] l IH]; intros g; cbn [copy_all]; [discriminate|].
    destruct (copy e (slash out n) g); [apply IH|discriminate].
Qed.

Lemma went_lines M cmd_of out l s x s' : went M cmd_of out l s x s' -> exists ls, s_lines s' = s_lines s ++ ls /\ Forall (fun x => directive_of x <> DOther) ls /\ (exists done rest, l = done ++ rest /\ changed ls = map p_root done /\ (x = Ok tt -> rest = [])) /\ (x <> Err EJson -> exists new, s_runs s' = s_runs s ++ new /\ warnings ls = flat_map (fun y => told (snd (fst y))) new).
Proof.
  assert (forall p ws, Forall (fun x => directive_of x <> DOther) (rerun p :: map warning ws)) as K.
  { intros p ws. constructor; [rewrite rerun_directive; discriminate|apply known_map]. }
  assert (forall p ws, changed (rerun p :: map warning ws) = [p_root p]) as CH.
  { intros p ws. change (rerun p :: map warning ws) with ([rerun p] ++ map warning ws). rewrite changed_app, changed_map. unfold changed. cbn [flat_map app]. now rewrite rerun_directive. }
  assert (forall p ws, warnings (rerun p :: map warning ws) = ws) as WA.
  { intros p ws. change (rerun p :: map warning ws) with ([rerun p] ++ map warning ws). rewrite warnings_app, warnings_map. unfold warnings. cbn [flat_map app]. now rewrite rerun_directive. }
  induction 1 as [s|p l s e s' E|p l s s1 x s' E W IH].
  - exists []. rewrite app_nil_r. split; [reflexivity|]. split; [constructor|]. split; [exists [], []; repeat split|]. intros _. exists []. rewrite app_nil_r. split; reflexivity.
  - apply ended_lines in E as (ws & A & B & C). exists (rerun p :: map warning ws). split; [exact A|]. split; [apply K|]. split.
    + exists [p], l. split; [reflexivity|]. split; [apply CH|discriminate].
    + intros NJ. rewrite WA. destruct (res_dec e) as [->|NS].
      * destruct (C eq_refl) as [R ->]. exists []. rewrite app_nil_r. split; [exact R|reflexivity].
      * destruct (B NJ) as (r & f & R & ->); [intros X; injection X as X; contradiction|]. exists [(cmd_of p, r, f)]. split; [exact R|]. cbn [flat_map fst snd]. now rewrite app_nil_r.
  - apply ended_lines in E as (ws & A & B & _). destruct B as (r & f & R & ->); [discriminate|discriminate|].
    destruct IH as (ls & I1 & I2 & (done & rest & I3 & I4 & I5) & I6). exists ((rerun p :: map warning (told r)) ++ ls).
    split; [rewrite I1, A, <- app_assoc; reflexivity|]. split; [apply Forall_app; split; [apply K|exact I2]|]. split.
    + exists (p :: done), rest. split; [now rewrite I3|]. split; [rewrite changed_app, CH, I4; reflexivity|exact I5].
    + intros NJ. destruct (I6 NJ) as (new & J1 & J2). exists ((cmd_of p, r, f) :: new). split; [rewrite J1, R, <- app_assoc; reflexivity|].
      rewrite warnings_app, WA, J2. reflexivity.
Qed.
