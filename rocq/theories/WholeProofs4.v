(** Proofs: from the phases to the programs. *)
From Verif Require Import Base Insn ObjModel ObjSpec ObjProofs4 PatchModel PatchSpec PatchProofs PatchProofs2 LinkModel LinkSpec LinkProofs LinkProofs2 WholeModel WholeSpec WholeProofs WholeProofs2 WholeProofs3.
Local Open Scope Z_scope.

Lemma each_spec stp fs fs' : each stp fs = Ok fs' -> Forall2 (fun f f' => exists ins, stp f = Ok ins /\ f' = with_code f ins) fs fs'.
Proof.
  intros H. apply mapM_ok in H. induction H as [|f f' l l' E _ IH]; constructor; [|exact IH].
  destruct (stp f) as [ins|e] eqn:Es; cbn [bind] in E; [|discriminate E]. apply ok_inj in E. exists ins. split; [reflexivity|]. now symmetry.
Qed.

Lemma phases o maps fs1 fs2 : maps_phase o maps (is_code o) (ob_funs o) = Ok fs1 -> externs_phase o fs1 = Ok fs2 ->
  Forall2 (fun f f2 => exists ins1 ins2, f2 = with_code f ins2 /\
    relocate_maps (f_secoff f) maps (ob_syms o) (is_code o) (ob_relocs o (f_sec f)) (f_ins f) = Ok ins1 /\
    match ob_externs o with
    | None => ins2 = ins1
    | Some xs => patch_externs (f_secoff f) xs (ob_syms o) (ob_relocs o (f_sec f)) ins1 = Ok ins2
    end) (ob_funs o) fs2.
Proof.
  intros H1 H2. apply each_spec in H1. unfold externs_phase in H2. destruct (ob_externs o) as [xs|].
  - apply each_spec in H2. revert fs2 H2. induction H1 as [|f f1 l l1 (i1 & E1 & ->) _ IH]; intros fs2 H2; inversion H2 as [|? f2 ? l2 (i2 & E2 & ->) R]; subst; constructor; [|now apply IH].
    exists i1, i2. split; [reflexivity|]. split; [exact E1|exact E2].
  - apply ok_inj in H2. subst fs2. induction H1 as [|f f1 l l1 (i1 & E1 & ->) _ IH]; constructor; [|exact IH]. exists i1, i1. auto.
Qed.

Lemma lookup_map_ins h fs sec a : lookup_fun (map (fun f => with_insns f (map h (f_ins f))) fs) sec a =
  match lookup_fun fs sec a with Some f => Some (with_insns f (map h (f_ins f))) | None => None end.
Proof.
  unfold lookup_fun. induction fs as [|f fs IH]; [reflexivity|]. cbn [map find with_insns f_sec f_addr].
  destruct (Nat.eqb (f_sec f) sec && (f_addr f =? a)); [reflexivity|exact IH].
Qed.

Section W4.
Variables (o : object) (maps : list mapinfo).
Let text := is_code o.
Hypothesis WF : well_formed o text maps.
Hypothesis KK : kernel_known o.
Hypothesis NP : NoDup (map (fun p => (pg_index p, pg_addr p)) (ob_progs o)).
Hypothesis SP : separate o text.

Lemma finish_complete probe l : finish o maps probe = Ok l ->
  map fst l = ob_progs o /\
  forall p f', In (p, f') l -> Z.of_nat (length (f_ins f')) < 2 ^ 31 ->
    exists f, entry_of o p f /\ complete o text maps probe f (f_ins f').
Proof.
  unfold finish, relocate_object. change (text_sections (ob_funs o)) with text.
  destruct (maps_phase o maps text (ob_funs o)) as [fs1|e] eqn:H1; cbn [patching bind]; [|discriminate].
  destruct (externs_phase o fs1) as [fs2|e] eqn:H2; cbn [patching bind]; [|discriminate].
  destruct (relocate_calls (linkable o text fs2) (map prog_key (ob_progs o))) as [fs3|e] eqn:H3; cbn [linking bind]; [|discriminate].
  intros H4. unfold pair_programs in H4. apply mapM_ok in H4.
  pose proof (phases o maps fs1 fs2 H1 H2) as PH. fold text in PH.
  set (o2 := linkable o text fs2) in *.
  assert (LU : forall sec a f2, lookup_fun fs2 sec a = Some f2 -> exists f, corr o text maps fs2 f f2 /\ f_sec f = sec /\ f_addr f = a).
  { intros sec a f2 L. apply (lookup_fun_spec o2) in L. destruct L as (L1 & L2 & L3). destruct (corr_from o text maps fs2 PH f2 L1) as (f & C).
    destruct (corr_key _ _ _ _ _ _ C) as (C1 & C2 & _). exists f. split; [exact C|]. split; congruence. }
  assert (RI : forall a b, reach o2 a b -> In b fs2).
  { clear. intros a b R. induction R as [a b U|a b c U R IH]; [|exact IH]. destruct U as (k & x & sec & ad & _ & _ & I & _). exact I. }
  destruct (relocate_calls_each o2 (map prog_key (ob_progs o)) o2 fs3) as [R1 _]; auto.
  { intros sec a f2 g2 Ip L R. split; [reflexivity|]. intros Iq.
    destruct (LU sec a f2 L) as (f & C & K1 & K2). destruct (corr_from o text maps fs2 PH g2 (RI _ _ R)) as (g & G).
    destruct (corr_key _ _ _ _ _ _ G) as (G1 & G2 & _). apply (needs_reach o text maps WF KK fs2 PH f g f2 g2 C G) in R.
    apply in_map_iff in Ip, Iq. destruct Ip as (p & Ep & Ip), Iq as (q & Eq & Iq). unfold prog_key in Ep, Eq.
    apply pair_equal_spec in Ep as [E1 E2].
    refine (proj1 SP p f g Ip (proj1 C) _ _ R q Iq _); [congruence|congruence|]. rewrite <- G1, <- G2. now symmetry. }
  split.
  { clear - H4. induction H4 as [|p q l l' E _ IH]; [reflexivity|]. cbn [map]. rewrite IH. f_equal.
    destruct (lookup_fun _ _ _) in E; [|discriminate E]. apply ok_inj in E. subst q. reflexivity. }
  intros p f' I HS.
  assert (Ip : In p (ob_progs o) /\ lookup_fun (fst (sanitize_functions probe fs3)) (pg_index p) (pg_addr p) = Some f').
  { clear - H4 I. induction H4 as [|q pf l l' E _ IH]; [destruct I|]. destruct I as [->|I].
    - destruct (lookup_fun (fst (sanitize_functions probe fs3)) (pg_index q) (pg_addr q)) as [g|] eqn:L; [|discriminate E]. apply ok_inj in E.
      apply pair_equal_spec in E as [-> ->]. split; [now left|exact L].
    - destruct (IH I) as [A B]. split; [now right|exact B]. }
  destruct Ip as [Ip Lp]. rewrite sanitize_spec, lookup_map_ins in Lp.
  destruct (R1 (pg_index p) (pg_addr p)) as (f2 & out & L2 & L3 & L4); [apply in_map_iff; exists p; split; [reflexivity|exact Ip]|].
  rewrite L4 in Lp. apply some_inj in Lp. subst f'. cbn [with_insns f_ins] in *.
  destruct (LU _ _ _ L2) as (f & C & K1 & K2). exists f. split; [split; [apply C|split; assumption]|].
  rewrite map_length in HS.
  rewrite (map_ext _ _ (adapted_spec probe)).
  apply (linked_complete o text maps WF KK fs2 PH probe f f2 out C); [|exact L3|exact HS].
  intros g h N1 N2 E. exact (proj2 SP p f g h Ip (proj1 C) K1 K2 N1 N2 E).
Qed.

(** Nothing is missing in a program that was produced. *)
Lemma nothing_missing probe l p f' f k : finish o maps probe = Ok l -> In (p, f') l -> In f (ob_funs o) ->
  ~ kernel_missing o f k /\ ~ data_missing o maps f k.
Proof.
  unfold finish, relocate_object. change (text_sections (ob_funs o)) with text. intros H _ Hf. revert H.
  destruct (maps_phase o maps text (ob_funs o)) as [fs1|e] eqn:H1; cbn [patching bind]; [|discriminate].
  destruct (externs_phase o fs1) as [fs2|e] eqn:H2; cbn [patching bind]; [|discriminate]. intros _.
  pose proof (phases o maps fs1 fs2 H1 H2) as PH. fold text in PH.
  destruct (corr_to o text maps fs2 PH f Hf) as (f2 & _ & _ & ins1 & ins2 & _ & HM & HX). split.
  - intros (x & r & e & Hx & A & K & Wk & [[C U]|(C & U & V)]).
    + destruct (kcall2 o text maps WF f ins1 ins2 Hf HM HX k x r e Hx A K C) as [(R & _)|(_ & R & _)]; congruence.
    + destruct (kload2 o text maps WF f ins1 ins2 Hf HM HX k x r e Hx A K) as (_ & z & lo & hi & _ & _ & _ & _ & _ & [X|[X|X]]).
      * unfold CALL_CODE, LDDW_CODE in *. lia.
      * destruct X as (id & X & _). congruence.
      * destruct X as (a & _ & X & _). congruence.
      * destruct X as (_ & _ & X & _). congruence.
  - intros (x & r & sym & sec & Hx & A & D & N).
    destruct (data2 o text maps WF f ins1 ins2 Hf HM HX k x r sym sec Hx A D) as (m & _ & M & _). exact (N m M).
Qed.
End W4.
