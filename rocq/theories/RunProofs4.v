(** Proofs: the programs of a loaded file behave as it says. *)
From Coq Require Import String Permutation.
From Verif Require Import Base Text Insn LinkModel BtfTypes BtfModel BtfExt CoreModel CoreProofs2 BtfSanitize ExternModel ExternSpec ObjModel ObjSpec ObjProofs ObjProofs2 ObjProofs3 ObjProofs4 ObjProofs5
  WholeModel WholeSpec LoaderModel LoaderSpec LoaderProofs LoaderProofs2 LoaderProofs3 LoaderProofs4 ParseModel ParseSpec ParseProofs ParseProofs2 ParseProofs3 ParseProofs4 ParseProofs5 ParseProofs7
  RunSpec RunProofs RunProofs2 RunSpec2 RunProofs3.
Local Open Scope Z_scope.

Section Loaded.
Variables (e : elf) (t : types) (ls : list part).
Hypotheses (R : regular e) (M : mapM (parse_section e t) (others e) = Ok ls).
Lemma parsed_behaves Mc k o2 a : p_progs o2 = p_progs (assemble e t ls) -> p_relocs o2 = p_relocs (assemble e t ls) ->
  Forall2 framed (p_funs (assemble e t ls)) (p_funs o2) -> code_behaves Mc k o2 a -> file_behaves Mc k o2 a.
Proof.
  intros P1 P2 F CC. unfold file_behaves. cbv zeta. intros C K S ONE. apply CC; auto.
  - destruct C as [C1 C2 C3 C4 C5]. constructor; auto.
    + cbn [code_of_object ob_funs]. rewrite (framed_keys _ _ F). exact (funs_keys e t ls R M).
    + intros sec. unfold is_code, code_section. rewrite existsb_exists. split; intros (f & I & Q); exists f; (split; [exact I|]); [now apply Nat.eqb_eq|now apply Nat.eqb_eq].
    + cbn [code_of_object ob_funs]. intros f I. destruct (forall2_right _ _ _ _ F I) as (g & G & (_ & _ & -> & _ & _ & ->)). exact (funs_place e t ls R M g G).
    + cbn [code_of_object ob_relocs]. intros sec. rewrite P2. apply (relocs_once e t ls R M).
  - rewrite P1. exact (programs_keys e t ls R M).
Qed.
End Loaded.

Lemma loaded_behaves Mc c k e tg u a tg' u' : regular e -> few_helpers Mc -> load_elf c k e tg u = (Ok a, tg', u') ->
  exists q ms fd o1 o2 tb, parse e = Ok q /\ configured c (q_obj q) ms /\ sent k (with_maps ms (q_obj q)) fd o1 /\ suited k tb o1 o2 /\
    (forall b, tb = Some b -> tg' = TParsed b) /\ (tb = None -> uses_target o1 -> unparsed tg /\ exists n, next_answer u = Err n) /\
    maps_of c k ms a (u_kernel u) (u_kernel u') /\ programs_of c k (q_obj q) fd a /\
    Forall2 framed (p_funs (q_obj q)) (p_funs o2) /\ p_relocs o2 = p_relocs (q_obj q) /\ file_behaves Mc k o2 a.
Proof.
  intros R FH H. unfold load_elf in H. destruct (parse e) as [q|x] eqn:P; [|apply pair_equal_spec in H as [H _]; apply pair_equal_spec in H as [H _]; discriminate H].
  destruct (load c k (q_obj q) tg u) as [[r t1] u1] eqn:L. apply pair_equal_spec in H as [H H3]. apply pair_equal_spec in H as [H H2]. subst t1 u1.
  destruct r as [a'|x]; [|discriminate H]. apply ok_inj in H. subst a'.
  destruct (load_behaves Mc _ _ _ _ _ _ _ _ FH L) as (ms & fd & o1 & o2 & tb & L1 & L2 & L3 & L4 & L5 & L6 & L7 & L8).
  apply parse_steps in P as P'. destruct P' as (t & ls & _ & _ & _ & HT & HM & Q).
  pose proof (types_spec e t ls HT) as TS. rewrite <- Q in TS.
  destruct (sent_same _ _ _ _ L2) as (S1 & S2 & S3 & S4 & S5 & S6 & S7). cbn [with_maps p_funs p_progs p_relocs p_syms p_relos p_externs p_btf] in *.
  assert (Forall2 framed (p_funs (q_obj q)) (p_funs o2)) as F.
  { rewrite <- S1. destruct (p_relos o1) as [|r0 rs] eqn:RE; [rewrite (su_funs _ _ _ _ L3 (or_introl RE)); apply framed_all_refl|].
    assert (p_relos o1 <> []) as NE by (rewrite RE; discriminate). 
    destruct tb as [b|]; [|exfalso; apply (su_needed _ _ _ _ L3); [left; exact NE|reflexivity]].
    assert (p_btf (q_obj q) <> None) as NB.
    { intros NB. assert (p_relos (q_obj q) <> []) as NE' by (rewrite <- S5; discriminate). clear NE. revert NB. destruct TS as [_ _ _ _ E|b0 x _ _ -> _ _ _|b0 x i es b' pl l _ _ _ _ -> _ _ _ _]; [contradiction|intros X; discriminate X|intros X; discriminate X]. }
    apply S7 in NB. destruct (p_btf o1) as [b0|] eqn:B; [|contradiction]. exact (btf_framed _ _ _ _ _ _ _ _ (su_core _ _ _ _ L3 b0 b eq_refl B NE)). }
  assert (p_relocs o2 = p_relocs (q_obj q)) as PR by (rewrite (su_relocs _ _ _ _ L3); exact S3).
  assert (p_progs o2 = p_progs (q_obj q)) as PP by (rewrite (su_progs _ _ _ _ L3); exact S2).
  exists q, ms, fd, o1, o2, tb. split; [reflexivity|]. do 7 (split; [assumption|]). split; [exact F|]. split; [exact PR|].
  rewrite Q in *. exact (parsed_behaves e t ls R HM Mc k o2 a PP PR F L8).
Qed.
