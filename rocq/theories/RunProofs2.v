(** Proofs: the object file says one thing only. *)
From Verif Require Import Base Insn PatchModel PatchSpec LinkModel LinkSpec LinkProofs ObjModel WholeModel WholeSpec WholeProofs WholeProofs4 WholeProofs5 RunSpec RunProofs.
Local Open Scope Z_scope.

Section D.
Variables (M : machine) (o : object) (maps : list mapinfo) (probe : bool) (place : func -> nat).
Let text := is_code o.
Hypothesis WF : well_formed o text maps.
Hypothesis OM : one_map o maps.

Lemma code_ref_one g k x sec a sec' a' : code_ref o text g k x sec a -> code_ref o text g k x sec' a' -> sec' = sec /\ a' = a.
Proof. intros (_ & N) (_ & N'). apply target_names in N, N'. rewrite N in N'. injection N' as <- <-. auto. Qed.
Lemma code_ref_data g k x r sym sec s a : In g (ob_funs o) -> nth_error (f_ins g) k = Some x -> attached o g k r -> data_ref o r sym sec -> ~ code_ref o text g k x s a.
Proof.
  intros Hg Hx A D (_ & N). pose proof (wf_loads _ _ _ WF g k x r sym sec Hg A D Hx) as C.
  assert (NR : forall rel sy, ~ code_reloc (code_of o text) g k rel sy).
  { intros rel sy (R & R2 & R3 & R4). cbn [code_of o_relocs o_syms o_text] in R, R2, R4.
    assert (L : (k < length (f_ins g))%nat) by (apply nth_error_Some; congruence).
    apply (attached_find o text maps WF g k rel Hg L) in R. pose proof (attached_one o maps WF g k r rel A R). subst rel. pose proof D as (D1 & D2 & D3). rewrite D1 in R2. injection R2 as <-.
    destruct R4 as [R4|(sc & R4 & R5)]; [exact (wf_funs _ _ _ WF r sym sec g k Hg A D R4)|]. apply D3. apply (wf_text _ _ _ WF). congruence. }
  destruct N as [rel sy sc R|rel sy sc R|rel sy sc R|_ Q]; [exact (NR _ _ R)|exact (NR _ _ R)|exact (NR _ _ R)|].
  unfold insn_is_call in Q. rewrite C in Q. discriminate Q.
Qed.
Lemma data_kernel r sym sec : data_ref o r sym sec -> ~ kernel_ref o r.
Proof. intros (D1 & D2 & _) (sym' & K1 & K2). rewrite D1 in K1. injection K1 as <-. unfold is_extern in K2. rewrite D2 in K2. discriminate K2. Qed.
Lemma sym_ref r e : kernel_sym o r e -> kernel_ref o r.
Proof. intros (xs & sym & nm & _ & K1 & K2 & _). exists sym. auto. Qed.
Lemma sym_one r e e' : kernel_sym o r e -> kernel_sym o r e' -> e' = e.
Proof. intros (xs & sym & nm & K1 & K2 & K3 & K4 & K5) (xs' & sym' & nm' & L1 & L2 & L3 & L4 & L5). congruence. Qed.

(** * Kinds of instructions *)
Inductive sort := SData (r : reloc) (sym : symbol) (sec : nat) (m : mapinfo) | SKernel (r : reloc) (e : extern) | SCode (h : func) | SNone | SHalf.
Definition is_sort (g : func) (k : nat) (x : insn) (t : sort) : Prop :=
  match t with
  | SData r sym sec m => attached o g k r /\ data_ref o r sym sec /\ names_map maps (r_sym r) sec m
  | SKernel r e => attached o g k r /\ kernel_sym o r e
  | SCode h => code_ref o text g k x (f_sec h) (f_addr h) /\ In h (ob_funs o)
  | SNone => no_refs o text g k x /\ ~ second_half g k
  | SHalf => second_half g k
  end.
Lemma half_none g k x t : In g (ob_funs o) -> nth_error (f_ins g) k = Some x -> second_half g k -> is_sort g k x t -> t = SHalf.
Proof.
  intros Hg Hx SH. destruct t; cbn [is_sort].
  - intros (A & _). destruct (no_half o maps WF g k x r Hg Hx A SH).
  - intros (A & _). destruct (no_half o maps WF g k x r Hg Hx A SH).
  - intros (R & _). destruct (code_ref_half o maps WF g k x _ _ Hg Hx R SH).
  - intros (_ & N). destruct (N SH).
  - reflexivity.
Qed.
Lemma sort_one g k x t t' : In g (ob_funs o) -> nth_error (f_ins g) k = Some x -> is_sort g k x t -> is_sort g k x t' -> t' = t.
Proof.
  intros Hg Hx H H'. destruct t' as [r' sym' sec' m'|r' e'|h'| |].
  5:{ symmetry. exact (half_none g k x t Hg Hx H' H). }
  all: destruct t as [r sym sec m|r e|h| |]; [| | | |exact (half_none g k x _ Hg Hx H H')]; cbn [is_sort] in H, H'.
  - destruct H as (A & D & N), H' as (A' & D' & N'). pose proof (attached_one o maps WF g k r r' A A') as ->. pose proof D as (D1 & D2 & D3). pose proof D' as (D1' & D2' & D3').
    assert (sym' = sym) by congruence. subst sym'. assert (sec' = sec) by congruence. subst sec'. rewrite (OM g k r sym sec m m' Hg A D N N'). reflexivity.
  - destruct H as (A & K), H' as (A' & D' & N'). pose proof (attached_one o maps WF g k r r' A A') as ->. destruct (data_kernel r sym' sec' D' (sym_ref r e K)).
  - destruct H as (R & _), H' as (A' & D' & N'). destruct (code_ref_data g k x r' sym' sec' _ _ Hg Hx A' D' R).
  - destruct H as ((N1 & _) & _), H' as (A' & D' & N'). destruct (N1 r' sym' sec' A' D').
  - destruct H' as (A & K), H as (A' & D' & N'). pose proof (attached_one o maps WF g k r r' A' A) as ->. destruct (data_kernel r sym sec D' (sym_ref r e' K)).
  - destruct H as (A & K), H' as (A' & K'). pose proof (attached_one o maps WF g k r r' A A') as ->. rewrite (sym_one r e e' K K'). reflexivity.
  - destruct H as ((R & _) & _), H' as (A' & K'). destruct (R r' A' (sym_ref r' e' K')).
  - destruct H as ((_ & N & _) & _), H' as (A' & K'). destruct (N r' A' (sym_ref r' e' K')).
  - destruct H' as (R & _), H as (A' & D' & N'). destruct (code_ref_data g k x r sym sec _ _ Hg Hx A' D' R).
  - destruct H' as ((R & _) & _), H as (A' & K'). destruct (R r A' (sym_ref r e K')).
  - destruct H as (R & I), H' as (R' & I'). destruct (code_ref_one g k x _ _ _ _ R R') as (E1 & E2). rewrite (keys_eq o text maps WF h' h I' I E1 E2). reflexivity.
  - destruct H as ((_ & _ & N) & _), H' as (R' & _). destruct (N _ _ R').
  - destruct H' as ((N1 & _) & _), H as (A' & D' & N'). destruct (N1 r sym sec A' D').
  - destruct H' as ((_ & N & _) & _), H as (A' & K'). destruct (N r A' (sym_ref r e K')).
  - destruct H' as ((_ & _ & N) & _), H as (R' & _). destruct (N _ _ R').
  - reflexivity.
Qed.

Lemma lddw_half g k x : In g (ob_funs o) -> nth_error (f_ins g) k = Some x -> code x = LDDW_CODE -> ~ second_half g k.
Proof.
  intros Hg Hx C (j & w & -> & W & Cw). destruct (wf_pairs _ _ _ WF g j w Hg W Cw) as (z & Z1 & Z2 & _). assert (z = x) by congruence. subst z. rewrite C in Z2. discriminate Z2.
Qed.
(** What is meant is determined by the sort. *)
Definition the_op (g : func) (k : nat) (x : insn) (t : sort) (q : op func) : Prop :=
  match t with
  | SData r sym sec m => q = if m_data_empty m then OLoad (dst x) (VMap (m_fd m)) else OLoad (dst x) (VVar (m_fd m) (imm x + s_address sym))
  | SKernel r e =>
      if code x =? CALL_CODE then if x_resolved e then match x_btf_id e with Some id => q = OKfunc id | None => False end else q = OTrap
      else q = OLoad (dst x) (match x_btf_id e with Some id => VKernel id | None => VConst (match x_addr e with Some a => a | None => 0 end) end)
  | SCode h => q = if code x =? LDDW_CODE then OLoad (dst x) (VFunc (Z.of_nat (place h))) else OCall h
  | SNone => if code x =? LDDW_CODE then match nth_error (f_ins g) (S k) with Some z => q = OLoad (dst x) (VConst (lddw_value x z)) | None => False end
             else q = OPlain (adapted probe x)
  | SHalf => q = OTrap
  end.
Lemma op_one g k x t q q' : the_op g k x t q -> the_op g k x t q' -> q' = q.
Proof.
  destruct t; cbn [the_op]; try congruence.
  - destruct (code x =? CALL_CODE); [destruct (x_resolved e); [destruct (x_btf_id e)|]|]; congruence || contradiction.
  - destruct (code x =? LDDW_CODE); [destruct (nth_error (f_ins g) (S k))|]; congruence || contradiction.
Qed.
Lemma means_sort g k q : In g (ob_funs o) -> means o text maps probe place g k q -> exists x t, nth_error (f_ins g) k = Some x /\ is_sort g k x t /\ the_op g k x t q.
Proof.
  intros Hg H.
  destruct H as [x r sym sec m Hx A D N E|x r sym sec m Hx A D N E|x r e id Hx A K C R B|x r e Hx A K C R|x r e id Hx A K C B|x r e a Hx A K C B V|x r e Hx A K C B V|x h Hx R Ih P|x h Hx R Ih C|x z Hx NR C Hz|x Hx NR C NH|x Hx SH];
    exists x; [exists (SData r sym sec m)|exists (SData r sym sec m)|exists (SKernel r e)|exists (SKernel r e)|exists (SKernel r e)|exists (SKernel r e)|exists (SKernel r e)|exists (SCode h)|exists (SCode h)|exists SNone|exists SNone|exists SHalf];
    (split; [exact Hx|]); cbn [is_sort the_op].
  - rewrite E. split; [auto|reflexivity].
  - rewrite E. split; [auto|reflexivity].
  - rewrite C, R, B. split; [auto|reflexivity].
  - rewrite C, R. split; [auto|reflexivity].
  - rewrite C, B. split; [auto|reflexivity].
  - rewrite C, B, V. split; [auto|reflexivity].
  - rewrite C, B, V. split; [auto|reflexivity].
  - destruct P as (C & _). rewrite C. split; [auto|reflexivity].
  - rewrite C. split; [auto|reflexivity].
  - rewrite C, Hz. split; [|reflexivity]. split; [exact NR|exact (lddw_half g k x Hg Hx C)].
  - destruct (Z.eqb_spec (code x) LDDW_CODE); [contradiction|]. auto.
  - auto.
Qed.
Lemma means_one g k q q' : In g (ob_funs o) -> means o text maps probe place g k q -> means o text maps probe place g k q' -> q' = q.
Proof.
  intros Hg H H'. destruct (means_sort g k q Hg H) as (x & t & Hx & T & O), (means_sort g k q' Hg H') as (x' & t' & Hx' & T' & O').
  assert (x' = x) by congruence. subst x'. rewrite (sort_one g k x t t' Hg Hx T T') in O'. exact (op_one g k x t q q' O O').
Qed.
Lemma means_at g k q : means o text maps probe place g k q -> nth_error (f_ins g) k <> None.
Proof. intros H. destruct H; congruence. Qed.

Lemma step_one c r r' : In (o_fun c) (ob_funs o) -> ostep M o text maps probe place c r -> ostep M o text maps probe place c r' -> r' = r.
Proof.
  intros Hg H H'.
  destruct H as [E|q d st Hm Hq B|q d st Hm Hq B|q g Hm Hq|q f k st l Hm Hq L|q Hm Hq L|q Hm Hq];
  destruct H' as [E'|q' d' st' Hm' Hq' B'|q' d' st' Hm' Hq' B'|q' g' Hm' Hq'|q' f' k' st' l' Hm' Hq' L'|q' Hm' Hq' L'|q' Hm' Hq'];
  try reflexivity;
  try (match goal with
       | E : nth_error _ _ = None, Hm : means _ _ _ _ _ _ _ _ |- _ => destruct (means_at _ _ _ Hm E)
       end);
  pose proof (means_one _ _ _ _ Hg Hm Hm') as EQ; subst q'; rewrite Hq in Hq'; try discriminate Hq'; try (injection Hq' as <- <-); try (injection Hq' as <-); try reflexivity; try contradiction; try congruence.
Qed.

Definition inside (c : oconf M) : Prop := In (o_fun c) (ob_funs o) /\ Forall (fun y => In (fst (fst y)) (ob_funs o)) (o_stack c).
Lemma enter_call q s g : perform M q s = Enter g -> q = @OCall func g.
Proof.
  destruct q; cbn [perform]; try discriminate; [|intros E; now injection E as ->|unfold going; destruct (m_kfunc M id s); discriminate]. intros E. exfalso. revert E.
  repeat match goal with |- (if ?b then _ else _) = _ -> _ => destruct b end; cbv zeta; unfold going; repeat match goal with |- context [if ?b then _ else _] => destruct b | |- context [match ?e with Some _ => _ | None => _ end] => destruct e end; discriminate.
Qed.
Lemma step_inside c c1 : inside c -> ostep M o text maps probe place c (At c1) -> inside c1.
Proof.
  intros (I & F) H. inversion H as [|q d st Hm Hq B|?|q g Hm Hq|q f k st l Hm Hq L|?|?]; subst; split; cbn [o_fun o_stack]; auto.
  - apply enter_call in Hq. subst q. inversion Hm; subst; assumption.
  - rewrite L in F. inversion F; subst. assumption.
  - rewrite L in F. inversion F; subst. assumption.
Qed.
Lemma runs_one n : forall c r r', inside c -> oruns M o text maps probe place n c r -> oruns M o text maps probe place n c r' -> r' = r.
Proof.
  induction n as [|n IH]; intros c r r' I H H'; inversion H as [c0|n0 c0 c1 r0 H1 H2|n0 c0 r0 H1 H2]; inversion H' as [c0'|n0' c0' c1' r0' H1' H2'|n0' c0' r0' H1' H2']; subst.
  - reflexivity.
  - pose proof (step_one c _ _ (proj1 I) H1 H1') as E. injection E as ->. exact (IH c1 r r' (step_inside c c1 I H1) H2 H2').
  - pose proof (step_one c _ _ (proj1 I) H1 H1') as E. destruct (H2' c1 E).
  - pose proof (step_one c _ _ (proj1 I) H1 H1') as E. symmetry in E. destruct (H2 c1' E).
  - exact (step_one c _ _ (proj1 I) H1 H1').
Qed.
Lemma runs_one_start g n s r r' : In g (ob_funs o) -> oruns M o text maps probe place n (Build_oconf g 0 [] s) r -> oruns M o text maps probe place n (Build_oconf g 0 [] s) r' -> r' = r.
Proof. intros I. apply runs_one. split; [exact I|constructor]. Qed.
End D.

Lemma finish_behaves M o maps probe l p f' :
  well_formed o (is_code o) maps -> kernel_known o -> NoDup (map (fun p => (pg_index p, pg_addr p)) (ob_progs o)) -> separate o (is_code o) ->
  one_map o maps -> few_helpers M ->
  finish o maps probe = Ok l -> In (p, f') l -> Z.of_nat (length (f_ins f')) < 2 ^ 31 ->
  (forall f g, entry_of o p f -> g = f \/ needs o (is_code o) f g -> tidy o (is_code o) g) ->
  exists f, entry_of o p f /\ behaves M o (is_code o) maps probe f (f_ins f').
Proof.
  intros WF KK ND SP OM FH F I B T. pose proof (finish_present o maps WF KK ND SP probe l F) as PR.
  destruct (finish_complete o maps WF KK ND SP probe l F) as (E & C). destruct (C p f' I B) as (f & En & Cf). exists f. split; [exact En|].
  apply (complete_behaves M o maps probe p f (f_ins f') WF PR OM FH); [|exact En|exact (fun g => T f g En)|exact Cf]. rewrite <- E. apply in_map_iff. exists (p, f'). auto.
Qed.
