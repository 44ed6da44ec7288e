(** Proofs: the relocated object. *)
From Verif Require Import Base Insn ObjModel ObjSpec ObjProofs4 PatchModel PatchSpec PatchProofs PatchProofs2 LinkModel LinkSpec LinkProofs LinkProofs2 WholeModel WholeSpec WholeProofs WholeProofs2.
Local Open Scope Z_scope.

Section W3.
Variables (o : object) (text : nat -> bool) (maps : list mapinfo).
Hypothesis WF : well_formed o text maps.
Hypothesis KK : kernel_known o.
Variable fs2 : list func.
Hypothesis PH : Forall2 (fun f f2 => exists ins1 ins2, f2 = with_code f ins2 /\
    relocate_maps (f_secoff f) maps (ob_syms o) text (ob_relocs o (f_sec f)) (f_ins f) = Ok ins1 /\
    match ob_externs o with
    | None => ins2 = ins1
    | Some xs => patch_externs (f_secoff f) xs (ob_syms o) (ob_relocs o (f_sec f)) ins1 = Ok ins2
    end) (ob_funs o) fs2.
Let o2 := linkable o text fs2.
Let corr := corr o text maps fs2.

Lemma linked_complete probe f f2 out : corr f f2 ->
  (forall g h, needs o text f g -> needs o text f h -> f_addr g = f_addr h -> g = h) ->
  link o2 f2 = Ok out -> Z.of_nat (length (f_ins out)) < 2 ^ 31 ->
  complete o text maps probe f (map (adapted probe) (f_ins out)).
Proof.
  intros C AD HL HS.
  assert (AD2 : addresses_distinct o2 f2).
  { intros g2 h2 R1 R2 E.
    assert (I : forall a b, reach o2 a b -> In b fs2).
    { clear. intros a b R. induction R as [a b U|a b c U R IH]; [|exact IH]. destruct U as (k & x & sec & ad & _ & _ & I & _). exact I. }
    destruct (corr_from o text maps fs2 PH g2 (I _ _ R1)) as (g & G), (corr_from o text maps fs2 PH h2 (I _ _ R2)) as (h & H).
    apply (needs_reach o text maps WF KK fs2 PH f g f2 g2 C G) in R1. apply (needs_reach o text maps WF KK fs2 PH f h f2 h2 C H) in R2.
    destruct (corr_key _ _ _ _ _ _ G) as (_ & G2 & _), (corr_key _ _ _ _ _ _ H) as (_ & H2 & _).
    assert (g = h) by (apply AD; congruence). subst h. exact (corr_one2 o text maps WF fs2 PH g g2 h2 G H). }
  destruct (link_well o2 f2 out AD2 HS HL) as (segs2 & WL & RR & ND). pose proof WL as ((t2 & E2) & T2 & SG).
  assert (IN : forall s g2, In (s, g2) t2 -> In g2 fs2).
  { intros s g2 I. assert (R : reach o2 f2 g2) by (apply (RR s g2); rewrite E2; exact I).
    clear - R. induction R as [a b U|a b c U R IH]; [|exact IH]. destruct U as (k & x & sec & ad & _ & _ & I & _). exact I. }
  destruct (pull o text maps fs2 PH t2 IN) as (t & F).
  assert (F' : Forall2 (same_part o text maps fs2) ((0%nat, f) :: t) segs2) by (rewrite E2; constructor; [split; [reflexivity|exact C]|exact F]).
  exists ((0%nat, f) :: t). split; [now exists t|]. split; [rewrite map_length; exact (parts_tiles o text maps WF fs2 _ _ F' _ _ T2)|]. cbn [tl].
  split; [|split].
  - intros g. split.
    + intros I. apply in_map_iff in I. destruct I as ([s g'] & E & I). cbn in E. subst g'.
      destruct (parts_in o text maps fs2 t t2 s g F I) as (g2 & G & I2).
      apply (needs_reach o text maps WF KK fs2 PH f g f2 g2 C G). apply (RR s g2). rewrite E2. exact I2.
    + intros N. assert (Ig : In g (ob_funs o)).
      { clear - N. induction N as [a b (k & x & U)|a b c U R IH]; [apply U|exact IH]. }
      destruct (corr_to o text maps fs2 PH g Ig) as (g2 & G). apply (needs_reach o text maps WF KK fs2 PH f g f2 g2 C G) in N.
      destruct (reach_included o2 f2 out segs2 (keys_unique2 o text maps WF fs2 PH) WL g2 N) as (s & I). rewrite E2 in I. cbn [tl] in I.
      destruct (parts_in2 o text maps fs2 t t2 s g2 F I) as (g' & G' & I').
      rewrite (corr_one o text maps WF fs2 g g' g2 G G'). exact (in_map snd t (s, g') I').
  - apply (parts_nodup o text maps WF fs2 PH t t2 F). rewrite E2 in ND. exact ND.
  - intros s g I. destruct (parts_in o text maps fs2 _ segs2 s g F' I) as (g2 & G & I2).
    assert (Y : forall k x x2, nth_error (f_ins g) k = Some x -> nth_error (f_ins g2) k = Some x2 -> exists y, nth_error (map (adapted probe) (f_ins out)) (s + k) = Some (adapted probe y) /\
      ((forall sec a, ~ code_ref o text g k x sec a) -> y = x2) /\
      (forall sec a, code_ref o text g k x sec a -> x2 = x /\ exists h t', In h (ob_funs o) /\ f_sec h = sec /\ f_addr h = a /\ In (t', h) t /\ goes_to x y (s + k) t')).
    { intros k x x2 Hx Hx2. destruct (SG s g2 k x2 I2 Hx2) as (y & Y1 & Y2 & Y3). exists y.
      split; [now apply map_nth_error|].
      destruct (names_corr o text maps WF KK fs2 PH g g2 k x x2 G Hx Hx2) as [[N1 N2]|[-> N]].
      - split; [intros _; now apply Y2|]. intros sec a R. now elim (N2 sec a R).
      - split.
        + intros NN. apply Y2. intros sec a R. apply N in R. exact (NN sec a R).
        + intros sec a R. split; [reflexivity|]. apply N in R. destruct (Y3 sec a R) as (h2 & t' & H1 & H2 & H3 & H4 & H5).
          rewrite E2 in H4. cbn [tl] in H4. destruct (parts_in2 o text maps fs2 t t2 t' h2 F H4) as (h & H & Ih).
          destruct (corr_key _ _ _ _ _ _ H) as (K1 & K2 & _). exists h, t'. split; [apply H|]. split; [congruence|]. split; [congruence|]. now split. }
    pose proof G as (Hg & _ & ins1 & ins2 & Eg & HM & HX). assert (Hi : f_ins g2 = ins2) by (rewrite Eg; reflexivity). rewrite Hi in *. clear Hi.
    constructor.
    + (* data *)
      intros k x z r sym sec Hx Hz A D.
      destruct (data2 o text maps WF g ins1 ins2 Hg HM HX k x r sym sec Hx A D) as (m & z' & M & Z & X1 & X2). assert (z' = z) by congruence. subst z'.
      pose proof (wf_loads _ _ _ WF g k x r sym sec Hg A D Hx) as Cx. unfold LDDW_CODE in Cx.
      destruct (wf_pairs _ _ _ WF g k x Hg Hx Cx) as (z' & Z1 & Z2 & Z3). assert (z' = z) by congruence. subst z'.
      assert (Hk : (k < length (f_ins g))%nat) by (apply nth_error_Some; congruence).
      assert (HSk : (S k < length (f_ins g))%nat) by (apply nth_error_Some; congruence).
      exists m. split; [exact M|]. split.
      * destruct (Y k x _ Hx X1) as (y & Y1 & Y2 & _). rewrite Y1. f_equal. rewrite Y2.
        -- apply (adapted_code probe _ 24); [now left|exact Cx].
        -- intros sec' a [_ R]. exact (no_names _ _ _ _ (data_no_code o text maps WF g k r sym sec Hg Hk A D) (not_call_code x 24 Cx (or_introl eq_refl)) sec' a R).
      * destruct (Y (S k) z _ Hz X2) as (y & Y1 & Y2 & _). rewrite Y1. f_equal. rewrite Y2.
        -- apply (adapted_code probe _ 0); [now right|]. destruct (m_data_empty m); exact Z2.
        -- intros sec' a [_ R]. refine (no_names _ _ _ _ _ (not_call_code z 0 Z2 (or_intror eq_refl)) sec' a R).
           intros r' sym' R'. exact (Z3 r' (code_reloc_attached o text maps WF g (S k) r' sym' Hg HSk R')).
    + (* calls of the kernel *)
      intros k x r e Hx A Ke Cc.
      assert (NC : forall sec a, ~ code_ref o text g k x sec a) by (intros sec a [R _]; exact (R r A (kernel_sym_ref o r e Ke))).
      destruct (kcall2 o text maps WF g ins1 ins2 Hg HM HX k x r e Hx A Ke Cc) as [(R & id & B & X1)|(R & Wk & X1)];
        destruct (Y k x _ Hx X1) as (y & Y1 & Y2 & _).
      * left. split; [exact R|]. exists id. split; [exact B|]. rewrite Y1. f_equal. rewrite (Y2 NC). apply adapted_src. cbn. lia.
      * right. split; [exact R|]. split; [exact Wk|]. rewrite Y1. f_equal. rewrite (Y2 NC).
        pose proof (poison_imm (r_sym r) (wf_few _ _ _ WF _ r (proj1 A))) as PI.
        assert (EP : poison_kfunc_call (r_sym r) = {| code := CALL_CODE; dst := 0; src := 0; off := 0; imm := 2002000000 + Z.of_nat (r_sym r) |}).
        { unfold poison_kfunc_call in *. cbn [imm] in PI. now rewrite PI. }
        rewrite EP. unfold adapted. cbn [imm]. destruct probe; [reflexivity|].
        match goal with |- context [if ?c && _ && _ then _ else _] => destruct c end; [|reflexivity]. cbn [src dst andb Z.eqb].
        assert (Hn : 0 <= Z.of_nat (r_sym r)) by lia. clear - Hn.
        repeat match goal with |- context [?a =? ?b] => destruct (Z.eqb_spec a b); [lia|] end. reflexivity.
    + (* addresses in the kernel *)
      intros k x r e Hx A Ke Cc.
      assert (Kr : kernel_ref o r) by exact (kernel_sym_ref o r e Ke).
      assert (NC : forall sec a, ~ code_ref o text g k x sec a) by (intros sec a [R _]; exact (R r A Kr)).
      destruct (kload2 o text maps WF g ins1 ins2 Hg HM HX k x r e Hx A Ke Cc) as (Cl & z & lo & hi & Hz & X1 & X2 & Eh & El & R).
      split; [exact Cl|]. exists z, lo, hi. split; [exact Hz|].
      destruct (wf_pairs _ _ _ WF g k x Hg Hx Cl) as (z' & Z1 & Z2 & Z3). assert (z' = z) by congruence. subst z'.
      assert (HSk : (S k < length (f_ins g))%nat) by (apply nth_error_Some; congruence).
      split; [|split; [|split; [exact Eh|split; [exact El|exact R]]]].
      * destruct (Y k x _ Hx X1) as (y & Y1 & Y2 & _). rewrite Y1, (Y2 NC). f_equal.
        apply (adapted_code probe _ 24); [now left|]. rewrite El. exact Cl.
      * destruct (Y (S k) z _ Hz X2) as (y & Y1 & Y2 & _). rewrite Y1. f_equal. rewrite Y2.
        -- apply (adapted_code probe _ 0); [now right|]. rewrite Eh. exact Z2.
        -- intros sec' a [_ R']. refine (no_names _ _ _ _ _ (not_call_code z 0 Z2 (or_intror eq_refl)) sec' a R').
           intros r' sym' R2. exact (Z3 r' (code_reloc_attached o text maps WF g (S k) r' sym' Hg HSk R2)).
    + (* functions *)
      intros k x sec a Hx R. destruct (corr_nth o text maps WF fs2 g g2 k x G Hx) as (x2 & Hx2).
      assert (Hx2' : nth_error ins2 k = Some x2) by (rewrite Eg in Hx2; exact Hx2).
      destruct (Y k x x2 Hx Hx2') as (y & Y1 & _ & Y3). destruct (Y3 sec a R) as (_ & h & t' & H1 & H2 & H3 & H4 & H5).
      exists y, h, t'. split; [|auto 6]. rewrite Y1. f_equal. apply adapted_src. destruct H5 as (_ & _ & _ & _ & H5). rewrite H5.
      destruct (insn_is_call x) eqn:Ec; [|unfold BPF_PSEUDO_FUNC; lia]. apply call_code in Ec. destruct Ec as (_ & _ & ->). lia.
    + (* the rest *)
      intros k x Hx ND' NK NC NS. assert (Hk : (k < length (f_ins g))%nat) by (apply nth_error_Some; congruence).
      assert (X1 : nth_error ins2 k = Some x).
      { rewrite (other2 o text maps WF g ins1 ins2 Hg HM HX k Hk); [exact Hx| | |].
        - intros (r & sym & sec & A & D). exact (ND' r sym sec A D).
        - intros (r & A & K). exact (NK r A K).
        - intros (j & w & Ej & W & Cw & [(r & sym & sec & A & D)|(r & A & K)]).
          + exact (proj1 (NS j w r Ej W Cw A) sym sec D).
          + exact (proj2 (NS j w r Ej W Cw A) K). }
      destruct (Y k x x Hx X1) as (y & Y1 & Y2 & _). rewrite Y1, (Y2 NC). reflexivity.
Qed.
End W3.
