(** Proofs: when relocating an object succeeds. *)
From Verif Require Import Base Insn ObjModel ObjSpec ObjProofs4 PatchModel PatchSpec PatchProofs PatchProofs2 LinkModel LinkSpec LinkProofs LinkProofs2 WholeModel WholeSpec WholeProofs WholeProofs2 WholeProofs3 WholeProofs4.
Local Open Scope Z_scope.

(** * Linking *)
Section L.
Variable o : obj.
Lemma link_goes entry : (forall h, h = entry \/ reach o entry h -> resolvable o h) -> exists out, link o entry = Ok out.
Proof.
  intros HR. unfold link. match goal with |- context [relocate o ?n entry ?s] => set (st0 := s) end.
  destruct (relocate_progress o (S (length (o_funs o))) entry st0) as [HP _].
  - unfold unlinked. cbn [st0 p_linked assoc]. assert (length (filter (fun _ : func => true) (o_funs o)) <= length (o_funs o))%nat; [|lia].
    clear. induction (o_funs o) as [|g l IH]; cbn [filter length]; lia.
  - cbn. lia.
  - intros k Hk. cbn. now rewrite Nat.sub_diag.
  - destruct (relocate o _ entry st0); [eauto|]. destruct HP as [_ HP]. exfalso. apply HP. intros h Hh. exact (HR h Hh).
Qed.
Lemma link_resolves entry out : keys_unique o -> addresses_distinct o entry -> link o entry = Ok out -> forall h, h = entry \/ reach o entry h -> resolvable o h.
Proof.
  intros KU AD H. destruct (link_structure o entry out H) as (segs & st & (HE & HT & _) & E1 & _ & _ & HD & HR). rewrite E1 in HT.
  assert (RS : forall s h, In (s, h) segs -> resolvable o h).
  { intros s h I k x Hx. pose proof (HD s h k I x Hx) as D. destruct (target o h k x) as [[(sec, a)|e]|]; [|exact D|exact Logic.I].
    destruct D as (g & g' & t & G1 & _). congruence. }
  assert (ST : forall f g, reach o f g -> forall s, In (s, f) segs -> exists t, In (t, g) (tl segs)).
  { assert (ONE : forall s f g, In (s, f) segs -> refers o f g -> exists t, In (t, g) (tl segs)).
    { intros s f g I U. pose proof U as (k & x & sec & a & Hx & Hn & G1 & G2 & G3). pose proof (HD s f k I x Hx) as D.
      apply target_names in Hn. rewrite Hn in D. destruct D as (g1 & g2 & t & L1 & L2 & L3 & _).
      apply lookup_fun_spec in L1 as (L4 & L5 & L6). assert (g1 = g) by (apply KU; congruence). subst g1.
      assert (g2 = g).
      { apply AD; [exact (HR t g2 L2)| |exact L3]. destruct (seg_reach o entry segs s f HE HR I) as [->|R]; [constructor 1; exact U|exact (reach_snoc o entry f g R U)]. }
      subst g2. exists t. exact L2. }
    induction 1 as [f g U|f g h U _ IH]; intros s I; [exact (ONE s f g I U)|]. destruct (ONE s f g I U) as (t & T). apply (IH t). destruct HE as (r & ->). right. exact T. }
  destruct HE as (r & E). intros h [->|R].
  - apply (RS 0%nat). rewrite E. left. reflexivity.
  - destruct (ST entry h R 0%nat) as (t & T); [rewrite E; left; reflexivity|]. apply (RS t). rewrite E. right. rewrite E in T. exact T.
Qed.
End L.

(** * Patching *)
Lemma lookup_exists maps r sec m : names_map maps (r_sym r) sec m -> exists m', (match by_symbol maps (r_sym r) with Some m => Some m | None => by_section maps sec end) = Some m'.
Proof.
  intros (I & H). destruct (by_symbol maps (r_sym r)) as [m'|] eqn:E; [eauto|]. destruct H as [H|(_ & H)].
  - exfalso. exact (by_symbol_none maps (r_sym r) E m I H).
  - destruct (by_section maps sec) as [m'|] eqn:F; [eauto|]. exfalso. unfold by_section in F. apply in_rev in I. pose proof (find_none _ _ F m I) as X. cbn in X. rewrite H, Nat.eqb_refl in X. discriminate X.
Qed.
Lemma locate_cases secoff n r : locate secoff n r = Elsewhere \/ secoff <= r_offset r < secoff + 8 * Z.of_nat n.
Proof. unfold locate, INS_SIZE. destruct ((r_offset r <? secoff) || (secoff + Z.of_nat n * 8 <=? r_offset r)) eqn:E; [left; reflexivity|right; lia]. Qed.

Section W5.
Variables (o : object) (maps : list mapinfo).
Let text := is_code o.
Hypothesis WF : well_formed o text maps.
Hypothesis KK : kernel_known o.
Hypothesis NP : NoDup (map (fun p => (pg_index p, pg_addr p)) (ob_progs o)).
Hypothesis SP : separate o text.

Section Works.
Hypothesis PR : present o text maps.

Lemma placed f r : In f (ob_funs o) -> In r (ob_relocs o (f_sec f)) -> locate (f_secoff f) (length (f_ins f)) r = Elsewhere \/
  exists k x, locate (f_secoff f) (length (f_ins f)) r = At k /\ attached o f k r /\ nth_error (f_ins f) k = Some x /\ ob_syms o (r_sym r) <> None.
Proof.
  intros Hf Hr. destruct (locate_cases (f_secoff f) (length (f_ins f)) r) as [E|B]; [left; exact E|right].
  destruct (pr_placed _ _ _ PR f r Hf Hr B) as ((k & A) & S). pose proof A as (_ & A2). assert (Hk : (k < length (f_ins f))%nat) by lia.
  destruct (nth_error (f_ins f) k) as [x|] eqn:Hx; [|apply nth_error_None in Hx; lia]. exists k, x. split; [apply locate_at; split; [exact Hk|exact A2]|]. auto.
Qed.
Lemma maps_go f : In f (ob_funs o) -> exists ins1, relocate_maps (f_secoff f) maps (ob_syms o) text (ob_relocs o (f_sec f)) (f_ins f) = Ok ins1.
Proof.
  intros Hf. unfold relocate_maps. apply run_ok with (touch := map_touch (f_secoff f) maps (ob_syms o) text (length (f_ins f))) (l0 := f_ins f).
  - intros r l A. apply map_local. exact A.
  - apply map_disjoint. exact (table_ok o text maps WF f).
  - apply agree_all.
  - reflexivity.
  - intros r Hr. unfold map_reloc_step. destruct (placed f r Hf Hr) as [->|(k & x & -> & A & Hx & SY)]; [eauto|].
    destruct (ob_syms o (r_sym r)) as [sym|] eqn:Es; [|congruence]. destruct (s_section sym) as [sec|] eqn:Ec; [|eauto]. rewrite Hx.
    destruct (insn_is_call x || text sec) eqn:T; [eauto|]. apply orb_false_iff in T as (_ & T).
    assert (D : data_ref o r sym sec) by (apply (data_text o text maps WF); auto).
    destruct (pr_data _ _ _ PR f k x r sym sec Hf Hx A D) as (m & M). destruct (lookup_exists maps r sec m M) as (m' & ->).
    destruct (m_data_empty m'); [eauto|]. pose proof (wf_loads _ _ _ WF f k x r sym sec Hf A D Hx) as C. destruct (wf_pairs _ _ _ WF f k x Hf Hx C) as (z & -> & _). eauto.
Qed.
Lemma externs_go f ins1 xs : In f (ob_funs o) -> ob_externs o = Some xs -> relocate_maps (f_secoff f) maps (ob_syms o) text (ob_relocs o (f_sec f)) (f_ins f) = Ok ins1 ->
  exists ins2, patch_externs (f_secoff f) xs (ob_syms o) (ob_relocs o (f_sec f)) ins1 = Ok ins2.
Proof.
  intros Hf Ex HM. pose proof (len1 o text maps WF f ins1 HM) as L1. pose proof (ext_ok o text maps WF f ins1 Hf HM) as XO.
  assert (KC : forall r k x, In r (ob_relocs o (f_sec f)) -> locate (f_secoff f) (length (f_ins f)) r = At k -> attached o f k r -> nth_error (f_ins f) k = Some x -> kernel_ref o r -> nth_error ins1 k = Some x).
  { intros r k x Hr Hl A Hx K. rewrite (kernel1 o text maps WF f ins1 Hf HM k); [exact Hx|apply nth_error_Some; congruence|exists r; auto]. }
  unfold patch_externs. apply run_ok with (touch := ext_touch (f_secoff f) (ob_syms o) ins1) (l0 := ins1).
  - intros r l A. apply ext_local. exact A.
  - apply ext_disjoint; [exact XO|]. intros r i y Hr Hl Hy Hs. rewrite L1 in Hl.
    destruct (placed f r Hf Hr) as [E|(k & x & E & A & Hx & SY)]; [congruence|]. assert (k = i) by congruence. subst k.
    assert (K : kernel_ref o r). { unfold ext_sym in Hs. destruct (ob_syms o (r_sym r)) as [sym|] eqn:Es; [|discriminate Hs]. exists sym. auto. }
    rewrite (KC r i x Hr Hl A Hx K) in Hy. apply some_inj in Hy. subst y. destruct (pr_kernel _ _ _ PR f i x r Hf Hx A K) as (e & _ & [(C & _)|(C & _)]); auto.
  - apply agree_all.
  - reflexivity.
  - intros r Hr. unfold extern_step. rewrite L1. destruct (placed f r Hf Hr) as [->|(k & x & Hl & A & Hx & SY)]; [eauto|]. rewrite Hl.
    destruct (ob_syms o (r_sym r)) as [sym|] eqn:Es; [|congruence]. destruct (is_extern sym) eqn:Ei; cbn [negb]; [|eauto].
    assert (K : kernel_ref o r) by (exists sym; auto). destruct (pr_kernel _ _ _ PR f k x r Hf Hx A K) as (e & (xs' & sym' & nm & X1 & X2 & X3 & X4 & X5) & W).
    assert (xs' = xs) by congruence. assert (sym' = sym) by congruence. subst xs' sym'. rewrite X4, X5, (KC r k x Hr Hl A Hx K). destruct W as [(C & W)|(C & W)].
    + rewrite C, Z.eqb_refl. destruct W as [(-> & W)|(-> & ->)]; [|eauto]. destruct (x_btf_id e) as [id|]; [eauto|congruence].
    + rewrite C. change (LDDW_CODE =? CALL_CODE) with false. cbv iota. rewrite Z.eqb_refl. cbn [negb].
      assert (N : exists z, nth_error ins1 (S k) = Some z).
      { destruct (wf_pairs _ _ _ WF f k x Hf Hx C) as (z & Z1 & _). assert (S k < length ins1)%nat by (rewrite L1; apply nth_error_Some; congruence).
        destruct (nth_error ins1 (S k)) as [y|] eqn:Ey; [eauto|]. apply nth_error_None in Ey. lia. }
      destruct N as (z & ->). destruct (x_btf_id e) as [id|]; [eauto|]. destruct (x_addr e) as [a|]; [eauto|]. destruct (x_weak e); [eauto|]. destruct W as [W|[W|W]]; congruence.
Qed.
Lemma each_go stp fs : (forall f, In f fs -> exists ins, stp f = Ok ins) -> exists fs', each stp fs = Ok fs'.
Proof.
  unfold each. induction fs as [|f fs IH]; intros H; cbn [mapM]; [eauto|]. destruct (H f (or_introl eq_refl)) as (ins & ->). cbn [bind].
  destruct IH as (fs' & ->); [intros g I; apply H; right; exact I|]. cbn [bind]. eauto.
Qed.
End Works.

(** What both directions need of the functions after patching. *)
Section P.
Variable fs2 : list func.
Hypothesis PH : Forall2 (fun f f2 => exists ins1 ins2, f2 = with_code f ins2 /\
    relocate_maps (f_secoff f) maps (ob_syms o) text (ob_relocs o (f_sec f)) (f_ins f) = Ok ins1 /\
    match ob_externs o with
    | None => ins2 = ins1
    | Some xs => patch_externs (f_secoff f) xs (ob_syms o) (ob_relocs o (f_sec f)) ins1 = Ok ins2
    end) (ob_funs o) fs2.
Let o2 := linkable o text fs2.

Lemma lookup2 sec a f2 : lookup_fun fs2 sec a = Some f2 <-> exists f, corr o text maps fs2 f f2 /\ f_sec f = sec /\ f_addr f = a.
Proof.
  split.
  - intros L. apply (lookup_fun_spec o2) in L. destruct L as (L1 & L2 & L3). destruct (corr_from o text maps fs2 PH f2 L1) as (f & C).
    destruct (corr_key _ _ _ _ _ _ C) as (C1 & C2 & _). exists f. split; [exact C|]. split; congruence.
  - intros (f & C & <- & <-). destruct (corr_key _ _ _ _ _ _ C) as (C1 & C2 & _). destruct (lookup_fun fs2 (f_sec f) (f_addr f)) as [g2|] eqn:L.
    + apply (lookup_fun_spec o2) in L as (L1 & L2 & L3). f_equal. apply (keys_unique2 o text maps WF fs2 PH); [exact L1|apply C|congruence|congruence].
    + exfalso. unfold lookup_fun in L. pose proof (find_none _ _ L f2 (proj1 (proj2 C))) as X. cbn in X. rewrite C1, C2, Nat.eqb_refl, Z.eqb_refl in X. discriminate X.
Qed.
Lemma reach_in a b : reach o2 a b -> In b fs2.
Proof. intros R. induction R as [a b U|a b c U R IH]; [|exact IH]. destruct U as (k & x & sec & ad & _ & _ & I & _). exact I. Qed.
(** Resolvable functions in terms of the object. *)
Lemma resolvable_corr g g2 : corr o text maps fs2 g g2 ->
  (resolvable o2 g2 <-> forall k x, nth_error (f_ins g) k = Some x ->
    (forall r sym, code_reloc (code_of o text) g k r sym -> exists sec a, code_ref o text g k x sec a) /\
    (forall sec a, code_ref o text g k x sec a -> exists h, In h (ob_funs o) /\ f_sec h = sec /\ f_addr h = a)).
Proof.
  intros C. split.
  - intros RS k x Hx. destruct (corr_nth o text maps WF fs2 g g2 k x C Hx) as (x2 & Hx2). pose proof (RS k x2 Hx2) as T.
    pose proof (names_corr o text maps WF KK fs2 PH g g2 k x x2 C Hx Hx2) as N. split.
    + intros r sym CR. apply (code_reloc_corr o text maps fs2 g g2 k r sym C) in CR. apply text_reloc_spec in CR.
      assert (S : exists v, target o2 g2 k x2 = Some v) by (unfold target; fold o2 in CR; rewrite CR; eauto). destruct S as (v & S). rewrite S in T. destruct v as [(sec, a)|e]; [|destruct T].
      apply target_names in S. destruct N as [(N & _)|(_ & N)]; [exfalso; exact (N sec a S)|]. exists sec, a. apply N. exact S.
    + intros sec a R. destruct N as [(_ & N)|(_ & N)]; [exfalso; exact (N sec a R)|]. apply N in R. apply target_names in R. fold o2 in R. rewrite R in T.
      destruct (lookup_fun (o_funs o2) sec a) as [h2|] eqn:L; [|congruence]. apply lookup2 in L as (h & Ch & K1 & K2). exists h. split; [apply Ch|auto].
  - intros H k x2 Hx2. assert (Hk : (k < length (f_ins g))%nat) by (rewrite <- (corr_length o text maps WF fs2 g g2 C); apply nth_error_Some; congruence).
    destruct (nth_error (f_ins g) k) as [x|] eqn:Hx; [|apply nth_error_None in Hx; lia]. destruct (H k x Hx) as (H1 & H2).
    pose proof (names_corr o text maps WF KK fs2 PH g g2 k x x2 C Hx Hx2) as N. fold o2 in N. destruct (target o2 g2 k x2) as [[(sec, a)|e]|] eqn:T; [| |exact Logic.I].
    + apply target_names in T. destruct N as [(N & _)|(_ & N)]; [exfalso; exact (N sec a T)|]. apply N in T. destruct (H2 sec a T) as (h & I & K1 & K2).
      destruct (corr_to o text maps fs2 PH h I) as (h2 & Ch). assert (L : lookup_fun fs2 sec a = Some h2) by (apply lookup2; exists h; auto). cbn [o2 linkable o_funs]. rewrite L. discriminate.
    + assert (CR : exists r sym, code_reloc o2 g2 k r sym).
      { destruct (text_reloc o2 g2 k) as [(r, sym)|] eqn:E; [apply text_reloc_spec in E; eauto|]. unfold target in T. rewrite E in T. destruct (insn_is_call x2); discriminate T. }
      destruct CR as (r & sym & CR). apply (code_reloc_corr o text maps fs2 g g2 k r sym C) in CR. destruct (H1 r sym CR) as (sec & a & R).
      destruct N as [(_ & N)|(_ & N)]; [exact (N sec a R)|]. apply N in R. apply target_names in R. rewrite R in T. discriminate T.
Qed.
Lemma programs_apart sec a f2 g2 : In (sec, a) (map prog_key (ob_progs o)) -> lookup_fun (o_funs o2) sec a = Some f2 -> reach o2 f2 g2 ->
  lookup_fun (o_funs o2) (f_sec g2) (f_addr g2) = lookup_fun (o_funs o2) (f_sec g2) (f_addr g2) /\ ~ In (f_sec g2, f_addr g2) (map prog_key (ob_progs o)).
Proof.
  intros Ip L R. split; [reflexivity|]. intros Iq.
  apply lookup2 in L as (f & C & K1 & K2). destruct (corr_from o text maps fs2 PH g2 (reach_in _ _ R)) as (g & G).
  destruct (corr_key _ _ _ _ _ _ G) as (G1 & G2 & _). apply (needs_reach o text maps WF KK fs2 PH f g f2 g2 C G) in R.
  apply in_map_iff in Ip, Iq. destruct Ip as (p & Ep & Ip), Iq as (q & Eq & Iq). unfold prog_key in Ep, Eq. apply pair_equal_spec in Ep as [E1 E2].
  refine (proj1 SP p f g Ip (proj1 C) _ _ R q Iq _); [congruence|congruence|]. rewrite <- G1, <- G2. now symmetry.
Qed.
Lemma distinct2 p f f2 : In p (ob_progs o) -> entry_of o p f -> corr o text maps fs2 f f2 -> addresses_distinct o2 f2.
Proof.
  intros Ip (E0 & E1 & E2) C g2 h2 R1 R2 E. destruct (corr_from o text maps fs2 PH g2 (reach_in _ _ R1)) as (g & G), (corr_from o text maps fs2 PH h2 (reach_in _ _ R2)) as (h & H).
  apply (needs_reach o text maps WF KK fs2 PH f g f2 g2 C G) in R1. apply (needs_reach o text maps WF KK fs2 PH f h f2 h2 C H) in R2.
  destruct (corr_key _ _ _ _ _ _ G) as (_ & G2 & _), (corr_key _ _ _ _ _ _ H) as (_ & H2 & _).
  assert (g = h) by (apply (proj2 SP p f g h Ip E0 E1 E2 R1 R2); congruence). subst h. exact (corr_one2 o text maps WF fs2 PH g g2 h2 G H).
Qed.
End P.

Lemma finish_works probe : present o text maps -> exists l, finish o maps probe = Ok l.
Proof.
  intros PR. unfold finish, relocate_object. change (text_sections (ob_funs o)) with text.
  destruct (each_go (fun f => relocate_maps (f_secoff f) maps (ob_syms o) text (ob_relocs o (f_sec f)) (f_ins f)) (ob_funs o) (maps_go PR)) as (fs1 & H1).
  change (maps_phase o maps text (ob_funs o) = Ok fs1) in H1. rewrite H1. cbn [patching bind].
  assert (H2 : exists fs2, externs_phase o fs1 = Ok fs2).
  { unfold externs_phase. destruct (ob_externs o) as [xs|] eqn:Ex; [|eauto]. apply each_go. intros f1 I. apply each_spec in H1. destruct (proj2 (forall2_in _ _ _ H1) f1 I) as (f & Hf & ins1 & HM & ->).
    exact (externs_go PR f ins1 xs Hf Ex HM). }
  destruct H2 as (fs2 & H2). rewrite H2. cbn [patching bind]. pose proof (phases o maps fs1 fs2 H1 H2) as PH. fold text in PH.
  set (o2 := linkable o text fs2) in *.
  assert (H3 : exists fs3, relocate_calls o2 (map prog_key (ob_progs o)) = Ok fs3).
  { apply (relocate_calls_all o2); auto.
    - intros sec a f2 g2. exact (programs_apart fs2 PH sec a f2 g2).
    - intros sec a Ip. apply in_map_iff in Ip as (p & Ep & Ip). unfold prog_key in Ep. apply pair_equal_spec in Ep as [<- <-].
      destruct (pr_entry _ _ _ PR p Ip) as (f & E). pose proof E as (E0 & E1 & E2). destruct (corr_to o text maps fs2 PH f E0) as (f2 & C).
      assert (L : lookup_fun fs2 (pg_index p) (pg_addr p) = Some f2) by (apply (lookup2 fs2 PH); exists f; auto). exists f2.
      destruct (link_goes o2 f2) as (out & LK).
      { intros h2 Hh. assert (exists h, corr o text maps fs2 h h2 /\ (h = f \/ needs o text f h)) as (h & Ch & Nh).
        { destruct Hh as [->|R]; [exists f; auto|]. destruct (corr_from o text maps fs2 PH h2 (reach_in fs2 _ _ R)) as (h & Ch). exists h. split; [exact Ch|]. right. apply (needs_reach o text maps WF KK fs2 PH f h f2 h2 C Ch). exact R. }
        apply (resolvable_corr fs2 PH h h2 Ch). intros k x Hx. exact (pr_code _ _ _ PR p f h k x Ip E Nh Hx). }
      exists out. split; [exact L|exact LK]. }
  destruct H3 as (fs3 & H3). rewrite H3. cbn [linking bind].
  destruct (relocate_calls_each o2 (map prog_key (ob_progs o)) o2 fs3) as [R1 _]; auto.
  { intros sec a f2 g2. exact (programs_apart fs2 PH sec a f2 g2). }
  unfold pair_programs. assert (Q : forall ps, (forall p, In p ps -> In p (ob_progs o)) -> exists l, mapM (fun p => match lookup_fun (fst (sanitize_functions probe fs3)) (pg_index p) (pg_addr p) with Some f => Ok (p, f) | None => Err WPanic end) ps = Ok l).
  { induction ps as [|p ps IH]; intros I; cbn [mapM]; [eauto|].
    destruct (R1 (pg_index p) (pg_addr p)) as (f2 & out & L2 & L3 & L4); [apply in_map_iff; exists p; split; [reflexivity|apply I; left; reflexivity]|].
    rewrite sanitize_spec, lookup_map_ins, L4. cbn [bind]. rewrite sanitize_spec in IH. destruct IH as (l & ->); [intros q J; apply I; right; exact J|]. cbn [bind]. eauto. }
  apply Q. auto.
Qed.

Lemma needs_in f g : needs o text f g -> In g (ob_funs o).
Proof. intros N. induction N as [a b U|a b c U N IH]; [|exact IH]. unfold uses in U. repeat (destruct U as (? & U)). tauto. Qed.
Lemma finish_present probe l : finish o maps probe = Ok l -> present o text maps.
Proof.
  unfold finish, relocate_object. change (text_sections (ob_funs o)) with text.
  destruct (maps_phase o maps text (ob_funs o)) as [fs1|e] eqn:H1; cbn [patching bind]; [|discriminate].
  destruct (externs_phase o fs1) as [fs2|e] eqn:H2; cbn [patching bind]; [|discriminate].
  destruct (relocate_calls (linkable o text fs2) (map prog_key (ob_progs o))) as [fs3|e] eqn:H3; cbn [linking bind]; [|discriminate]. intros _.
  pose proof (phases o maps fs1 fs2 H1 H2) as PH. fold text in PH. set (o2 := linkable o text fs2) in *.
  destruct (relocate_calls_each o2 (map prog_key (ob_progs o)) o2 fs3) as [R1 _]; auto.
  { intros sec a f2 g2. exact (programs_apart fs2 PH sec a f2 g2). }
  assert (EN : forall p, In p (ob_progs o) -> exists f f2 out, entry_of o p f /\ corr o text maps fs2 f f2 /\ link o2 f2 = Ok out).
  { intros p Ip. destruct (R1 (pg_index p) (pg_addr p)) as (f2 & out & L2 & L3 & _); [apply in_map_iff; exists p; split; [reflexivity|exact Ip]|].
    apply (lookup2 fs2 PH) in L2 as (f & C & K1 & K2). exists f, f2, out. split; [split; [apply C|auto]|auto]. }
  constructor.
  - intros p Ip. destruct (EN p Ip) as (f & _ & _ & E & _). eauto.
  - intros f r Hf Hr B. destruct (corr_to o text maps fs2 PH f Hf) as (f2 & _ & _ & ins1 & ins2 & _ & HM & HX).
    destruct (map_refused _ _ _ _ _ _ _ r (table_ok o text maps WF f) HM Hr B) as ((k & S1 & S2) & S). split; [|exact S]. exists k. split; [exact Hr|exact S2].
  - intros f k x r sym sec Hf Hx A D. destruct (corr_to o text maps fs2 PH f Hf) as (f2 & _ & _ & ins1 & ins2 & _ & HM & HX).
    destruct (data2 o text maps WF f ins1 ins2 Hf HM HX k x r sym sec Hx A D) as (m & _ & M & _). eauto.
  - intros f k x r Hf Hx A K. destruct (corr_to o text maps fs2 PH f Hf) as (f2 & _ & _ & ins1 & ins2 & _ & HM & HX).
    destruct (kernel_is o text maps WF f ins1 ins2 Hf HM HX k x r (KK f k r Hf A K) Hx A K) as (e & Ke). exists e. split; [exact Ke|].
    destruct (Z.eq_dec (code x) CALL_CODE) as [C|C]; [left|right].
    + split; [exact C|]. destruct (kcall2 o text maps WF f ins1 ins2 Hf HM HX k x r e Hx A Ke C) as [(R & id & I & _)|(R & W & _)]; [left; split; [exact R|congruence]|right; auto].
    + destruct (kload2 o text maps WF f ins1 ins2 Hf HM HX k x r e Hx A Ke C) as (Cl & z & lo & hi & _ & _ & _ & _ & _ & [X|[X|X]]); (split; [exact Cl|]).
      * destruct X as (id & X & _). left. congruence.
      * destruct X as (a & _ & X & _). right. left. congruence.
      * destruct X as (_ & _ & X & _). right. right. exact X.
  - intros p f g k x Ip E Ng Hx. destruct (EN p Ip) as (f' & f2 & out & E' & C & LK).
    assert (f' = f) by (destruct E as (A0 & A1 & A2), E' as (B0 & B1 & B2); apply (keys_eq o text maps WF); [exact B0|exact A0|congruence|congruence]). subst f'.
    assert (Hg : In g (ob_funs o)). { destruct Ng as [->|N]; [apply E|]. exact (needs_in f g N). }
    destruct (corr_to o text maps fs2 PH g Hg) as (g2 & G). revert k x Hx. apply (resolvable_corr fs2 PH g g2 G).
    apply (link_resolves o2 f2 out (keys_unique2 o text maps WF fs2 PH) (distinct2 fs2 PH p f f2 Ip E C) LK). destruct Ng as [->|N].
    + left. exact (corr_one2 o text maps WF fs2 PH f g2 f2 G C).
    + right. apply (needs_reach o text maps WF KK fs2 PH f g f2 g2 C G). exact N.
Qed.
Lemma finish_iff probe : (exists l, finish o maps probe = Ok l) <-> present o text maps.
Proof. split; [intros (l & E); exact (finish_present probe l E)|exact (finish_works probe)]. Qed.
End W5.
