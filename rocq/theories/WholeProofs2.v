(** Proofs: a relocated program consists of copies of the object's functions. *)
From Verif Require Import Base Insn ObjModel ObjSpec ObjProofs4 PatchModel PatchSpec PatchProofs PatchProofs2 LinkModel LinkSpec LinkProofs LinkProofs2 WholeModel WholeSpec WholeProofs.
Local Open Scope Z_scope.

(** The order in which programs are linked does not matter, whether or not
    their references resolve. *)
Lemma relocate_calls_each o0 : forall progs o funs',
  NoDup progs ->
  o_relocs o = o_relocs o0 -> o_syms o = o_syms o0 -> o_text o = o_text o0 -> length (o_funs o) = length (o_funs o0) ->
  (forall sec a f g, In (sec, a) progs -> lookup_fun (o_funs o0) sec a = Some f -> reach o0 f g ->
     lookup_fun (o_funs o) (f_sec g) (f_addr g) = lookup_fun (o_funs o0) (f_sec g) (f_addr g) /\ ~ In (f_sec g, f_addr g) progs) ->
  (forall sec a, lookup_fun (o_funs o0) sec a = None -> lookup_fun (o_funs o) sec a = None) ->
  (forall p, In p progs -> lookup_fun (o_funs o) (fst p) (snd p) = lookup_fun (o_funs o0) (fst p) (snd p)) ->
  relocate_calls o progs = Ok funs' ->
  (forall sec a, In (sec, a) progs -> exists f g, lookup_fun (o_funs o0) sec a = Some f /\ link o0 f = Ok g /\ lookup_fun funs' sec a = Some g) /\
  (forall sec a, ~ In (sec, a) progs -> lookup_fun funs' sec a = lookup_fun (o_funs o) sec a).
Proof.
  induction progs as [|[sec a] progs IH]; intros o funs' ND H1 H2 H3 HL HC HN HP H; cbn [relocate_calls] in H.
  - apply ok_inj in H. subst. split; [intros ? ? []|auto].
  - destruct (lookup_fun (o_funs o) sec a) as [f|] eqn:Ef; [|discriminate H].
    destruct (link o f) as [g|] eqn:El; [|discriminate H].
    inversion ND as [|? ? ND1 ND2]; subst.
    assert (Ef0 : lookup_fun (o_funs o0) sec a = Some f) by (rewrite <- Ef; symmetry; exact (HP (sec, a) (or_introl eq_refl))).
    assert (El0 : link o0 f = Ok g).
    { rewrite <- El. apply link_ext with (R := fun h => h = f \/ reach o0 f h); [congruence|congruence|congruence| |now left|congruence].
      intros h k x sec' a' Hh Hx Ht. apply target_names in Ht.
      assert (Hq : forall q, lookup_fun (o_funs o0) sec' a' = Some q -> reach o0 f q).
      { intros q Hq. destruct (lookup_fun_spec _ _ _ _ Hq) as (Q1 & Q2 & Q3).
        assert (RF : refers o0 h q) by (exists k, x, sec', a'; auto).
        destruct Hh as [->|Hh]; [now constructor 1|exact (reach_snoc o0 f h q Hh RF)]. }
      split; [|intros q Q; right; now apply Hq].
      destruct (lookup_fun (o_funs o0) sec' a') as [q|] eqn:E; [|symmetry; exact (HN _ _ E)].
      destruct (lookup_fun_spec _ _ _ _ E) as (_ & Q2 & Q3).
      destruct (HC sec a f q (or_introl eq_refl) Ef0 (Hq q eq_refl)) as [C1 _]. rewrite Q2, Q3 in C1. congruence. }
    destruct (link_keeps_key _ _ _ El) as [K1 K2].
    destruct (lookup_fun_spec _ _ _ _ Ef) as (_ & F2 & F3). rewrite F2 in K1. rewrite F3 in K2.
    match type of H with relocate_calls ?q _ = _ => specialize (IH q funs' ND2) end. cbn [o_relocs o_syms o_text o_funs] in IH.
    destruct IH as [R1 R2]; auto.
    + rewrite replace_fun_length. exact HL.
    + intros sec' a' f' g' Hin Hl Hr. destruct (HC sec' a' f' g' (or_intror Hin) Hl Hr) as [C1 C2].
      split; [|intros X; apply C2; now right]. rewrite replace_fun_other; [exact C1|].
      intros X. apply C2. left. rewrite K1, K2 in X. congruence.
    + intros sec' a' Hn. rewrite replace_fun_other; [now apply HN|]. rewrite K1, K2. intros X. congruence.
    + intros p Hp. rewrite replace_fun_other; [apply HP; now right|]. rewrite K1, K2. intros X. destruct p as [p1 p2]. cbn in X. congruence.
    + cbn [o_funs] in R2. split.
      * intros sec' a' [E|Hin].
        -- assert (sec' = sec /\ a' = a) as [-> ->] by (inversion E; auto).
           exists f, g. split; [exact Ef0|]. split; [exact El0|].
           rewrite R2 by exact ND1. rewrite <- K1, <- K2. apply replace_fun_same. rewrite K1, K2. congruence.
        -- destruct (R1 sec' a' Hin) as (f' & g' & A & B & C). eauto 6.
      * intros sec' a' Hnin. rewrite R2 by (intros X; apply Hnin; now right).
        apply replace_fun_other. rewrite K1, K2. intros X. apply Hnin. left. congruence.
Qed.

(** Helper calls. *)
Lemma helper_form x : insn_is_helper_call x = ((Z.land (code x) 255 =? 133) && (src x =? 0) && (dst x =? 0)).
Proof.
  unfold insn_is_helper_call. f_equal. f_equal.
  assert (E : forall m, Z.land 255 m = m -> Z.land (code x) m = Z.land (Z.land (code x) 255) m) by (intros m Hm; rewrite <- Z.land_assoc, Hm; reflexivity).
  rewrite (E 7), (E 240), (E 8) by reflexivity.
  assert (R : 0 <= Z.land (code x) 255 < 256) by (change 255 with (Z.ones 8); rewrite Z.land_ones by lia; apply Z.mod_pos_bound; lia).
  generalize dependent (Z.land (code x) 255). intros v _ R.
  assert (F : forallb (fun n => Bool.eqb ((Z.land (Z.of_nat n) 7 =? 5) && (Z.land (Z.of_nat n) 240 =? 128) && (Z.land (Z.of_nat n) 8 =? 0)) (Z.of_nat n =? 133)) (seq 0 256) = true) by (vm_compute; reflexivity).
  pose proof (proj1 (forallb_forall _ _) F) as F'. clear F. rename F' into F. specialize (F (Z.to_nat v)). rewrite in_seq in F. rewrite Z2Nat.id in F by lia.
  apply Bool.eqb_prop. apply F. lia.
Qed.
Lemma adapted_spec (probe : bool) x : (if probe then x else legacy_call x) = adapted probe x.
Proof.
  unfold adapted, legacy_call, is_probe_call. rewrite helper_form. destruct probe; [reflexivity|].
  destruct ((Z.land (code x) 255 =? 133) && (src x =? 0) && (dst x =? 0)); [|reflexivity]. cbn [andb].
  destruct (imm x =? 112), (imm x =? 113), (imm x =? 114), (imm x =? 115); reflexivity.
Qed.
Lemma adapted_not probe x : insn_is_helper_call x = false -> adapted probe x = x.
Proof. intros H. rewrite helper_form in H. unfold adapted. rewrite H. now destruct probe. Qed.
Lemma adapted_code probe x c : c = 24 \/ c = 0 -> code x = c -> adapted probe x = x.
Proof. intros Hc E. apply adapted_not. unfold insn_is_helper_call. rewrite E. destruct Hc as [-> | ->]; reflexivity. Qed.
Lemma adapted_src probe x : src x <> 0 -> adapted probe x = x.
Proof. intros H. apply adapted_not. unfold insn_is_helper_call. destruct (Z.eqb_spec (src x) 0) as [E|E]; [now elim H|]. now rewrite andb_false_r. Qed.

Section W2.
Variables (o : object) (text : nat -> bool) (maps : list mapinfo).
Hypothesis WF : well_formed o text maps.
Hypothesis KK : kernel_known o.
Variable fs2 : list func.
Hypothesis PH : Forall2 (fun f f2 => exists ins1 ins2, f2 = with_code f ins2 /\
    relocate_maps (f_secoff f) maps (ob_syms o) text (ob_relocs o (f_sec f)) (f_ins f) = Ok ins1 /\
    match ob_externs o with
    | None => ins2 = ins1
    | Some xs => patch_externs (f_secoff f) xs (ob_syms o) (ob_relocs o (f_sec f)) ins1 = Ok ins2
    end) (ob_funs o) fs2.
Let o2 := linkable o text fs2.

(** [f2] is [f] after patching. *)
Definition corr (f f2 : func) : Prop :=
  In f (ob_funs o) /\ In f2 fs2 /\ exists ins1 ins2, f2 = with_code f ins2 /\
    relocate_maps (f_secoff f) maps (ob_syms o) text (ob_relocs o (f_sec f)) (f_ins f) = Ok ins1 /\
    match ob_externs o with
    | None => ins2 = ins1
    | Some xs => patch_externs (f_secoff f) xs (ob_syms o) (ob_relocs o (f_sec f)) ins1 = Ok ins2
    end.

Lemma corr_key f f2 : corr f f2 -> f_sec f2 = f_sec f /\ f_addr f2 = f_addr f /\ f_secoff f2 = f_secoff f.
Proof. intros (_ & _ & i1 & i2 & -> & _). auto. Qed.

Lemma forall2_in {A B} (P : A -> B -> Prop) l m : Forall2 P l m -> (forall a, In a l -> exists b, In b m /\ P a b) /\ (forall b, In b m -> exists a, In a l /\ P a b).
Proof.
  induction 1 as [|x y l m H _ [IH1 IH2]]; split; intros ? [].
  - subst. exists y. split; [now left|exact H].
  - destruct (IH1 _ H0) as (b & B1 & B2). exists b. split; [now right|exact B2].
  - subst. exists x. split; [now left|exact H].
  - destruct (IH2 _ H0) as (a & A1 & A2). exists a. split; [now right|exact A2].
Qed.

Lemma forall2_map {A C} (P : A -> A -> Prop) (h : A -> C) l m : Forall2 P l m -> (forall a b, P a b -> h b = h a) -> map h m = map h l.
Proof. intros F H. induction F as [|a b l m Q _ IH]; [reflexivity|]. cbn [map]. now rewrite IH, (H a b Q). Qed.

Lemma corr_to f : In f (ob_funs o) -> exists f2, corr f f2.
Proof. intros H. destruct (proj1 (forall2_in _ _ _ PH) f H) as (f2 & F1 & F2). exists f2. split; [exact H|split; [exact F1|exact F2]]. Qed.
Lemma corr_from f2 : In f2 fs2 -> exists f, corr f f2.
Proof. intros H. destruct (proj2 (forall2_in _ _ _ PH) f2 H) as (f & F1 & F2). exists f. split; [exact F1|split; [exact H|exact F2]]. Qed.

Lemma keys2 : map (fun f => (f_sec f, f_addr f)) fs2 = map (fun f => (f_sec f, f_addr f)) (ob_funs o).
Proof. apply (forall2_map _ _ _ _ PH). intros f f2 (i1 & i2 & -> & _). reflexivity. Qed.

Lemma keys_unique2 : keys_unique o2.
Proof.
  intros g h Hg Hh E1 E2. cbn [o2 linkable o_funs] in Hg, Hh. pose proof (wf_keys _ _ _ WF) as ND. rewrite <- keys2 in ND.
  clear - Hg Hh E1 E2 ND. induction fs2 as [|q l IH]; [destruct Hg|]. cbn [map] in ND. inversion ND as [|? ? N1 N2]; subst.
  destruct Hg as [->|Hg], Hh as [->|Hh]; auto.
  - exfalso. apply N1. rewrite E1, E2. apply (in_map (fun f => (f_sec f, f_addr f)) l h Hh).
  - exfalso. apply N1. rewrite <- E1, <- E2. apply (in_map (fun f => (f_sec f, f_addr f)) l g Hg).
Qed.

Lemma corr_one f g f2 : corr f f2 -> corr g f2 -> f = g.
Proof.
  intros C D. destruct (corr_key _ _ C) as (A1 & A2 & _), (corr_key _ _ D) as (B1 & B2 & _).
  apply (keys_eq o text maps WF); [apply C|apply D|congruence|congruence].
Qed.
Lemma corr_one2 f f2 g2 : corr f f2 -> corr f g2 -> f2 = g2.
Proof.
  intros C D. destruct (corr_key _ _ C) as (A1 & A2 & _), (corr_key _ _ D) as (B1 & B2 & _).
  apply keys_unique2; [apply C|apply D|congruence|congruence].
Qed.

(** References to functions are the same before and after patching. *)
Lemma code_reloc_corr f f2 k r sym : corr f f2 -> (code_reloc o2 f2 k r sym <-> code_reloc (code_of o text) f k r sym).
Proof. intros C. destruct (corr_key _ _ C) as (A1 & _ & A3). unfold code_reloc. rewrite A1, A3. reflexivity. Qed.

Lemma code_reloc_attached f k r sym : In f (ob_funs o) -> (k < length (f_ins f))%nat -> code_reloc (code_of o text) f k r sym -> attached o f k r.
Proof. intros Hf Hk (R & _). exact (proj1 (attached_find o text maps WF f k r Hf Hk) R). Qed.

Lemma no_names (ob : obj) f k x : (forall r sym, ~ code_reloc ob f k r sym) -> insn_is_call x = false -> forall sec a, ~ names ob f k x sec a.
Proof. intros H1 H2 sec a H. destruct H; try (eapply H1; eassumption). congruence. Qed.

Lemma no_names_iff f f2 k x x2 : corr f f2 -> (forall r sym, ~ code_reloc (code_of o text) f k r sym) -> insn_is_call x = false -> insn_is_call x2 = false ->
  (forall sec a, ~ names o2 f2 k x2 sec a) /\ (forall sec a, ~ code_ref o text f k x sec a).
Proof.
  intros C H E1 E2. split.
  - apply no_names; [|exact E2]. intros r sym R. apply (code_reloc_corr f f2 k r sym C) in R. exact (H r sym R).
  - intros sec a [_ R]. exact (no_names _ _ _ _ H E1 sec a R).
Qed.

Lemma not_call_code x c : code x = c -> c = 24 \/ c = 0 -> insn_is_call x = false.
Proof. intros E Hc. destruct (insn_is_call x) eqn:I; [|reflexivity]. apply call_code in I. unfold LDDW_CODE in I. destruct Hc; subst c; lia. Qed.

Lemma kernel_no_code f k r : In f (ob_funs o) -> (k < length (f_ins f))%nat -> attached o f k r -> kernel_ref o r -> forall r' sym, ~ code_reloc (code_of o text) f k r' sym.
Proof.
  intros Hf Hk A (y & Y1 & Y2) r' sym R. pose proof (code_reloc_attached f k r' sym Hf Hk R) as A'.
  assert (r' = r) by exact (attached_one o text maps WF f k _ _ A' A). subst r'. destruct R as (_ & R2 & R3 & _). cbn in R2. congruence.
Qed.
Lemma data_no_code f k r sym sec : In f (ob_funs o) -> (k < length (f_ins f))%nat -> attached o f k r -> data_ref o r sym sec -> forall r' sym', ~ code_reloc (code_of o text) f k r' sym'.
Proof.
  intros Hf Hk A D r' sym' R. pose proof (code_reloc_attached f k r' sym' Hf Hk R) as A'.
  assert (r' = r) by exact (attached_one o text maps WF f k _ _ A' A). subst r'.
  pose proof (wf_funs _ _ _ WF r sym sec f k Hf A D) as NT. pose proof (proj1 (data_text o text maps WF r sym sec) D) as (D1 & D2 & D3).
  destruct R as (_ & R2 & _ & R4). cbn [code_of o_syms o_text] in R2, R4. assert (sym' = sym) by congruence. subst sym'.
  destruct R4 as [R4|(s & S1 & S2)]; [now elim NT|]. congruence.
Qed.

(** Summary of one instruction after patching. *)
Lemma names_corr f f2 k x x2 : corr f f2 -> nth_error (f_ins f) k = Some x -> nth_error (f_ins f2) k = Some x2 ->
  ((forall sec a, ~ names o2 f2 k x2 sec a) /\ (forall sec a, ~ code_ref o text f k x sec a)) \/
  (x2 = x /\ forall sec a, names o2 f2 k x2 sec a <-> code_ref o text f k x sec a).
Proof.
  intros C Hx Hx2. pose proof C as (Hf & _ & ins1 & ins2 & E & HM & HX). assert (Hi : f_ins f2 = ins2) by (rewrite E; reflexivity). rewrite Hi in Hx2.
  assert (Hk : (k < length (f_ins f))%nat) by (apply nth_error_Some; congruence).
  destruct (decide_at o text maps WF f k Hf Hk) as [(r & sym & sec & A & D)|[(r & A & K)|[N1 N2]]].
  - left. destruct (data2 o text maps WF f ins1 ins2 Hf HM HX k x r sym sec Hx A D) as (m & z & _ & _ & E1 & _).
    pose proof (wf_loads _ _ _ WF f k x r sym sec Hf A D Hx) as Cx.
    rewrite E1 in Hx2. apply some_inj in Hx2. subst x2.
    apply no_names_iff; [exact C|exact (data_no_code f k r sym sec Hf Hk A D)|apply (not_call_code _ 24); [exact Cx|now left]|apply (not_call_code _ 24); [exact Cx|now left]].
  - left. assert (NC := kernel_no_code f k r Hf Hk A K).
    destruct (kernel_is o text maps WF f ins1 ins2 Hf HM HX k x r (KK f k r Hf A K) Hx A K) as (e & Ke).
    assert (X2 : insn_is_call x2 = false).
    { destruct (Z.eq_dec (code x) CALL_CODE) as [Cc|Cc].
      - destruct (kcall2 o text maps WF f ins1 ins2 Hf HM HX k x r e Hx A Ke Cc) as [(_ & id & _ & E1)|(_ & _ & E1)];
          rewrite E1 in Hx2; apply some_inj in Hx2; subst x2; unfold insn_is_call; cbn; reflexivity.
      - destruct (kload2 o text maps WF f ins1 ins2 Hf HM HX k x r e Hx A Ke Cc) as (Cl & z & lo & hi & _ & E1 & _ & _ & E2 & _).
        rewrite E1 in Hx2. apply some_inj in Hx2. subst x2. apply (not_call_code _ 24); [rewrite E2; exact Cl|now left]. }
    split.
    + apply no_names; [|exact X2]. intros r' sym R. apply (code_reloc_corr f f2 k r' sym C) in R. exact (NC r' sym R).
    + intros sec a [R _]. exact (R r A K).
  - destruct (decide_second o text maps WF f k Hf Hk) as [S2|N3].
    + left. pose proof (second_nothing o text maps WF f k Hf S2) as [NA Cx].
      assert (HB : ob_externs o <> None \/ ~ (exists j, k = S j /\ is_kernel o f j)).
      { destruct (ob_externs o) eqn:Exs; [left; intros Q; discriminate Q|]. right. intros (j & _ & r & A & K). apply (KK f j r Hf A K). exact Exs. }
      pose proof (second2 o text maps WF f ins1 ins2 Hf HM HX k x x2 S2 HB Hx Hx2) as C2.
      apply no_names_iff; [exact C| |apply (not_call_code _ 0); [exact (Cx x Hx)|now right]|apply (not_call_code _ 0); [exact C2|now right]].
      intros r sym R. exact (NA r (code_reloc_attached f k r sym Hf Hk R)).
    + right. rewrite (other2 o text maps WF f ins1 ins2 Hf HM HX k Hk N1 N2 N3), Hx in Hx2. apply some_inj in Hx2. subst x2. split; [reflexivity|].
      destruct (corr_key _ _ C) as (A1 & A2 & A3). intros sec a. split.
      * intros N. split; [intros r A K; apply N2; now exists r|].
        destruct N as [r sym s R K1 K2|r sym s R K1 K2 K3|r sym s R K1 K2 K3|R K1].
        -- eapply n_symbol; [apply (code_reloc_corr f f2 k r sym C); exact R|exact K1|exact K2].
        -- eapply n_section_call; [apply (code_reloc_corr f f2 k r sym C); exact R|exact K1|exact K2|exact K3].
        -- eapply n_section_load; [apply (code_reloc_corr f f2 k r sym C); exact R|exact K1|exact K2|exact K3].
        -- rewrite A1, A3. apply n_pcrel; [|exact K1]. intros r sym R'. apply (R r sym). apply (code_reloc_corr f f2 k r sym C). exact R'.
      * intros [_ N]. destruct N as [r sym s R K1 K2|r sym s R K1 K2 K3|r sym s R K1 K2 K3|R K1].
        -- eapply n_symbol; [apply (code_reloc_corr f f2 k r sym C); exact R|exact K1|exact K2].
        -- eapply n_section_call; [apply (code_reloc_corr f f2 k r sym C); exact R|exact K1|exact K2|exact K3].
        -- eapply n_section_load; [apply (code_reloc_corr f f2 k r sym C); exact R|exact K1|exact K2|exact K3].
        -- rewrite <- A1, <- A3. apply n_pcrel; [|exact K1]. intros r sym R'. apply (R r sym). apply (code_reloc_corr f f2 k r sym C). exact R'.
Qed.

Lemma corr_length f f2 : corr f f2 -> length (f_ins f2) = length (f_ins f).
Proof. intros (Hf & _ & ins1 & ins2 & -> & HM & HX). exact (len2 o text maps WF f ins1 ins2 Hf HM HX). Qed.
Lemma corr_nth f f2 k x : corr f f2 -> nth_error (f_ins f) k = Some x -> exists x2, nth_error (f_ins f2) k = Some x2.
Proof.
  intros C H. assert (Hk : (k < length (f_ins f2))%nat) by (rewrite (corr_length f f2 C); apply nth_error_Some; congruence).
  destruct (nth_error (f_ins f2) k) eqn:E; [eauto|]. apply nth_error_None in E. lia.
Qed.

Lemma uses_refers f g f2 g2 : corr f f2 -> corr g g2 -> (uses o text f g <-> refers o2 f2 g2).
Proof.
  intros C D. destruct (corr_key _ _ D) as (B1 & B2 & _). split.
  - intros (k & x & Hx & R & _). destruct (corr_nth f f2 k x C Hx) as (x2 & Hx2). exists k, x2, (f_sec g), (f_addr g).
    split; [exact Hx2|]. destruct (names_corr f f2 k x x2 C Hx Hx2) as [[_ N]|[_ N]]; [now elim (N _ _ R)|].
    split; [now apply N|]. split; [apply D|]. auto.
  - intros (k & x2 & sec & a & Hx2 & R & _ & <- & <-).
    assert (Hk : (k < length (f_ins f))%nat) by (rewrite <- (corr_length f f2 C); apply nth_error_Some; congruence).
    destruct (nth_error (f_ins f) k) as [x|] eqn:Hx; [|apply nth_error_None in Hx; lia]. exists k, x. split; [exact Hx|].
    destruct (names_corr f f2 k x x2 C Hx Hx2) as [[N _]|[_ N]]; [now elim (N _ _ R)|].
    split; [rewrite <- B1, <- B2; now apply N|apply D].
Qed.

Lemma needs_reach f g f2 g2 : corr f f2 -> corr g g2 -> (needs o text f g <-> reach o2 f2 g2).
Proof.
  intros C D. split.
  - intros H. revert f2 g2 C D. induction H as [f g U|f g h U H IH]; intros f2 g2 C D.
    + constructor 1. now apply (uses_refers f g f2 g2 C D).
    + destruct U as (k & x & U). destruct (corr_to g) as (m2 & M); [apply U|].
      constructor 2 with m2; [apply (uses_refers f g f2 m2 C M); now exists k, x|now apply IH].
  - intros H. revert f g C D. induction H as [f2 g2 U|f2 g2 h2 U H IH]; intros f g C D.
    + constructor 1. now apply (uses_refers f g f2 g2 C D).
    + assert (In g2 fs2) as I by (destruct U as (k & x & sec & a & _ & _ & I & _); exact I).
      destruct (corr_from g2 I) as (m & M). constructor 2 with m; [now apply (uses_refers f m f2 g2 C M)|now apply IH].
Qed.

(** Parts of the linked program, in terms of the object's functions. *)
Definition same_part (p p2 : nat * func) : Prop := fst p = fst p2 /\ corr (snd p) (snd p2).
Lemma pull l2 : (forall t g2, In (t, g2) l2 -> In g2 fs2) -> exists l, Forall2 same_part l l2.
Proof.
  induction l2 as [|[t g2] l2 IH]; intros H; [exists []; constructor|].
  destruct IH as (l & L); [intros t' g' I; apply (H t' g'); now right|].
  destruct (corr_from g2) as (g & G); [apply (H t g2); now left|]. exists ((t, g) :: l). constructor; [now split|exact L].
Qed.
Lemma parts_in l l2 t g : Forall2 same_part l l2 -> In (t, g) l -> exists g2, corr g g2 /\ In (t, g2) l2.
Proof.
  intros F I. destruct (proj1 (forall2_in _ _ _ F) _ I) as ([t2 g2] & I2 & E & C). cbn in E, C. subst t2. eauto.
Qed.
Lemma parts_in2 l l2 t g2 : Forall2 same_part l l2 -> In (t, g2) l2 -> exists g, corr g g2 /\ In (t, g) l.
Proof.
  intros F I. destruct (proj2 (forall2_in _ _ _ F) _ I) as ([t2 g] & I2 & E & C). cbn in E, C. subst t2. eauto.
Qed.
Lemma parts_tiles l l2 : Forall2 same_part l l2 -> forall p n, tiles p l2 n -> tiles p l n.
Proof.
  induction 1 as [|[s f] [s2 f2] l l2 [E C] _ IH]; intros p n T; [exact T|]. cbn in E, C. subst s2. cbn [tiles] in *.
  destruct T as [T1 T2]. split; [exact T1|]. apply IH. now rewrite <- (corr_length f f2 C).
Qed.
Lemma parts_nodup l l2 : Forall2 same_part l l2 -> NoDup (map snd l2) -> NoDup (map snd l).
Proof.
  induction 1 as [|[s f] [s2 f2] l l2 [E C] F IH]; intros N; [constructor|]. cbn in E, C. cbn [map snd] in *. inversion N as [|? ? N1 N2]; subst.
  constructor; [|now apply IH]. intros I. apply in_map_iff in I. destruct I as ([t g] & Eg & I). cbn in Eg. subst g.
  destruct (parts_in l l2 t f F I) as (g2 & C2 & I2). apply N1. rewrite (corr_one2 f f2 g2 C C2). apply (in_map snd l2 (t, g2) I2).
Qed.
End W2.
