From Verif Require Import Base Insn LinkModel LinkSpec.
Local Open Scope Z_scope.

Lemma symkind_eqb_eq a b : symkind_eqb a b = true <-> a = b.
Proof. destruct a, b; cbn; split; congruence. Qed.

Section L.
Variable o : obj.

Lemma text_reloc_spec f k rel sym : text_reloc o f k = Some (rel, sym) <-> code_reloc o f k rel sym.
Proof.
  unfold text_reloc, code_reloc, INS_SIZE. replace (Z.of_nat k * 8) with (8 * Z.of_nat k) by lia.
  destruct (o_relocs o (f_sec f) (u64 (f_secoff f + 8 * Z.of_nat k))) as [r|] eqn:E1.
  2:{ split; [discriminate|]. intros [H _]. discriminate. }
  destruct (o_syms o (r_sym r)) as [s|] eqn:E2.
  2:{ split; [discriminate|]. intros (H & H1 & _). inversion H; subst. congruence. }
  destruct (is_extern s) eqn:E3.
  { split; [discriminate|]. intros (H & H1 & H2 & _). inversion H; subst. congruence. }
  destruct (symkind_eqb (s_kind s) KText || match s_section s with Some sec => o_text o sec | None => false end) eqn:E4.
  - split.
    + intros H; inversion H; subst. split; [reflexivity|]. split; [exact E2|]. split; [exact E3|].
      apply orb_true_iff in E4. destruct E4 as [E4|E4]; [left; now apply symkind_eqb_eq|right].
      destruct (s_section sym) as [sec|]; [eauto|discriminate].
    + intros (H & H1 & _). inversion H; subst. congruence.
  - split; [discriminate|]. intros (H & H1 & H2 & H3). inversion H; subst. assert (sym = s) by congruence. subst.
    apply orb_false_iff in E4. destruct E4 as [E4 E5]. destruct H3 as [H3|(sec & H3 & H4)].
    + apply symkind_eqb_eq in H3. congruence.
    + rewrite H3 in E5. congruence.
Qed.

Lemma code_reloc_fun f k rel sym rel' sym' : code_reloc o f k rel sym -> code_reloc o f k rel' sym' -> rel = rel' /\ sym = sym'.
Proof. intros (A & B & _) (A' & B' & _). rewrite A in A'. inversion A'; subst. split; congruence. Qed.

Lemma target_names f k x sec a : target o f k x = Some (Ok (sec, a)) <-> names o f k x sec a.
Proof.
  unfold target. split.
  - destruct (text_reloc o f k) as [[rel sym]|] eqn:E.
    + apply text_reloc_spec in E. intros H. inversion H as [H1]. clear H.
      destruct (s_kind sym) eqn:Ek; try discriminate.
      * destruct (s_section sym) as [s|] eqn:Es; inversion H1; subst. econstructor 1; eauto.
      * destruct (r_size rel =? 32) eqn:E32.
        -- destruct (s_section sym) as [s|] eqn:Es; inversion H1; subst.
           replace (i32 (imm x + 1) * INS_SIZE) with (8 * i32 (imm x + 1)) by (unfold INS_SIZE; lia).
           econstructor 2; eauto. lia.
        -- destruct (r_size rel =? 64) eqn:E64; [|discriminate].
           destruct (s_section sym) as [s|] eqn:Es; inversion H1; subst. econstructor 3; eauto. lia.
    + destruct (insn_is_call x) eqn:Ec; [|discriminate]. intros H; inversion H; subst.
      replace (Z.of_nat k * INS_SIZE) with (8 * Z.of_nat k) by (unfold INS_SIZE; lia).
      replace (i32 (imm x + 1) * INS_SIZE) with (8 * i32 (imm x + 1)) by (unfold INS_SIZE; lia).
      constructor 4; [|exact Ec]. intros rel sym HR. apply text_reloc_spec in HR. congruence.
  - intros H; destruct H as [rel sym sec HR Hk Hs|rel sym sec HR Hk Hs Hz|rel sym sec HR Hk Hs Hz|HN Hc].
    + apply text_reloc_spec in HR. now rewrite HR, Hk, Hs.
    + apply text_reloc_spec in HR. rewrite HR, Hk, Hs, Hz, Z.eqb_refl. replace (i32 (imm x + 1) * INS_SIZE) with (8 * i32 (imm x + 1)) by (unfold INS_SIZE; lia). reflexivity.
    + apply text_reloc_spec in HR. rewrite HR, Hk, Hs, Hz. reflexivity.
    + destruct (text_reloc o f k) as [[rel sym]|] eqn:E.
      * apply text_reloc_spec in E. exfalso. exact (HN _ _ E).
      * rewrite Hc. replace (Z.of_nat k * INS_SIZE) with (8 * Z.of_nat k) by (unfold INS_SIZE; lia).
        replace (i32 (imm x + 1) * INS_SIZE) with (8 * i32 (imm x + 1)) by (unfold INS_SIZE; lia). reflexivity.
Qed.

Lemma lookup_fun_spec sec a g : lookup_fun (o_funs o) sec a = Some g -> In g (o_funs o) /\ f_sec g = sec /\ f_addr g = a.
Proof.
  unfold lookup_fun. intros H. apply find_some in H. destruct H as [H1 H2].
  apply andb_true_iff in H2. destruct H2 as [H2 H3]. apply Nat.eqb_eq in H2. apply Z.eqb_eq in H3. auto.
Qed.

Definition done (segs : list (nat * func)) (l : list insn) (s : nat) (f : func) (k : nat) : Prop :=
  forall x, nth_error (f_ins f) k = Some x ->
    match target o f k x with
    | None => nth_error l (s + k) = Some x
    | Some (Err _) => False
    | Some (Ok (sec, a)) =>
        exists g g' t, lookup_fun (o_funs o) sec a = Some g /\ In (t, g') (tl segs) /\ f_addr g' = f_addr g /\
          nth_error l (s + k) = Some (patch_call t (s + k) x)
    end.

Definition inv (entry : func) (segs : list (nat * func)) (st : lstate) : Prop :=
  (exists r, segs = (0%nat, entry) :: r) /\
  tiles 0 segs (length (p_ins st)) /\
  NoDup (map (fun sg => f_addr (snd sg)) (tl segs)) /\
  p_linked st = rev (map (fun sg => (f_addr (snd sg), fst sg)) (tl segs)) /\
  p_finfo st = f_finfo entry ++ flat_map (fun sg => link_finfo (snd sg) (fst sg)) (tl segs) /\
  p_linfo st = f_linfo entry ++ flat_map (fun sg => link_linfo (snd sg) (fst sg)) (tl segs).

Lemma tl_app {A} (l m : list A) : l <> [] -> tl (l ++ m) = tl l ++ m.
Proof. destruct l; cbn; congruence. Qed.

Lemma done_mono segs segs' l l' s f k :
  done segs l s f k -> (forall p, In p (tl segs) -> In p (tl segs')) -> nth_error l' (s + k) = nth_error l (s + k) ->
  done segs' l' s f k.
Proof.
  intros H HI HE x Hx. specialize (H x Hx). rewrite HE. destruct (target o f k x) as [[[sec a]|e]|]; auto.
  destruct H as (g & g' & t & A & B & C & D). exists g, g', t. auto.
Qed.

Lemma tiles_app p a b n : tiles p (a ++ b) n <-> exists m, tiles p a m /\ tiles m b n.
Proof.
  revert p; induction a as [|[s f] a IH]; intros p; cbn [app tiles].
  - split; [intros H; exists p; auto|intros (m & -> & H); exact H].
  - rewrite IH. split; [intros (E & m & H1 & H2); exists m; auto|intros (m & (E & H1) & H2); split; [exact E|exists m; auto]].
Qed.

Lemma tiles_in p segs n s f : tiles p segs n -> In (s, f) segs -> (p <= s)%nat /\ (s + length (f_ins f) <= n)%nat.
Proof.
  revert p; induction segs as [|[s' f'] segs IH]; intros p; cbn [tiles In]; [contradiction|].
  intros [-> H] [E|Hin].
  - inversion E; subst. split; [lia|]. clear IH E.
    assert (forall q l m, tiles q l m -> (q <= m)%nat) as HM.
    { clear. intros q l; revert q; induction l as [|[a b] l IHl]; intros q m; cbn [tiles]; [lia|]. intros [_ H]. apply IHl in H. lia. }
    now apply HM in H.
  - destruct (IH _ H Hin). lia.
Qed.

Lemma linked_lookup entry segs st a : inv entry segs st ->
  match assoc Z.eqb a (p_linked st) with
  | Some i => exists g, In (i, g) (tl segs) /\ f_addr g = a
  | None => ~ In a (map (fun sg => f_addr (snd sg)) (tl segs))
  end.
Proof.
  intros (_ & _ & ND & HL & _). destruct (assoc Z.eqb a (p_linked st)) as [i|] eqn:E.
  - apply assoc_in in E; [|intros; apply Z.eqb_eq]. rewrite HL in E. apply in_rev in E. apply in_map_iff in E.
    destruct E as ([s g] & E1 & E2). inversion E1; subst. exists g. auto.
  - intros HI. apply in_map_iff in HI. destruct HI as ([s g] & E1 & E2). cbn in E1. subst.
    assert (assoc Z.eqb (f_addr g) (p_linked st) = Some s) as X; [|congruence].
    apply assoc_nodup; [intros; apply Z.eqb_eq| |].
    + rewrite HL, map_rev, map_map. apply NoDup_rev. exact ND.
    + rewrite HL. apply -> in_rev. apply in_map_iff. exists (s, g). auto.
Qed.

Definition link_ok (entry : func) (lnk : func -> lstate -> res lerr (nat * lstate)) : Prop :=
  forall g st segs i st', inv entry segs st -> lnk g st = Ok (i, st') ->
  exists new, inv entry (segs ++ new) st' /\
    (forall j, (j < length (p_ins st))%nat -> nth_error (p_ins st') j = nth_error (p_ins st) j) /\
    (forall s h k, In (s, h) new -> done (segs ++ new) (p_ins st') s h k) /\
    (exists g', In (i, g') (tl (segs ++ new)) /\ f_addr g' = f_addr g) /\
    (forall s h, In (s, h) new -> h = g \/ reach o g h).

Definition rel_ok (entry : func) (rel : func -> lstate -> res lerr lstate) : Prop :=
  forall f st st' segs0 start, inv entry (segs0 ++ [(start, f)]) st ->
  (forall k, (k < length (f_ins f))%nat -> nth_error (p_ins st) (start + k) = nth_error (f_ins f) k) ->
  rel f st = Ok st' ->
  exists new, inv entry (segs0 ++ [(start, f)] ++ new) st' /\
    (forall j, (j < start)%nat -> nth_error (p_ins st') j = nth_error (p_ins st) j) /\
    (forall s h k, In (s, h) ((start, f) :: new) -> done (segs0 ++ [(start, f)] ++ new) (p_ins st') s h k) /\
    (forall s h, In (s, h) new -> reach o f h).

Lemma inv_ne entry segs st : inv entry segs st -> segs <> [].
Proof. intros ((r & ->) & _). discriminate. Qed.

Lemma link_from_rel entry rel : rel_ok entry rel -> link_ok entry (link_function rel).
Proof.
  intros HR g st segs i st' HI H. unfold link_function in H.
  pose proof (linked_lookup _ _ _ (f_addr g) HI) as HL. pose proof (inv_ne _ _ _ HI) as Hne.
  destruct (assoc Z.eqb (f_addr g) (p_linked st)) as [i0|].
  - inversion H; subst. exists []. rewrite app_nil_r. split; [exact HI|]. split; [auto|]. split; [intros ? ? ? []|].
    split; [exact HL|intros ? ? []].
  - match type of H with context [rel g ?s] => set (st1 := s) in H end.
    destruct (rel g st1) as [st2|] eqn:E; [|discriminate]. inversion H; subst. clear H.
    assert (HI1 : inv entry (segs ++ [(length (p_ins st), g)]) st1).
    { destruct HI as ((r & ->) & T & ND & LK & FI & LI). unfold inv. rewrite !tl_app by discriminate. cbn [tl].
      split; [eexists; reflexivity|]. split.
      - apply tiles_app. exists (length (p_ins st)). split; [exact T|]. cbn [tiles st1 p_ins]. rewrite app_length. auto.
      - rewrite !map_app, !flat_map_app, rev_app_distr. cbn [map flat_map rev app fst snd st1 p_linked p_finfo p_linfo].
        cbn [tl] in *. split.
        + clear -ND HL.
          apply Permutation_NoDup with (l := f_addr g :: map (fun sg => f_addr (snd sg)) r).
          * apply Permutation_cons_append.
          * constructor; auto.
        + rewrite LK, FI, LI, !app_nil_r, <- !app_assoc. auto. }
    destruct (HR g st1 st' segs (length (p_ins st)) HI1) as (new & A & B & C & D).
    + intros k Hk. cbn [st1 p_ins]. rewrite nth_error_app2 by lia. f_equal. lia.
    + exact E.
    + exists ((length (p_ins st), g) :: new). change ((length (p_ins st), g) :: new) with ([(length (p_ins st), g)] ++ new).
      split; [exact A|]. split.
      { intros j Hj. rewrite B by exact Hj. cbn [st1 p_ins]. now rewrite nth_error_app1. }
      split; [exact C|]. split.
      { exists g. split; [|reflexivity]. rewrite tl_app by exact Hne. apply in_or_app. right. now left. }
      intros s h [Eq|Hin]; [inversion Eq; subst; now left|right; eauto].
Qed.

Lemma patch_call_of x ci p :
  (if insn_is_call x then set_imm (i32 (i32 (Z.of_nat ci) - i32 (Z.of_nat p) - 1)) x
   else set_src BPF_PSEUDO_FUNC (set_imm (i32 (i32 (Z.of_nat ci) - i32 (Z.of_nat p) - 1)) x)) = patch_call ci p x.
Proof. reflexivity. Qed.

Lemma loop_ok entry lnk f start : link_ok entry lnk ->
  forall n k0 st st' segs, (k0 + n = length (f_ins f))%nat ->
  inv entry segs st -> In (start, f) segs ->
  (forall k, (k0 <= k < length (f_ins f))%nat -> nth_error (p_ins st) (start + k) = nth_error (f_ins f) k) ->
  reloc_loop o lnk f start (seq k0 n) st = Ok st' ->
  exists new, inv entry (segs ++ new) st' /\
    (forall j, (j < length (p_ins st))%nat -> (j < start + k0 \/ start + length (f_ins f) <= j)%nat ->
       nth_error (p_ins st') j = nth_error (p_ins st) j) /\
    (forall k, (k0 <= k)%nat -> done (segs ++ new) (p_ins st') start f k) /\
    (forall s h k, In (s, h) new -> done (segs ++ new) (p_ins st') s h k) /\
    (forall s h, In (s, h) new -> reach o f h).
Proof.
  intros HL n. induction n as [|n IH]; intros k0 st st' segs Hk HI Hin HU H; cbn [seq reloc_loop] in H.
  - inversion H; subst. exists []. rewrite app_nil_r. split; [exact HI|]. split; [auto|]. split.
    + intros k Hge x Hx. assert (k < length (f_ins f))%nat by (apply nth_error_Some; congruence). lia.
    + split; [intros ? ? ? []|intros ? ? []].
  - pose proof (tiles_in _ _ _ _ _ (proj1 (proj2 HI)) Hin) as [_ Hb].
    rewrite (HU k0) in H by lia.
    destruct (nth_error (f_ins f) k0) as [x|] eqn:Ex; [|discriminate].
    pose proof (inv_ne _ _ _ HI) as Hne.
    destruct (target o f k0 x) as [[[sec a]|e]|] eqn:Et; [| discriminate |].
    + destruct (lookup_fun (o_funs o) sec a) as [g|] eqn:Eg; [|discriminate].
      destruct (lnk g st) as [[ci st1]|] eqn:El; [|discriminate].
      destruct (HL g st segs ci st1 HI El) as (new1 & A1 & B1 & C1 & D1 & E1).
      assert (Hx1 : nth_error (p_ins st1) (start + k0) = Some x).
      { rewrite B1 by lia. rewrite (HU k0) by lia. exact Ex. }
      rewrite Hx1 in H. rewrite patch_call_of in H.
      set (st2 := with_ins st1 (upd (start + k0) (patch_call ci (start + k0) x) (p_ins st1))) in H.
      assert (Hlen2 : length (p_ins st2) = length (p_ins st1)) by (cbn; apply upd_length).
      assert (Hlen1 : (length (p_ins st) <= length (p_ins st1))%nat).
      { destruct A1 as (_ & T1 & _). apply tiles_app in T1. destruct T1 as (m & T1 & T1').
        destruct HI as (_ & T & _). clear -T T1 T1'.
        assert (forall q l m m', tiles q l m -> tiles q l m' -> m = m') as Hdet.
        { clear. intros q l; revert q; induction l as [|[a b] l IHl]; intros q m m'; cbn [tiles]; [congruence|].
          intros [_ X] [_ Y]. eauto. }
        pose proof (Hdet _ _ _ _ T T1) as ->.
        revert T1'. generalize (length (p_ins st1)). generalize m. induction new1 as [|[a b] l IHl]; intros q n; cbn [tiles]; [lia|].
        intros [_ X]. apply IHl in X. lia. }
      assert (HI2 : inv entry (segs ++ new1) st2).
      { unfold inv in *. cbn [p_finfo p_linfo p_linked with_ins st2]. rewrite Hlen2. exact A1. }
      assert (HF2 : forall j, j <> (start + k0)%nat -> nth_error (p_ins st2) j = nth_error (p_ins st1) j).
      { intros j Hj. cbn. apply nth_error_upd_ne. lia. }
      destruct (IH (S k0) st2 st' (segs ++ new1)) as (new2 & A2 & B2 & C2 & D2 & E2).
      * lia.
      * exact HI2.
      * apply in_or_app; now left.
      * intros k Hkk. rewrite HF2 by lia. rewrite B1 by lia. apply HU. lia.
      * exact H.
      * rewrite <- app_assoc in A2, C2, D2. exists (new1 ++ new2).
        assert (Htl : forall p, In p (tl (segs ++ new1)) -> In p (tl (segs ++ new1 ++ new2))).
        { intros p Hp. rewrite tl_app in * by exact Hne. apply in_or_app. apply in_app_or in Hp.
          destruct Hp; [now left|right; apply in_or_app; now left]. }
        split; [exact A2|]. split.
        { intros j Hj Hjj. rewrite B2 by (try rewrite Hlen2; lia). rewrite HF2 by lia. apply B1. exact Hj. }
        split.
        { intros k Hkk. destruct (Nat.eq_dec k k0) as [->|Hneq]; [|apply C2; lia].
          intros y Hy. assert (y = x) by congruence. subst y. rewrite Et.
          destruct D1 as (g' & D1 & D1'). exists g, g', ci. split; [exact Eg|]. split; [apply Htl; exact D1|]. split; [exact D1'|].
          rewrite B2 by lia. cbn. apply nth_error_upd_eq. lia. }
        split.
        { intros s h k Hin'. apply in_app_or in Hin'. destruct Hin' as [Hin'|Hin']; [|now apply D2].
          intros y Hy. assert (HT1 := proj1 (proj2 A1)). apply tiles_app in HT1. destruct HT1 as (m & HT1 & HT1').
          pose proof (tiles_in _ _ _ _ _ HT1' Hin') as [Hs1 Hs2].
          pose proof (tiles_in _ _ _ _ _ HT1 Hin) as [_ Hs3].
          assert (k < length (f_ins h))%nat by (apply nth_error_Some; congruence).
          revert y Hy. eapply done_mono; [exact (C1 s h k Hin')|exact Htl|].
          rewrite B2 by lia. apply HF2. lia. }
        { assert (Hgr : refers o f g).
          { destruct (lookup_fun_spec _ _ _ Eg) as (G1 & G2 & G3). exists k0, x, sec, a. split; [exact Ex|].
            split; [now apply target_names|auto]. }
          intros s h Hin'. apply in_app_or in Hin'. destruct Hin' as [Hin'|Hin']; [|eauto].
          destruct (E1 s h Hin') as [->|Hr]; [now constructor 1|econstructor 2; eauto]. }
    + destruct (IH (S k0) st st' segs) as (new2 & A2 & B2 & C2 & D2 & E2); auto.
      * lia.
      * intros k Hkk. apply HU. lia.
      * exists new2. split; [exact A2|]. split; [intros j Hj Hjj; apply B2; lia|]. split; [|auto].
        intros k Hkk. destruct (Nat.eq_dec k k0) as [->|Hneq]; [|apply C2; lia].
        intros y Hy. assert (y = x) by congruence. subst y. rewrite Et. rewrite B2 by lia. rewrite (HU k0) by lia. exact Ex.
Qed.

Lemma relocate_ok entry fuel : rel_ok entry (relocate o fuel).
Proof.
  induction fuel as [|n IH]; intros f st st' segs0 start HI HU H; cbn [relocate] in H; [discriminate|].
  assert (Hst : (length (p_ins st) - length (f_ins f))%nat = start).
  { destruct HI as (_ & T & _). apply tiles_app in T. destruct T as (m & _ & T). cbn [tiles] in T. lia. }
  rewrite Hst in H.
  destruct (loop_ok entry (link_function (relocate o n)) f start (link_from_rel _ _ IH) (length (f_ins f)) 0 st st' (segs0 ++ [(start, f)]))
    as (new & A & B & C & D & E); auto.
  - apply in_or_app. right. now left.
  - intros k Hk. apply HU. lia.
  - exists new. rewrite <- app_assoc in A, C, D. split; [exact A|]. split.
    + intros j Hj. apply B; [|lia]. lia.
    + split; [|exact E]. intros s h k [Eq|Hin]; [inversion Eq; subst; apply C; lia|auto].
Qed.

(** Termination and progress. *)
Definition resolvable (f : func) : Prop :=
  forall k x, nth_error (f_ins f) k = Some x ->
    match target o f k x with
    | None => True
    | Some (Err _) => False
    | Some (Ok (sec, a)) => lookup_fun (o_funs o) sec a <> None
    end.

Definition unlinked (lk : list (Z * nat)) : nat :=
  length (filter (fun g => match assoc Z.eqb (f_addr g) lk with None => true | Some _ => false end) (o_funs o)).

Definition grows (st st' : lstate) : Prop :=
  (length (p_ins st) <= length (p_ins st'))%nat /\ exists l, p_linked st' = l ++ p_linked st.

Lemma grows_refl st : grows st st.
Proof. split; [lia|exists []; auto]. Qed.
Lemma grows_trans a b c : grows a b -> grows b c -> grows a c.
Proof. intros [A1 (l1 & A2)] [B1 (l2 & B2)]. split; [lia|]. exists (l2 ++ l1). rewrite B2, A2. apply app_assoc. Qed.

Lemma assoc_app_some {V} a (l m : list (Z * V)) : assoc Z.eqb a m <> None -> assoc Z.eqb a (l ++ m) <> None.
Proof. induction l as [|[b v] l IH]; cbn [app assoc]; [auto|]. intros H. destruct (a =? b); [discriminate|auto]. Qed.

Lemma unlinked_app l lk : (unlinked (l ++ lk) <= unlinked lk)%nat.
Proof.
  unfold unlinked. induction (o_funs o) as [|g fs IH]; cbn [filter]; [lia|].
  destruct (assoc Z.eqb (f_addr g) lk) eqn:E1.
  - destruct (assoc Z.eqb (f_addr g) (l ++ lk)) eqn:E2; [exact IH|].
    exfalso. apply (assoc_app_some (f_addr g) l lk); [congruence|exact E2].
  - destruct (assoc Z.eqb (f_addr g) (l ++ lk)); cbn [length]; lia.
Qed.

Lemma unlinked_cons g i lk : In g (o_funs o) -> assoc Z.eqb (f_addr g) lk = None ->
  (unlinked ((f_addr g, i) :: lk) < unlinked lk)%nat.
Proof.
  unfold unlinked. induction (o_funs o) as [|h fs IH]; cbn [filter In]; [contradiction|].
  intros [->|Hin] HN.
  - cbn [assoc]. rewrite Z.eqb_refl, HN. cbn [length].
    clear IH. induction fs as [|h fs IH]; cbn [filter]; [lia|].
    cbn [assoc] in *. destruct (f_addr h =? f_addr g); destruct (assoc Z.eqb (f_addr h) lk); cbn [length]; lia.
  - specialize (IH Hin HN). cbn [assoc] in *.
    destruct (f_addr h =? f_addr g); destruct (assoc Z.eqb (f_addr h) lk); cbn [length]; lia.
Qed.

Definition reach_refl (f h : func) : Prop := h = f \/ reach o f h.

Definition progresses {A} (r : res lerr A) (proj : A -> lstate) (st : lstate) (good : Prop) : Prop :=
  match r with Ok v => grows st (proj v) | Err e => e <> OutOfFuel /\ ~ good end.

Lemma relocate_progress fuel : forall f st, (unlinked (p_linked st) < fuel)%nat ->
  (length (f_ins f) <= length (p_ins st))%nat ->
  (forall k, (k < length (f_ins f))%nat ->
     nth_error (p_ins st) (length (p_ins st) - length (f_ins f) + k) = nth_error (f_ins f) k) ->
  progresses (relocate o fuel f st) (fun s => s) st (forall h, reach_refl f h -> resolvable h) /\
  (forall st', relocate o fuel f st = Ok st' -> forall j, (j < length (p_ins st) - length (f_ins f))%nat -> nth_error (p_ins st') j = nth_error (p_ins st) j).
Proof.
  induction fuel as [|n IH]; intros f st Hm Hlen HU; [lia|]. cbn [relocate].
  set (start := (length (p_ins st) - length (f_ins f))%nat) in *.
  assert (HLOOP : forall m k0 s, (k0 + m = length (f_ins f))%nat -> grows st s ->
    (forall k, (k0 <= k < length (f_ins f))%nat -> nth_error (p_ins s) (start + k) = nth_error (f_ins f) k) ->
    progresses (reloc_loop o (link_function (relocate o n)) f start (seq k0 m) s) (fun s => s) s (forall h, reach_refl f h -> resolvable h) /\
    (forall st', reloc_loop o (link_function (relocate o n)) f start (seq k0 m) s = Ok st' ->
       forall j, (j < start)%nat -> nth_error (p_ins st') j = nth_error (p_ins s) j)).
  { intros m. induction m as [|m IHm]; intros k0 s Hk HG HUs; cbn [seq reloc_loop].
    - split; [apply grows_refl|intros st' E; inversion E; subst; auto].
    - rewrite (HUs k0) by lia. destruct (nth_error (f_ins f) k0) as [x|] eqn:Ex.
      2:{ apply nth_error_None in Ex. lia. }
      destruct (target o f k0 x) as [[[sec a]|e]|] eqn:Et.
      + destruct (lookup_fun (o_funs o) sec a) as [g|] eqn:Eg.
        2:{ split; [|discriminate]. split; [discriminate|]. intros HR. specialize (HR f (or_introl eq_refl) k0 x Ex). rewrite Et in HR. auto. }
        assert (Hgf : refers o f g).
        { destruct (lookup_fun_spec _ _ _ Eg) as (G1 & G2 & G3). exists k0, x, sec, a. split; [exact Ex|].
          split; [now apply target_names|auto]. }
        assert (HLK : progresses (link_function (relocate o n) g s) snd s (forall h, reach_refl f h -> resolvable h) /\
           forall ci s1, link_function (relocate o n) g s = Ok (ci, s1) -> forall j, (j < length (p_ins s))%nat -> nth_error (p_ins s1) j = nth_error (p_ins s) j).
        { unfold link_function. destruct (assoc Z.eqb (f_addr g) (p_linked s)) as [i|] eqn:Ea.
          - split; [apply grows_refl|]. intros ci s1 E. inversion E; subst. auto.
          - match goal with |- context [relocate o n g ?q] => set (s1 := q) end.
            destruct (lookup_fun_spec _ _ _ Eg) as (Gin & _).
            assert (Hd : (length (p_ins s1) - length (f_ins g))%nat = length (p_ins s)).
            { cbn [s1 p_ins]. rewrite app_length. lia. }
            destruct (IH g s1) as [IH1 IH2].
            + pose proof (unlinked_cons g (length (p_ins s)) (p_linked s) Gin Ea).
              destruct HG as [_ (l & HG)]. pose proof (unlinked_app l (p_linked st)). cbn [s1 p_linked]. rewrite HG in *. lia.
            + cbn [s1 p_ins]. rewrite app_length. lia.
            + intros k Hkk. rewrite Hd. cbn [s1 p_ins]. rewrite nth_error_app2 by lia. f_equal. lia.
            + destruct (relocate o n g s1) as [s2|e] eqn:Er.
              * split.
                -- cbn [progresses snd] in *. eapply grows_trans; [|exact IH1]. split; [cbn [s1 p_ins]; rewrite app_length; lia|].
                   exists [(f_addr g, length (p_ins s))]. reflexivity.
                -- intros ci s3 E. inversion E; subst. intros j Hj. rewrite (IH2 _ eq_refl) by lia. cbn [s1 p_ins].
                   now rewrite nth_error_app1.
              * split; [|discriminate]. cbn [progresses] in *. destruct IH1 as [IH1 IH1']. split; [exact IH1|].
                intros HR. apply IH1'. intros h Hh. apply HR. right. destruct Hh as [->|Hh]; [now constructor 1|econstructor 2; eauto]. }
        destruct HLK as [HLK1 HLK2].
        destruct (link_function (relocate o n) g s) as [[ci s1]|e] eqn:El; [|split; [exact HLK1|discriminate]].
        cbn [progresses snd] in HLK1.
        assert (Hb : (start + k0 < length (p_ins s))%nat) by (destruct HG; lia).
        rewrite (HLK2 ci s1 eq_refl) by exact Hb. rewrite (HUs k0) by lia. rewrite Ex. rewrite patch_call_of.
        set (s2 := with_ins s1 _).
        assert (HG12 : grows s1 s2).
        { split; [cbn; rewrite upd_length; lia|exists []; reflexivity]. }
        destruct (IHm (S k0) s2) as [R1 R2].
        * lia.
        * eapply grows_trans; [exact HG|]. eapply grows_trans; [exact HLK1|exact HG12].
        * intros k Hkk. cbn [s2 with_ins p_ins]. rewrite nth_error_upd_ne by lia. rewrite (HLK2 ci s1 eq_refl) by (destruct HG; lia). apply HUs. lia.
        * split.
          -- destruct (reloc_loop _ _ _ _ _ s2); cbn [progresses] in *; [|exact R1].
             eapply grows_trans; [exact HLK1|]. eapply grows_trans; eauto.
          -- intros st' E j Hj. rewrite (R2 st' E) by exact Hj. cbn [s2 with_ins p_ins]. rewrite nth_error_upd_ne by lia.
             apply (HLK2 ci s1 eq_refl). destruct HG; lia.
      + split; [|discriminate]. split.
        * unfold target in Et. destruct (text_reloc o f k0) as [[rel sym]|].
          -- destruct (s_kind sym); try destruct (r_size rel =? 32); try destruct (r_size rel =? 64);
               destruct (s_section sym); inversion Et; discriminate.
          -- destruct (insn_is_call x); discriminate.
        * intros HR. specialize (HR f (or_introl eq_refl) k0 x Ex). rewrite Et in HR. exact HR.
      + apply IHm; [lia|exact HG|]. intros k Hkk. apply HUs. lia. }
  destruct (HLOOP (length (f_ins f)) 0%nat st eq_refl (grows_refl st)) as [L1 L2].
  - intros k Hk. apply HU. lia.
  - split; [exact L1|]. intros st' E j Hj. apply (L2 st' E). exact Hj.
Qed.

End L.
