(** Proofs: loaded programs behave as the object file says. *)
From Verif Require Import Base Insn PatchModel PatchSpec LinkModel LinkSpec LinkProofs ObjModel WholeModel WholeSpec WholeProofs WholeProofs2 WholeProofs3 WholeProofs4 WholeProofs5 RunSpec.
Local Open Scope Z_scope.

Lemma byte_forall (P : Z -> bool) : forallb P (map Z.of_nat (seq 0 256)) = true -> forall c, 0 <= c < 256 -> P c = true.
Proof.
  intros H c B. rewrite forallb_forall in H. apply H. apply in_map_iff. exists (Z.to_nat c). split; [lia|]. apply in_seq. lia.
Qed.
Lemma call_byte c : 0 <= c < 256 -> (Z.land c 7 =? 5) && (Z.land c 240 =? 128) && (Z.land c 8 =? 0) = (c =? 133).
Proof.
  intros B. apply eqb_prop. revert c B. apply byte_forall. vm_compute. reflexivity.
Qed.
Lemma is_call_iff x : 0 <= code x < 256 -> (insn_is_call x = true <-> plain_call x).
Proof.
  intros B. unfold insn_is_call, plain_call. rewrite call_byte by exact B. rewrite !andb_true_iff, !Z.eqb_eq. unfold CALL_CODE, BPF_PSEUDO_CALL. tauto.
Qed.
Lemma adapted_fields probe x : code (adapted probe x) = code x /\ dst (adapted probe x) = dst x /\ src (adapted probe x) = src x /\ off (adapted probe x) = off x.
Proof. unfold adapted. destruct probe; [auto|]. destruct (_ && _); [|auto]. destruct (_ || _); [auto|]. destruct (_ || _); auto. Qed.
Lemma adapted_id probe x : 0 <= code x < 256 -> code x <> 133 -> adapted probe x = x.
Proof.
  intros B N. unfold adapted. destruct probe; [reflexivity|]. change 255 with (Z.ones 8). rewrite Z.land_ones by lia. rewrite Z.mod_small by lia.
  destruct (Z.eqb_spec (code x) 133); [contradiction|reflexivity].
Qed.

Lemma tiles_in segs : forall p n, tiles p segs n -> forall t g, In (t, g) segs -> (p <= t)%nat /\ (t + length (f_ins g) <= n)%nat.
Proof.
  induction segs as [|[a b] l IH]; intros p n H t g I; [destruct I|]. cbn [tiles] in H. destruct H as (-> & H).
  assert (X : (p + length (f_ins b) <= n)%nat). { clear - H. revert p H. generalize (length (f_ins b)). induction l as [|[c d] l IH]; intros m p H; cbn [tiles] in H; [lia|]. destruct H as (_ & H). apply IH in H. lia. }
  destruct I as [I|I]; [injection I as <- <-; lia|]. specialize (IH _ _ H t g I). lia.
Qed.
Lemma tiles_apart segs : forall p n, tiles p segs n -> forall t g t' h, In (t, g) segs -> In (t', h) segs -> g <> h ->
  (t + length (f_ins g) <= t')%nat \/ (t' + length (f_ins h) <= t)%nat.
Proof.
  induction segs as [|[a b] l IH]; intros p n H t g t' h I I' D; [destruct I|]. cbn [tiles] in H. destruct H as (-> & H).
  destruct I as [I|I], I' as [I'|I'].
  - congruence.
  - injection I as <- <-. left. exact (proj1 (tiles_in l _ _ H t' h I')).
  - injection I' as <- <-. right. exact (proj1 (tiles_in l _ _ H t g I)).
  - exact (IH _ _ H t g t' h I I' D).
Qed.

Section R.
Variables (M : machine) (o : object) (maps : list mapinfo) (probe : bool).
Let text := is_code o.
Hypothesis WF : well_formed o text maps.
Hypothesis KK : kernel_known o.
Hypothesis PR : present o text maps.
Hypothesis OM : one_map o maps.
Hypothesis FH : few_helpers M.
Variables (p : program) (f0 : func) (out : list insn) (segs : list (nat * func)).
Hypothesis Hp : In p (ob_progs o).
Hypothesis Hentry : entry_of o p f0.
Hypothesis H0 : exists r, segs = (0%nat, f0) :: r.
Hypothesis HN : forall g, In g (map snd (tl segs)) <-> needs o text f0 g.
Hypothesis HT : tiles 0 segs (length out).
Hypothesis HD : NoDup (map snd (tl segs)).
Hypothesis HC : forall s g, In (s, g) segs -> copied o text maps probe segs out s g.
Hypothesis TD : forall g, g = f0 \/ needs o text f0 g -> tidy o text g.

Definition place (g : func) : nat :=
  match find (fun sg => Nat.eqb (f_sec (snd sg)) (f_sec g) && (f_addr (snd sg) =? f_addr g)) (tl segs) with Some (s, _) => s | None => 0%nat end.

Lemma seg_kind s g : In (s, g) segs -> g = f0 \/ needs o text f0 g.
Proof.
  destruct H0 as (r & E). rewrite E. intros [X|X]; [left; congruence|right]. apply HN. rewrite E. apply in_map_iff. exists (s, g). auto.
Qed.
Lemma kind_fun g : g = f0 \/ needs o text f0 g -> In g (ob_funs o).
Proof. intros [->|N]; [apply Hentry|exact (needs_in o f0 g N)]. Qed.
Lemma seg_fun s g : In (s, g) segs -> In g (ob_funs o).
Proof. intros I. exact (kind_fun g (seg_kind s g I)). Qed.
Lemma seg_tl s g : In (s, g) (tl segs) -> In (s, g) segs.
Proof. destruct H0 as (r & E). rewrite E. intros I. right. exact I. Qed.
Lemma placed t g : In (t, g) (tl segs) -> place g = t.
Proof.
  intros I. unfold place. destruct (find _ (tl segs)) as [[t' g']|] eqn:E.
  - apply find_some in E as (I' & K). cbn [snd] in K. apply andb_true_iff in K as (K1 & K2). apply Nat.eqb_eq in K1. apply Z.eqb_eq in K2.
    assert (g' = g) by (apply (keys_eq o text maps WF); [exact (seg_fun t' g' (seg_tl t' g' I'))|exact (seg_fun t g (seg_tl t g I))|exact K1|exact K2]). subst g'.
    revert I I' HD. clear. induction (tl segs) as [|[a b] l IH]; intros I I' D; [destruct I|]. cbn [map snd] in D. inversion D; subst.
    destruct I as [E|I], I' as [E'|I'].
    + congruence.
    + exfalso. assert (b = g) by congruence. subst b. apply H1. apply in_map_iff. exists (t', g). auto.
    + exfalso. assert (b = g) by congruence. subst b. apply H1. apply in_map_iff. exists (t, g). auto.
    + exact (IH I I' H2).
  - exfalso. pose proof (find_none _ _ E (t, g) I) as X. cbn [snd] in X. rewrite Nat.eqb_refl, Z.eqb_refl in X. discriminate X.
Qed.

Lemma attached_one g k r r' : attached o g k r -> attached o g k r' -> r' = r.
Proof.
  intros (I & E) (I' & E'). pose proof (wf_once _ _ _ WF (f_sec g)) as N. rewrite <- E' in E. clear E'. revert N I I' E. generalize (ob_relocs o (f_sec g)). clear.
  induction l as [|a l IH]; intros N I I' E; [destruct I|]. cbn [map] in N. inversion N; subst. destruct I as [->|I], I' as [->|I'].
  - reflexivity.
  - exfalso. apply H1. rewrite E. now apply in_map.
  - exfalso. apply H1. rewrite <- E. now apply in_map.
  - exact (IH H2 I I' E).
Qed.
Lemma no_half g k x r : In g (ob_funs o) -> nth_error (f_ins g) k = Some x -> attached o g k r -> ~ second_half g k.
Proof. intros Hg Hx A (j & w & -> & W & C). destruct (wf_pairs _ _ _ WF g j w Hg W C) as (z & _ & _ & N). exact (N r A). Qed.
Lemma code_ref_half g k x sec a : In g (ob_funs o) -> nth_error (f_ins g) k = Some x -> code_ref o text g k x sec a -> ~ second_half g k.
Proof.
  clear - WF. intros Hg Hx (_ & N) (j & w & -> & W & C). destruct (wf_pairs _ _ _ WF g j w Hg W C) as (z & Z1 & Z2 & NA).
  assert (x = z) by congruence. subst z.
  assert (NR : forall rel sym, ~ code_reloc (code_of o text) g (S j) rel sym).
  { intros rel sym (R & _). cbn [code_of o_relocs] in R. apply find_some in R as (R1 & R2). apply Z.eqb_eq in R2. apply (NA rel). split; [exact R1|]. rewrite R2.
    destruct (wf_place _ _ _ WF g Hg). assert (S j < length (f_ins g))%nat by (apply nth_error_Some; congruence). unfold u64, wrap. rewrite Z.mod_small by lia. reflexivity. }
  destruct N as [rel sym s R|rel sym s R|rel sym s R|_ I]; [exact (NR _ _ R)|exact (NR _ _ R)|exact (NR _ _ R)|].
  unfold insn_is_call in I. rewrite Z2 in I. discriminate I.
Qed.

(** * What a step of the program is *)
Definition alike (a : effect M func) (b : effect M nat) : Prop :=
  match a, b with
  | Go d s, Go d' s' => d = d' /\ s = s'
  | Enter g, Enter t => In (t, g) (tl segs)
  | Leave, Leave | Bad, Bad => True
  | _, _ => False
  end.
Lemma alike_plain x s : alike (perform M (@OPlain func x) s) (perform M (@OPlain nat x) s).
Proof.
  unfold perform. cbv zeta.
  repeat match goal with |- alike (if ?b then _ else _) _ => destruct b end; cbn [alike]; auto;
  unfold going; match goal with |- context [match ?e with Some _ => _ | None => _ end] => destruct e end; cbn [alike]; auto.
Qed.
Lemma decode_plain pc x : nth_error out pc = Some x -> code x <> 24 -> ~ (code x = 133 /\ src x = 1) -> decode out pc = OPlain x.
Proof.
  intros E N C. unfold decode. rewrite E. destruct (Z.eqb_spec (code x) 24); [contradiction|].
  destruct ((code x =? 133) && (src x =? 1)) eqn:B; [|reflexivity]. apply andb_true_iff in B as (B1 & B2). apply Z.eqb_eq in B1, B2. destruct (C (conj B1 B2)).
Qed.
Lemma decode_load pc x z : nth_error out pc = Some x -> code x = 24 -> nth_error out (S pc) = Some z ->
  decode out pc = if src x =? 0 then OLoad (dst x) (VConst (lddw_value x z))
            else if src x =? 1 then OLoad (dst x) (VMap (imm x))
            else if src x =? 2 then OLoad (dst x) (VVar (imm x) (imm z))
            else if src x =? 3 then OLoad (dst x) (VKernel (imm x))
            else if src x =? 4 then OLoad (dst x) (VFunc (Z.of_nat pc + 1 + imm x))
            else OTrap.
Proof. intros E C Ez. unfold decode. rewrite E, C, Ez. reflexivity. Qed.

Lemma i32_small v : 0 <= v < 2 ^ 31 -> i32 v = v.
Proof. intros B. unfold i32, swrap. rewrite Z.mod_small by lia. change (2 ^ (32 - 1)) with (2 ^ 31). destruct (Z.ltb_spec v (2 ^ 31)); lia. Qed.

(** The second half of a load stays one. *)
Lemma half_code s g j w z : In (s, g) segs -> nth_error (f_ins g) j = Some w -> code w = LDDW_CODE -> nth_error (f_ins g) (S j) = Some z ->
  exists y, nth_error out (s + S j) = Some y /\ code y = 0.
Proof.
  intros I W C Hz. pose proof (HC s g I) as CP. pose proof (seg_fun s g I) as Hg. pose proof (TD g (seg_kind s g I)) as T.
  destruct (wf_pairs _ _ _ WF g j w Hg W C) as (z' & Z1 & Z2 & NA). assert (z' = z) by congruence. subst z'.
  assert (PL : (forall j0 w0 r, S j = S j0 -> nth_error (f_ins g) j0 = Some w0 -> code w0 = LDDW_CODE -> attached o g j0 r -> (forall sym sec, ~ data_ref o r sym sec) /\ ~ kernel_ref o r) ->
    exists y, nth_error out (s + S j) = Some y /\ code y = 0).
  { intros Q. exists (adapted probe z). split; [|rewrite (proj1 (adapted_fields probe z)); exact Z2].
    apply (cp_else _ _ _ _ _ _ _ _ CP (S j) z Hz); [intros r sym sec A; destruct (NA r A)|intros r A; destruct (NA r A)| |exact Q].
    intros sec a R. apply (code_ref_half g (S j) z sec a Hg Hz R). exists j, w. auto. }
  destruct (find (fun r => r_offset r =? f_secoff g + 8 * Z.of_nat j) (ob_relocs o (f_sec g))) as [r|] eqn:F.
  - apply find_some in F as (F1 & F2). apply Z.eqb_eq in F2. assert (A : attached o g j r) by (split; assumption).
    destruct (ob_syms o (r_sym r)) as [sym|] eqn:Es.
    + destruct (is_extern sym) eqn:Ex.
      * destruct (pr_kernel _ _ _ PR g j w r Hg W A ltac:(exists sym; auto)) as (e & Ke & _).
        destruct (cp_ksym _ _ _ _ _ _ _ _ CP j w r e W A Ke) as (_ & z' & lo & hi & Y1 & _ & Y3 & Y4 & _); [rewrite C; discriminate|].
        exists hi. split; [exact Y3|]. rewrite Y4. cbn [set_imm code]. congruence.
      * destruct (s_section sym) as [sec|] eqn:Ec.
        -- destruct (text sec) eqn:Tx.
           ++ apply PL. intros j0 w0 r0 E0 W0 C0 A0. assert (j0 = j) by lia. subst j0. rewrite (attached_one g j r r0 A A0). split.
              ** intros sym' sec' (D1 & D2 & D3). apply D3. apply (wf_text _ _ _ WF). congruence.
              ** intros (sym' & K1 & K2). congruence.
           ++ assert (D : data_ref o r sym sec). { split; [exact Es|]. split; [exact Ec|]. intros X. apply (wf_text _ _ _ WF) in X. congruence. }
              destruct (cp_data _ _ _ _ _ _ _ _ CP j w z r sym sec W Hz A D) as (m & _ & _ & Y). destruct (m_data_empty m); eexists; (split; [exact Y|]); exact Z2.
        -- apply PL. intros j0 w0 r0 E0 W0 C0 A0. assert (j0 = j) by lia. subst j0. rewrite (attached_one g j r r0 A A0). split.
           ++ intros sym' sec' (D1 & D2 & D3). congruence.
           ++ intros (sym' & K1 & K2). congruence.
    + apply PL. intros j0 w0 r0 E0 W0 C0 A0. assert (j0 = j) by lia. subst j0. rewrite (attached_one g j r r0 A A0). split.
      * intros sym' sec' (D1 & _). congruence.
      * intros (sym' & K1 & _). congruence.
  - apply PL. intros j0 w0 r0 E0 W0 C0 A0. assert (j0 = j) by lia. subst j0. exfalso. destruct A0 as (A1 & A2). pose proof (find_none _ _ F r0 A1) as X. cbn in X. rewrite A2, Z.eqb_refl in X. discriminate X.
Qed.

Lemma step_alike s g k q st : In (s, g) segs -> means o text maps probe place g k q -> alike (perform M q st) (perform M (decode out (s + k)) st).
Proof.
  intros I H. pose proof (HC s g I) as CP. pose proof (seg_fun s g I) as Hg. pose proof (TD g (seg_kind s g I)) as T.
  destruct H as [x r sym sec m Hx A D N E|x r sym sec m Hx A D N E|x r e id Hx A K C R B|x r e Hx A K C R|x r e id Hx A K C B|x r e a Hx A K C B V|x r e Hx A K C B V|x h Hx R Ih P|x h Hx R Ih C|x z Hx NR C Hz|x Hx NR C NH|x Hx SH].
  - pose proof (wf_loads _ _ _ WF g k x r sym sec Hg A D Hx) as C. destruct (wf_pairs _ _ _ WF g k x Hg Hx C) as (z & Hz & _).
    destruct (cp_data _ _ _ _ _ _ _ _ CP k x z r sym sec Hx Hz A D) as (m' & N' & Y1 & Y2). rewrite (OM g k r sym sec m m' Hg A D N N') in *. rewrite E in Y1, Y2.
    rewrite <- plus_n_Sm in Y2. rewrite (decode_load _ _ _ Y1 C Y2). cbn. auto.
  - pose proof (wf_loads _ _ _ WF g k x r sym sec Hg A D Hx) as C. destruct (wf_pairs _ _ _ WF g k x Hg Hx C) as (z & Hz & _).
    destruct (cp_data _ _ _ _ _ _ _ _ CP k x z r sym sec Hx Hz A D) as (m' & N' & Y1 & Y2). rewrite (OM g k r sym sec m m' Hg A D N N') in *. rewrite E in Y1, Y2.
    rewrite <- plus_n_Sm in Y2. rewrite (decode_load _ _ _ Y1 C Y2). cbn. destruct (ti_vars _ _ _ T k x r sym sec Hx A D) as (V1 & V2 & V3).
    rewrite (i32_small (s_address sym)) by exact V1. rewrite i32_small by lia. auto.
  - destruct (cp_kfunc _ _ _ _ _ _ _ _ CP k x r e Hx A K C) as [(_ & id' & B' & Y)|(X & _)]; [|congruence]. assert (id' = id) by congruence. subst id'.
    rewrite (decode_plain _ _ Y); [|discriminate|intros (_ & X); discriminate X]. cbn [perform code src off imm].
    rewrite i32_small by exact (proj2 (ti_kernel _ _ _ T k r e A K) id B). change (CALL_CODE =? 149) with false. change (CALL_CODE =? 5) with false. change (CALL_CODE =? 6) with false. change (CALL_CODE =? 133) with true. cbn. unfold going. destruct (m_kfunc M id st); cbn; auto.
  - destruct (cp_kfunc _ _ _ _ _ _ _ _ CP k x r e Hx A K C) as [(X & _)|(_ & _ & Y)]; [congruence|].
    rewrite (decode_plain _ _ Y); [|discriminate|intros (_ & X); discriminate X]. cbn [perform code src off imm]. change (CALL_CODE =? 149) with false. change (CALL_CODE =? 5) with false. change (CALL_CODE =? 6) with false. change (CALL_CODE =? 133) with true. cbv iota. change (0 =? 0) with true. cbv iota.
    rewrite FH by lia. exact Logic.I.
  - destruct (cp_ksym _ _ _ _ _ _ _ _ CP k x r e Hx A K) as (_ & z & lo & hi & Hz & Y1 & Y2 & Y3 & Y4 & Y); [rewrite C; discriminate|].
    rewrite <- plus_n_Sm in Y2. rewrite (decode_load _ _ _ Y1 ltac:(rewrite Y4; exact C) Y2). destruct Y as [(id' & B' & S1 & S2 & S3)|[(a & X & _)|(X & _)]]; [|congruence|congruence].
    assert (id' = id) by congruence. subst id'. rewrite S1, S2. rewrite i32_small by exact (proj2 (ti_kernel _ _ _ T k r e A K) id B). cbn. rewrite Y4. cbn. auto.
  - destruct (cp_ksym _ _ _ _ _ _ _ _ CP k x r e Hx A K) as (_ & z & lo & hi & Hz & Y1 & Y2 & Y3 & Y4 & Y); [rewrite C; discriminate|].
    rewrite <- plus_n_Sm in Y2. rewrite (decode_load _ _ _ Y1 ltac:(rewrite Y4; exact C) Y2). destruct Y as [(id' & X & _)|[(a' & _ & V' & S1 & S2)|(_ & X & _)]]; [congruence| |congruence].
    assert (a' = a) by congruence. subst a'. rewrite S1, (S2 (proj1 (ti_kernel _ _ _ T k r e A K) a V)). cbn. rewrite Y4. cbn. auto.
  - destruct (cp_ksym _ _ _ _ _ _ _ _ CP k x r e Hx A K) as (_ & z & lo & hi & Hz & Y1 & Y2 & Y3 & Y4 & Y); [rewrite C; discriminate|].
    rewrite <- plus_n_Sm in Y2. rewrite (decode_load _ _ _ Y1 ltac:(rewrite Y4; exact C) Y2). destruct Y as [(id' & X & _)|[(a' & _ & X & _)|(_ & _ & _ & S1 & S2)]]; [congruence|congruence|].
    rewrite S1, S2. cbn. rewrite Y4. cbn. auto.
  - destruct (cp_code _ _ _ _ _ _ _ _ CP k x _ _ Hx R) as (y & h' & t & Y & Ih' & K1 & K2 & It & G1 & G2 & G3 & G4 & G5).
    assert (h' = h) by (apply (keys_eq o text maps WF); assumption). subst h'.
    rewrite (proj2 (is_call_iff x (ti_byte _ _ _ T k x Hx)) P) in G5. destruct P as (P1 & P2 & P3 & P4).
    unfold decode. rewrite Y, G2, P1, G5, P2. change (CALL_CODE =? 24) with false. change ((CALL_CODE =? 133) && (1 =? 1)) with true. cbv iota zeta. rewrite G3, P3, G4, P4, G1.
    change ((0 =? 0) && (0 =? 0)) with true. replace (0 <=? Z.of_nat t) with true by lia. cbn [andb perform alike]. rewrite Nat2Z.id. exact It.
  - destruct (cp_code _ _ _ _ _ _ _ _ CP k x _ _ Hx R) as (y & h' & t & Y & Ih' & K1 & K2 & It & G1 & G2 & G3 & G4 & G5).
    assert (h' = h) by (apply (keys_eq o text maps WF); assumption). subst h'.
    destruct (insn_is_call x) eqn:Q; [apply (is_call_iff x (ti_byte _ _ _ T k x Hx)) in Q; destruct Q as (Q & _); rewrite C in Q; discriminate Q|].
    destruct (wf_pairs _ _ _ WF g k x Hg Hx C) as (z & Hz & _). destruct (half_code s g k x z I Hx C Hz) as (y2 & Y2 & _). rewrite <- plus_n_Sm in Y2.
    rewrite (decode_load _ _ _ Y ltac:(rewrite G2; exact C) Y2). rewrite G5. cbn. rewrite G3, G1, (placed t h It). auto.
  - destruct NR as (R1 & R2 & R3). assert (NH : ~ second_half g k).
    { intros (j & w & -> & W & Cw). destruct (wf_pairs _ _ _ WF g j w Hg W Cw) as (z' & Z1 & Z2 & _). assert (z' = x) by congruence. subst z'. rewrite C in Z2. discriminate Z2. }
    assert (Y : nth_error out (s + k) = Some (adapted probe x)).
    { apply (cp_else _ _ _ _ _ _ _ _ CP k x Hx R1 R2 R3). intros j w r E W Cw A. destruct NH. exists j, w. auto. }
    destruct (wf_pairs _ _ _ WF g k x Hg Hx C) as (z' & Z1 & Z2 & NA). assert (z' = z) by congruence. subst z'.
    assert (Yz : nth_error out (s + S k) = Some (adapted probe z)).
    { apply (cp_else _ _ _ _ _ _ _ _ CP (S k) z Hz); [intros r sym sec A; destruct (NA r A)|intros r A; destruct (NA r A)| |].
      - intros sec a R. apply (code_ref_half g (S k) z sec a Hg Hz R). exists k, x. auto.
      - intros j w r E W Cw A. assert (j = k) by lia. subst j. split; [exact (fun sym sec => R1 r sym sec A)|exact (R2 r A)]. }
    rewrite adapted_id in Y; [|exact (ti_byte _ _ _ T k x Hx)|rewrite C; discriminate]. rewrite adapted_id in Yz; [|rewrite Z2; lia|rewrite Z2; discriminate].
    rewrite <- plus_n_Sm in Yz. rewrite (decode_load _ _ _ Y C Yz). rewrite (ti_loads _ _ _ T k x Hx (conj R1 (conj R2 R3)) C). cbn. auto.
  - destruct NR as (R1 & R2 & R3).
    assert (Y : nth_error out (s + k) = Some (adapted probe x)).
    { apply (cp_else _ _ _ _ _ _ _ _ CP k x Hx R1 R2 R3). intros j w r E W Cw A. destruct NH. exists j, w. auto. }
    destruct (adapted_fields probe x) as (F1 & F2 & F3 & F4).
    assert (X : ~ (code x = 133 /\ src x = 1) \/ (code x = 133 /\ src x = 1 /\ ~ plain_call x)).
    { destruct (Z.eq_dec (code x) 133) as [E1|E1]; [|left; tauto]. destruct (Z.eq_dec (src x) 1) as [E2|E2]; [|left; tauto]. right. split; [exact E1|]. split; [exact E2|]. intros P.
      pose proof (proj2 (is_call_iff x (ti_byte _ _ _ T k x Hx)) P) as Q.
      destruct (text_reloc (code_of o text) g k) as [(r, sym)|] eqn:TR.
      - apply text_reloc_spec in TR. destruct (proj1 (pr_code _ _ _ PR p f0 g k x Hp Hentry (seg_kind s g I) Hx) r sym TR) as (sec & a & Z). exact (R3 sec a Z).
      - apply (R3 (f_sec g) (u64 (f_secoff g + 8 * Z.of_nat k + 8 * i32 (imm x + 1)))). split; [exact R2|]. apply n_pcrel; [|exact Q]. intros r sym Z. apply text_reloc_spec in Z. congruence. }
    destruct X as [X|(X1 & X2 & X3)].
    + rewrite (decode_plain _ _ Y); [apply alike_plain|rewrite F1; exact C|rewrite F1, F3; exact X].
    + unfold decode. rewrite Y, F1, F3, X1, X2. change (133 =? 24) with false. change ((133 =? 133) && (1 =? 1)) with true. cbv iota zeta. rewrite F2, F4.
      destruct ((dst x =? 0) && (off x =? 0)) eqn:B; [exfalso; apply andb_true_iff in B as (B1 & B2); apply Z.eqb_eq in B1, B2; apply X3; unfold plain_call; auto|].
      cbn [andb perform]. rewrite F1, F3, X1, X2. exact Logic.I.
  - destruct SH as (j & w & -> & W & Cw). destruct (half_code s g j w x I W Cw Hx) as (y & Y & Cy).
    rewrite (decode_plain _ _ Y); [|rewrite Cy; discriminate|rewrite Cy; intros (X & _); discriminate X]. cbn [perform]. rewrite Cy. exact Logic.I.
Qed.

(** Every instruction means something. *)
Lemma means_total s g k x : In (s, g) segs -> nth_error (f_ins g) k = Some x -> exists q, means o text maps probe place g k q.
Proof.
  intros I Hx. pose proof (seg_fun s g I) as Hg. pose proof (TD g (seg_kind s g I)) as T.
  assert (HH : second_half g k \/ ~ second_half g k).
  { destruct k as [|j]; [right; intros (j & w & E & _); discriminate E|]. destruct (nth_error (f_ins g) j) as [w|] eqn:W; [|right; intros (j' & w & E & W' & _); assert (j' = j) by lia; subst j'; congruence].
    destruct (Z.eq_dec (code w) LDDW_CODE) as [C|C]; [left; exists j, w; auto|]. right. intros (j' & w' & E & W' & C'). assert (j' = j) by lia. subst j'. congruence. }
  destruct HH as [SH|NH]; [exists OTrap; exact (me_second o text maps probe place g k x Hx SH)|].
  assert (KR : (exists r, attached o g k r /\ kernel_ref o r) \/ (exists r sym sec, attached o g k r /\ data_ref o r sym sec) \/
    ((forall r sym sec, attached o g k r -> ~ data_ref o r sym sec) /\ (forall r, attached o g k r -> ~ kernel_ref o r))).
  { destruct (find (fun r => r_offset r =? f_secoff g + 8 * Z.of_nat k) (ob_relocs o (f_sec g))) as [r|] eqn:F.
    - apply find_some in F as (F1 & F2). apply Z.eqb_eq in F2. assert (A : attached o g k r) by (split; assumption).
      destruct (ob_syms o (r_sym r)) as [sym|] eqn:Es.
      + destruct (is_extern sym) eqn:Ex; [left; exists r; split; [exact A|exists sym; auto]|right].
        destruct (s_section sym) as [sec|] eqn:Ec; [destruct (text sec) eqn:Tx|].
        * right. split; [intros r0 sym' sec' A0 (D1 & D2 & D3)|intros r0 A0 (sym' & K1 & K2)]; rewrite (attached_one g k r r0 A A0) in *; [apply D3; apply (wf_text _ _ _ WF); congruence|congruence].
        * left. exists r, sym, sec. split; [exact A|]. split; [exact Es|]. split; [exact Ec|]. intros X. apply (wf_text _ _ _ WF) in X. congruence.
        * right. split; [intros r0 sym' sec' A0 (D1 & D2 & D3)|intros r0 A0 (sym' & K1 & K2)]; rewrite (attached_one g k r r0 A A0) in *; congruence.
      + right. right. split; [intros r0 sym' sec' A0 (D1 & D2 & D3)|intros r0 A0 (sym' & K1 & K2)]; rewrite (attached_one g k r r0 A A0) in *; congruence.
    - right. right. split; [intros r0 sym' sec' (A1 & A2) _|intros r0 (A1 & A2) _]; pose proof (find_none _ _ F r0 A1) as X; cbn in X; rewrite A2, Z.eqb_refl in X; discriminate X. }
  destruct KR as [(r & A & K)|[(r & sym & sec & A & D)|(ND & NK)]].
  - destruct (pr_kernel _ _ _ PR g k x r Hg Hx A K) as (e & Ke & [(C & W)|(C & W)]).
    + destruct (x_resolved e) eqn:R.
      * destruct (x_btf_id e) as [id|] eqn:B; [exists (OKfunc id); eapply me_kfunc; eassumption|destruct W as [(_ & W)|(W & _)]; congruence].
      * exists OTrap. eapply me_absent; eassumption.
    + destruct (x_btf_id e) as [id|] eqn:B; [eexists; eapply me_typed; eassumption|]. destruct (x_addr e) as [a|] eqn:V; [eexists; eapply me_addr; eassumption|eexists; eapply me_null; eassumption].
  - destruct (pr_data _ _ _ PR g k x r sym sec Hg Hx A D) as (m & N). destruct (m_data_empty m) eqn:E; [eexists; eapply me_map; eassumption|eexists; eapply me_var; eassumption].
  - destruct (target (code_of o text) g k x) as [[(sec, a)|e]|] eqn:TG.
    + apply target_names in TG. assert (R : code_ref o text g k x sec a) by (split; assumption).
      destruct (proj2 (pr_code _ _ _ PR p f0 g k x Hp Hentry (seg_kind s g I) Hx) sec a R) as (h & Ih & <- & <-).
      destruct (ti_refs _ _ _ T k x _ _ Hx R) as [P|C]; [exists (OCall h); eapply me_call; eassumption|eexists; eapply me_func; eassumption].
    + exfalso. destruct (text_reloc (code_of o text) g k) as [(r, sym)|] eqn:E; [|unfold target in TG; rewrite E in TG; destruct (insn_is_call x); discriminate TG].
      apply text_reloc_spec in E. destruct (proj1 (pr_code _ _ _ PR p f0 g k x Hp Hentry (seg_kind s g I) Hx) r sym E) as (sec & a & (_ & Z)). apply target_names in Z. congruence.
    + assert (NR : no_refs o text g k x). { split; [exact ND|]. split; [exact NK|]. intros sec a (_ & Z). apply target_names in Z. congruence. }
      destruct (Z.eq_dec (code x) LDDW_CODE) as [C|C].
      * destruct (wf_pairs _ _ _ WF g k x Hg Hx C) as (z & Hz & _). eexists. eapply me_const; eassumption.
      * eexists. apply (me_plain o text maps probe place g k x Hx NR C NH).
Qed.

(** * Runs *)
Inductive frames : list (func * nat * m_state M) -> list (nat * m_state M) -> Prop :=
| fr_nil : frames [] []
| fr_cons s g k st l l' : In (s, g) segs -> frames l l' -> frames ((g, k, st) :: l) (((s + k)%nat, st) :: l').
Definition same (c : oconf M) (d : kconf M) : Prop :=
  exists s, In (s, o_fun c) segs /\ k_pc d = (s + o_at c)%nat /\ frames (o_stack c) (k_stack d) /\ o_state c = k_state d.
Definition same_outcome (a : outcome M (oconf M)) (b : outcome M (kconf M)) : Prop :=
  match a, b with At c, At d => same c d | Done s, Done s' => s = s' | Fault, Fault => True | _, _ => False end.

Lemma step_same c d r : same c d -> ostep M o text maps probe place c r -> r <> Escape -> same_outcome r (kstep M out d).
Proof.
  intros (s & I & E & F & S) H NE. unfold kstep. rewrite E, <- S.
  destruct H as [_|q e st' Hm Hq B|q e st' Hm Hq B|q g Hm Hq|q f k st' l Hm Hq L|q Hm Hq L|q Hm Hq]; try (destruct (NE eq_refl)); pose proof (step_alike s (o_fun c) (o_at c) q (o_state c) I Hm) as A; rewrite Hq in A.
  - destruct (perform M (decode out (s + o_at c)) (o_state c)) as [e' s'|t| |]; cbn [alike] in A; try contradiction. destruct A as (<- & <-).
    destruct (Z.ltb_spec (Z.of_nat (s + o_at c) + e) 0) as [X|X]; [lia|]. cbn [same_outcome]. exists s. cbn [o_fun o_at o_stack o_state k_pc k_stack k_state]. split; [exact I|]. split; [lia|]. auto.
  - destruct (perform M (decode out (s + o_at c)) (o_state c)) as [e' s'|t| |]; cbn [alike] in A; try contradiction. cbn [same_outcome]. exists t. cbn [o_fun o_at o_stack o_state k_pc k_stack k_state].
    split; [exact (seg_tl t g A)|]. split; [lia|]. split; [|reflexivity]. rewrite plus_n_Sm. constructor; assumption.
  - destruct (perform M (decode out (s + o_at c)) (o_state c)) as [e' s'|t| |]; cbn [alike] in A; try contradiction. rewrite L in F. inversion F as [|s0 g k0 st l0 l' I0 F0]; subst. cbn [same_outcome].
    exists s0. cbn [o_fun o_at o_stack o_state k_pc k_stack k_state]. split; [exact I0|]. split; [lia|]. auto.
  - destruct (perform M (decode out (s + o_at c)) (o_state c)) as [e' s'|t| |]; cbn [alike] in A; try contradiction. rewrite L in F. inversion F; subst. reflexivity.
  - destruct (perform M (decode out (s + o_at c)) (o_state c)) as [e' s'|t| |]; cbn [alike] in A; try contradiction. exact Logic.I.
Qed.
Lemma runs_same n : forall c d r, same c d -> oruns M o text maps probe place n c r -> r <> Escape -> same_outcome r (kruns M out n d).
Proof.
  induction n as [|n IH]; intros c d r S H NE; inversion H as [c0|n0 c0 c1 r0 H1 H2|n0 c0 r0 H1 H2]; subst; cbn [kruns].
  - exact S.
  - pose proof (step_same c d (At c1) S H1 ltac:(discriminate)) as X. destruct (kstep M out d) as [d1| | |]; cbn [same_outcome] in X; try contradiction. exact (IH c1 d1 r X H2 NE).
  - pose proof (step_same c d r S H1 NE) as X. destruct r as [c1| | |]; [destruct (H2 c1 eq_refl)| | |destruct (NE eq_refl)]; destruct (kstep M out d); cbn [same_outcome] in X; try contradiction; exact X.
Qed.
Lemma step_total c d : same c d -> exists r, ostep M o text maps probe place c r.
Proof.
  intros (s & I & E & F & S). destruct (nth_error (f_ins (o_fun c)) (o_at c)) as [x|] eqn:Hx; [|exists Escape; now constructor].
  destruct (means_total s (o_fun c) (o_at c) x I Hx) as (q & Hm). destruct (perform M q (o_state c)) as [e st|g| |] eqn:Hq.
  - destruct (Z.le_decidable 0 (Z.of_nat (o_at c) + e)) as [A|A]; [destruct (Z.lt_decidable (Z.of_nat (o_at c) + e) (Z.of_nat (length (f_ins (o_fun c))))) as [B|B]|].
    + eexists. eapply os_go; [exact Hm|exact Hq|lia].
    + exists Escape. eapply os_out; [exact Hm|exact Hq|lia].
    + exists Escape. eapply os_out; [exact Hm|exact Hq|lia].
  - eexists. eapply os_call; eassumption.
  - destruct (o_stack c) as [|[[f k] st] l] eqn:L; eexists; [eapply os_done; eassumption|eapply os_return; eassumption].
  - eexists. eapply os_bad; eassumption.
Qed.
Lemma runs_total n : forall c d, same c d -> exists r, oruns M o text maps probe place n c r.
Proof.
  induction n as [|n IH]; intros c d S; [eexists; constructor|]. destruct (step_total c d S) as (r & H). destruct r as [c1| s | |].
  - pose proof (step_same c d (At c1) S H ltac:(discriminate)) as X. destruct (kstep M out d) as [d1| | |]; cbn [same_outcome] in X; try contradiction.
    destruct (IH c1 d1 X) as (r & H2). exists r. econstructor; eassumption.
  - exists (Done s). apply or_end; [exact H|discriminate].
  - exists Fault. apply or_end; [exact H|discriminate].
  - exists Escape. apply or_end; [exact H|discriminate].
Qed.
Lemma same_seen r r' : same_outcome r r' -> seen k_state r' = seen o_state r.
Proof. destruct r, r'; cbn [same_outcome seen]; try contradiction; [intros (s & _ & _ & _ & E); congruence|congruence|reflexivity]. Qed.
Lemma seg_agrees t g : In (t, g) segs -> agrees M o text maps probe place out g t.
Proof.
  intros I s n. assert (S : same (Build_oconf g 0 [] s) (Build_kconf t [] s)) by (exists t; cbn; split; [exact I|]; split; [lia|]; split; [constructor|reflexivity]).
  split; [exact (runs_total n _ _ S)|]. intros r H NE. apply same_seen. exact (runs_same n _ _ r S H NE).
Qed.
Lemma placed_in g : needs o text f0 g -> exists t, In (t, g) (tl segs) /\ place g = t.
Proof.
  intros N. apply HN in N. apply in_map_iff in N as ([t g'] & E & I). cbn [snd] in E. subst g'. exists t. split; [exact I|exact (placed t g I)].
Qed.
Lemma behaves_segs : behaves M o text maps probe f0 out.
Proof.
  destruct H0 as (r & E). assert (TR : tiles (length (f_ins f0)) r (length out)) by (rewrite E in HT; cbn in HT; apply HT).
  assert (TL : tl segs = r) by now rewrite E. exists place. split; [|split; [|split]].
  - intros g N. destruct (placed_in g N) as (t & I & ->). rewrite TL in I. exact (tiles_in _ _ _ TR t g I).
  - intros g h Ng Nh D. destruct (placed_in g Ng) as (t & I & ->), (placed_in h Nh) as (t' & I' & ->). rewrite TL in I, I'. exact (tiles_apart _ _ _ TR t g t' h I I' D).
  - apply seg_agrees. rewrite E. now left.
  - intros g N. destruct (placed_in g N) as (t & I & ->). exact (seg_agrees t g (seg_tl t g I)).
Qed.
End R.

Lemma complete_behaves M o maps probe p f out : well_formed o (is_code o) maps -> present o (is_code o) maps -> one_map o maps -> few_helpers M ->
  In p (ob_progs o) -> entry_of o p f -> (forall g, g = f \/ needs o (is_code o) f g -> tidy o (is_code o) g) ->
  complete o (is_code o) maps probe f out -> behaves M o (is_code o) maps probe f out.
Proof.
  intros WF PR OM FH Ip E T (segs & S0 & ST & SN & SD & SC). exact (behaves_segs M o maps probe WF PR OM FH p f out segs Ip E S0 SN ST SD SC T).
Qed.
