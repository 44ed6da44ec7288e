(** Proofs: the phases of relocation, function by function. *)
From Verif Require Import Base Insn PatchModel PatchSpec PatchProofs PatchProofs2 LinkModel LinkSpec LinkProofs LinkProofs2 ObjModel ObjSpec ObjProofs4 WholeModel WholeSpec.
Local Open Scope Z_scope.

Lemma find_key (rs : list reloc) off r : NoDup (map r_offset rs) ->
  (find (fun r => r_offset r =? off) rs = Some r <-> In r rs /\ r_offset r = off).
Proof.
  intros ND. split.
  - intros H. apply find_some in H. destruct H as [H1 H2]. split; [exact H1|lia].
  - intros [H1 H2]. induction rs as [|q rs IH]; [destruct H1|]. cbn [find]. cbn [map] in ND. inversion ND as [|? ? N1 N2]; subst.
    destruct (Z.eqb_spec (r_offset q) (r_offset r)) as [E|E].
    + destruct H1 as [->|H1]; [reflexivity|]. exfalso. apply N1. rewrite E. now apply in_map.
    + destruct H1 as [->|H1]; [now elim E|]. now apply IH.
Qed.

Lemma kernel_not_data o r sym sec : kernel_ref o r -> data_ref o r sym sec -> False.
Proof.
  intros (y & Y1 & Y2) (D1 & D2 & _). assert (y = sym) by congruence. subst y. unfold is_extern in Y2. rewrite D2 in Y2. cbn in Y2. discriminate Y2.
Qed.

Lemma call_code x : insn_is_call x = true -> code x <> LDDW_CODE /\ code x <> 0 /\ src x = 1.
Proof.
  unfold insn_is_call, BPF_PSEUDO_CALL, LDDW_CODE. intros H. repeat split; try lia; intros E; rewrite E in H; cbn in H; discriminate H.
Qed.

Section W.
Variables (o : object) (text : nat -> bool) (maps : list mapinfo).
Hypothesis WF : well_formed o text maps.

Lemma keys_eq f g : In f (ob_funs o) -> In g (ob_funs o) -> f_sec f = f_sec g -> f_addr f = f_addr g -> f = g.
Proof.
  intros Hf Hg E1 E2. pose proof (wf_keys _ _ _ WF) as ND. induction (ob_funs o) as [|h l IH]; [destruct Hf|].
  cbn [map] in ND. inversion ND as [|? ? N1 N2]; subst.
  destruct Hf as [->|Hf], Hg as [->|Hg]; auto.
  - exfalso. apply N1. rewrite E1, E2. apply (in_map (fun f => (f_sec f, f_addr f)) l g Hg).
  - exfalso. apply N1. rewrite <- E1, <- E2. apply (in_map (fun f => (f_sec f, f_addr f)) l f Hf).
Qed.

Lemma attached_one f k r r' : attached o f k r -> attached o f k r' -> r = r'.
Proof.
  intros [A1 A2] [B1 B2].
  pose proof (proj2 (find_key _ (r_offset r) r (wf_once _ _ _ WF (f_sec f))) (conj A1 eq_refl)) as F1.
  pose proof (proj2 (find_key _ (r_offset r) r' (wf_once _ _ _ WF (f_sec f))) (conj B1 (eq_trans B2 (eq_sym A2)))) as F2. congruence.
Qed.

Lemma attached_find f k r : In f (ob_funs o) -> (k < length (f_ins f))%nat ->
  (reloc_at o (f_sec f) (u64 (f_secoff f + 8 * Z.of_nat k)) = Some r <-> attached o f k r).
Proof.
  intros Hf Hk. destruct (wf_place _ _ _ WF f Hf) as [P1 P2].
  assert (E : u64 (f_secoff f + 8 * Z.of_nat k) = f_secoff f + 8 * Z.of_nat k) by (unfold u64, wrap; apply Z.mod_small; lia).
  rewrite E. unfold reloc_at. rewrite (find_key _ _ _ (wf_once _ _ _ WF (f_sec f))). reflexivity.
Qed.

Lemma data_text r sym sec : data_ref o r sym sec <-> (ob_syms o (r_sym r) = Some sym /\ s_section sym = Some sec /\ text sec = false).
Proof.
  unfold data_ref. pose proof (wf_text _ _ _ WF sec) as T.
  destruct (text sec) eqn:E; split; intros (A & B & C); repeat split; auto.
  - exfalso. apply C. now apply T.
  - discriminate C.
  - intros X. apply T in X. discriminate X.
Qed.

(** What is at an instruction. *)
Definition is_data f k := exists r sym sec, attached o f k r /\ data_ref o r sym sec.
Definition is_kernel f k := exists r, attached o f k r /\ kernel_ref o r.
Definition is_second f k := exists j w, k = S j /\ nth_error (f_ins f) j = Some w /\ code w = LDDW_CODE /\ (is_data f j \/ is_kernel f j).

Lemma decide_at f k : In f (ob_funs o) -> (k < length (f_ins f))%nat -> is_data f k \/ is_kernel f k \/ (~ is_data f k /\ ~ is_kernel f k).
Proof.
  intros Hf Hk. pose proof (fun r => attached_find f k r Hf Hk) as AF.
  destruct (reloc_at o (f_sec f) (u64 (f_secoff f + 8 * Z.of_nat k))) as [r|].
  2:{ right. right. split.
      - intros (r & ? & ? & A & _). apply AF in A. discriminate A.
      - intros (r & A & _). apply AF in A. discriminate A. }
  assert (A : attached o f k r) by (apply AF; reflexivity).
  destruct (ob_syms o (r_sym r)) as [sym|] eqn:Es.
  2:{ right. right. split.
      - intros (r' & ? & ? & A' & D & _). pose proof (attached_one _ _ _ _ A A'). congruence.
      - intros (r' & A' & y & Y & _). pose proof (attached_one _ _ _ _ A A'). congruence. }
  destruct (is_extern sym) eqn:Ee.
  { right. left. exists r. split; [exact A|]. now exists sym. }
  destruct (s_section sym) as [sec|] eqn:Esec.
  - destruct (text sec) eqn:Et.
    + right. right. split.
      * intros (r' & y & sec' & A' & D). pose proof (attached_one _ _ _ _ A A'). apply data_text in D. destruct D as (D1 & D2 & D3). congruence.
      * intros (r' & A' & y & Y & Y2). pose proof (attached_one _ _ _ _ A A'). congruence.
    + left. exists r, sym, sec. split; [exact A|]. apply data_text. auto.
  - right. right. split.
    + intros (r' & y & sec' & A' & D1 & D2 & _). pose proof (attached_one _ _ _ _ A A'). congruence.
    + intros (r' & A' & y & Y & Y2). pose proof (attached_one _ _ _ _ A A'). congruence.
Qed.

Lemma decide_second f k : In f (ob_funs o) -> (k < length (f_ins f))%nat -> is_second f k \/ ~ is_second f k.
Proof.
  intros Hf Hk. destruct k as [|j]; [right; intros (? & ? & X & _); discriminate X|].
  destruct (nth_error (f_ins f) j) as [w|] eqn:Ew.
  2:{ right. intros (j' & w & E & W & _). injection E as <-. congruence. }
  destruct (Z.eq_dec (code w) LDDW_CODE) as [C|C].
  2:{ right. intros (j' & w' & E & W & C' & _). injection E as <-. congruence. }
  destruct (decide_at f j Hf) as [D|[D|[D1 D2]]]; [lia| | |].
  - left. exists j, w. auto.
  - left. exists j, w. auto.
  - right. intros (j' & w' & E & W & C' & [D|D]); injection E as <-; auto.
Qed.

Lemma second_nothing f k : In f (ob_funs o) -> is_second f k -> (forall r, ~ attached o f k r) /\ forall x, nth_error (f_ins f) k = Some x -> code x = 0.
Proof.
  intros Hf (j & w & -> & W & C & _). destruct (wf_pairs _ _ _ WF f j w Hf W C) as (z & Z1 & Z2 & Z3). split; [exact Z3|]. intros x X. congruence.
Qed.

(** The two patching phases on one function. *)
Section F.
Variables (f : func) (ins1 ins2 : list insn).
Hypothesis Hf : In f (ob_funs o).
Let rs := ob_relocs o (f_sec f).
Hypothesis HM : relocate_maps (f_secoff f) maps (ob_syms o) text rs (f_ins f) = Ok ins1.
Hypothesis HX : match ob_externs o with
                | None => ins2 = ins1
                | Some xs => patch_externs (f_secoff f) xs (ob_syms o) rs ins1 = Ok ins2
                end.

Lemma sits k r : (k < length (f_ins f))%nat -> (sits_on (f_secoff f) (length (f_ins f)) r k /\ In r rs <-> attached o f k r).
Proof. intros Hk. unfold sits_on, attached, rs. intuition lia. Qed.

Lemma table_ok : map_table_ok maps (ob_syms o) text rs.
Proof.
  split; [apply (wf_once _ _ _ WF)|]. intros r r' sym sec m R1 R2 S1 S2 S3 _ _.
  apply (wf_next _ _ _ WF (f_sec f) r r' sym sec R1 R2). apply data_text. auto.
Qed.

Lemma len1 : length ins1 = length (f_ins f).
Proof. exact (proj1 (map_run _ _ _ _ _ _ _ table_ok HM)). Qed.

Lemma data1 k x r sym sec : nth_error (f_ins f) k = Some x -> attached o f k r -> data_ref o r sym sec ->
  exists m z, names_map maps (r_sym r) sec m /\ nth_error (f_ins f) (S k) = Some z /\
    nth_error ins1 k = Some {| code := code x; dst := dst x; off := off x; imm := m_fd m; src := if m_data_empty m then 1 else 2 |} /\
    nth_error ins1 (S k) = Some (if m_data_empty m then z else set_imm (i32 (imm x + i32 (s_address sym))) z).
Proof.
  intros Hx Ha Hd. assert (Hk : (k < length (f_ins f))%nat) by (apply nth_error_Some; congruence).
  pose proof (wf_loads _ _ _ WF f k x r sym sec Hf Ha Hd Hx) as Hc.
  destruct (wf_pairs _ _ _ WF f k x Hf Hx Hc) as (z & Z1 & Z2 & Z3).
  pose proof (proj2 (sits k r Hk) Ha) as [Hs Hr]. pose proof Hd as Hd'. apply data_text in Hd'. destruct Hd' as (R1 & R2 & R3).
  assert (R4 : insn_is_call x = false) by (destruct (insn_is_call x) eqn:E; [apply call_code in E; now destruct E|reflexivity]).
  destruct (map_run _ _ _ _ _ _ _ table_ok HM) as (L & HF & HP). destruct (HP r Hr) as (lr & E & Ej).
  assert (Hl : locate (f_secoff f) (length (f_ins f)) r = At k) by now apply locate_at.
  unfold map_reloc_step in E. rewrite Hl, R1, R2, Hx, R4, R3 in E. cbn [orb] in E.
  fold (lookup_map maps r sec) in E. destruct (lookup_map maps r sec) as [m|] eqn:El; [|discriminate E].
  assert (T0 : map_touch (f_secoff f) maps (ob_syms o) text (length (f_ins f)) r k = true).
  { unfold map_touch. rewrite Hl, Nat.eqb_refl. reflexivity. }
  assert (T1 : map_touch (f_secoff f) maps (ob_syms o) text (length (f_ins f)) r (S k) = negb (m_data_empty m)).
  { unfold map_touch, wide. rewrite Hl, R1, R2, R3, El. cbn [negb andb]. rewrite Nat.eqb_refl.
    destruct (Nat.eqb_spec (S k) k); [lia|]. cbn [orb]. apply andb_true_r. }
  assert (HSk : (S k < length (f_ins f))%nat) by (apply nth_error_Some; congruence).
  exists m, z. split; [now apply lookup_named|]. split; [exact Z1|].
  destruct (m_data_empty m) eqn:Ed; cbn [negb] in T1.
  - apply ok_inj in E. subst lr. split.
    + rewrite (Ej k T0). rewrite nth_error_upd_eq by exact Hk. reflexivity.
    + rewrite <- Z1. apply HF. intros r' Hr'. destruct (map_touch _ _ _ _ _ r' (S k)) eqn:T; [|reflexivity]. exfalso.
      assert (T' := T). unfold map_touch in T. destruct (locate (f_secoff f) (length (f_ins f)) r') as [| |i] eqn:Hl'; [discriminate T|discriminate T|].
      pose proof (proj1 (locate_at _ _ _ _) Hl') as [L1 L2].
      destruct (Nat.eqb_spec (S k) i) as [<-|Hne].
      * apply (Z3 r'). split; [exact Hr'|exact L2].
      * cbn [orb] in T. apply andb_true_iff in T. destruct T as [_ T]. apply Nat.eqb_eq in T. injection T as <-.
        assert (r' = r) by (apply (attached_one f k); [split; [exact Hr'|exact L2]|exact Ha]). subst r'. congruence.
  - rewrite Z1 in E. apply ok_inj in E. subst lr. split.
    + rewrite (Ej k T0). rewrite nth_error_upd_eq by (rewrite upd_length; exact Hk). reflexivity.
    + rewrite (Ej (S k) T1). rewrite (nth_error_upd_ne k (S k)) by lia. now rewrite nth_error_upd_eq.
Qed.

Lemma other1 k : (k < length (f_ins f))%nat -> ~ is_data f k -> ~ is_second f k -> nth_error ins1 k = nth_error (f_ins f) k.
Proof.
  intros Hk N1 N2. apply (map_untouched _ _ _ _ _ _ _ _ table_ok HM).
  - intros r x sym sec R1 R2 X (Q1 & Q2 & Q3 & _). apply N1. exists r, sym, sec. split; [apply sits; [exact Hk|now split]|]. apply data_text. auto.
  - intros r i x sym sec m R1 -> R2 X (Q1 & Q2 & Q3 & _) _. exfalso. apply N2. exists i, x.
    assert (A : attached o f i r) by (apply sits; [apply R2|now split]).
    assert (D : data_ref o r sym sec) by (apply data_text; auto).
    split; [reflexivity|]. split; [exact X|]. split; [exact (wf_loads _ _ _ WF f i x r sym sec Hf A D X)|]. left. now exists r, sym, sec.
Qed.

(** Away from references to data nothing has changed. *)
Lemma kernel1 k : (k < length (f_ins f))%nat -> is_kernel f k -> nth_error ins1 k = nth_error (f_ins f) k.
Proof.
  intros Hk (r & A & K). apply other1; [exact Hk| |].
  - intros (r' & sym & sec & A' & D). assert (r' = r) by exact (attached_one f k _ _ A' A). subst r'. exact (kernel_not_data o r sym sec K D).
  - intros S2. exact (proj1 (second_nothing f k Hf S2) r A).
Qed.

Lemma second1 j : (S j < length (f_ins f))%nat -> is_kernel f j -> ~ is_data f (S j) -> nth_error ins1 (S j) = nth_error (f_ins f) (S j).
Proof.
  intros Hk (r & A & K) N1. apply (map_untouched _ _ _ _ _ _ _ _ table_ok HM).
  - intros r' x' sym sec R1 R2 X (Q1 & Q2 & Q3 & _). apply N1. exists r', sym, sec. split; [apply sits; [exact Hk|now split]|]. apply data_text. auto.
  - intros r' i x' sym sec m R1 Ei R2 X (Q1 & Q2 & Q3 & _) _. exfalso. injection Ei as <-.
    assert (A' : attached o f j r') by (apply sits; [apply R2|now split]).
    assert (r' = r) by exact (attached_one f j _ _ A' A). subst r'.
    apply (kernel_not_data o r sym sec K). apply data_text. auto.
Qed.

Lemma code1 k x1 : nth_error ins1 k = Some x1 -> exists x, nth_error (f_ins f) k = Some x /\ code x1 = code x.
Proof.
  intros H. assert (Hk : (k < length (f_ins f))%nat) by (rewrite <- len1; apply nth_error_Some; congruence).
  destruct (nth_error (f_ins f) k) as [x|] eqn:Ex; [|apply nth_error_None in Ex; lia]. exists x. split; [reflexivity|].
  destruct (decide_at f k Hf Hk) as [(r & sym & sec & A & D)|[K|[N1 N2]]].
  - destruct (data1 k x r sym sec Ex A D) as (m & z & _ & _ & E & _). rewrite E in H. apply some_inj in H. subst x1. reflexivity.
  - rewrite (kernel1 k Hk K), Ex in H. congruence.
  - destruct (decide_second f k Hf Hk) as [(j & w & -> & W & C & [(r & sym & sec & A & D)|K])|N3].
    + destruct (data1 j w r sym sec W A D) as (m & z & _ & Z & _ & E). rewrite E in H. assert (z = x) by congruence. subst z.
      apply some_inj in H. subst x1. destruct (m_data_empty m); reflexivity.
    + rewrite (second1 j Hk K N1), Ex in H. congruence.
    + rewrite (other1 k Hk N1 N3), Ex in H. congruence.
Qed.

Lemma ext_ok : extern_table_ok (f_secoff f) (ob_syms o) ins1 rs.
Proof.
  split; [apply (wf_once _ _ _ WF)|]. intros r r' i x R1 R2 S1 X C (sym & Y1 & Y2) E.
  destruct (code1 i x X) as (x0 & X0 & C0). rewrite C0 in C. destruct (wf_pairs _ _ _ WF f i x0 Hf X0 C) as (z & _ & _ & Z3).
  apply (Z3 r'). destruct S1 as [S1 S2]. split; [exact R2|]. rewrite E, S2. lia.
Qed.

Lemma len2 : length ins2 = length (f_ins f).
Proof.
  rewrite <- len1. destruct (ob_externs o) as [xs|]; [|now rewrite HX]. exact (proj1 (ext_run _ _ _ _ _ _ ext_ok HX)).
Qed.

Lemma sits1 k r : (k < length (f_ins f))%nat -> (sits_on (f_secoff f) (length ins1) r k /\ In r rs <-> attached o f k r).
Proof. rewrite len1. apply sits. Qed.

Lemma ext_ref xs r x : ob_externs o = Some xs -> (extern_reference (ob_syms o) xs r x <-> kernel_sym o r x).
Proof.
  intros E. split.
  - intros (sym & nm & ?). exists xs, sym, nm. auto.
  - intros (xs' & sym & nm & E' & ?). exists sym, nm. assert (xs' = xs) by congruence. now subst xs'.
Qed.
Lemma kernel_sym_ref r x : kernel_sym o r x -> kernel_ref o r.
Proof. intros (xs & sym & nm & _ & A & B & _). now exists sym. Qed.

Lemma ext_keeps k : (k < length (f_ins f))%nat -> ~ is_kernel f k ->
  (forall j w, k = S j -> nth_error (f_ins f) j = Some w -> code w = LDDW_CODE -> ~ is_kernel f j) -> nth_error ins2 k = nth_error ins1 k.
Proof.
  intros Hk N1 N2. destruct (ob_externs o) as [xs|] eqn:Exs; [|now rewrite HX]. apply (ext_untouched _ _ _ _ _ _ _ ext_ok HX).
  - intros r x R1 R2 K. apply N1. exists r. split; [apply sits1; [exact Hk|now split]|]. apply (ext_ref xs r x Exs) in K. exact (kernel_sym_ref r x K).
  - intros r i y x R1 -> R2 Y K. destruct (Z.eq_dec (code y) CALL_CODE) as [C|C]; [exact C|exfalso].
    destruct (ext_load _ _ _ _ _ _ _ _ _ _ ext_ok HX R1 R2 Y K C) as (C2 & _).
    destruct (code1 i y Y) as (w & W & Cw). rewrite Cw in C2. apply (N2 i w eq_refl W C2).
    exists r. split; [apply sits1; [rewrite <- len1; apply R2|now split]|]. apply (ext_ref xs r x Exs) in K. exact (kernel_sym_ref r x K).
Qed.

Lemma data2 k x r sym sec : nth_error (f_ins f) k = Some x -> attached o f k r -> data_ref o r sym sec ->
  exists m z, names_map maps (r_sym r) sec m /\ nth_error (f_ins f) (S k) = Some z /\
    nth_error ins2 k = Some {| code := code x; dst := dst x; off := off x; imm := m_fd m; src := if m_data_empty m then 1 else 2 |} /\
    nth_error ins2 (S k) = Some (if m_data_empty m then z else set_imm (i32 (imm x + i32 (s_address sym))) z).
Proof.
  intros Hx Ha Hd. destruct (data1 k x r sym sec Hx Ha Hd) as (m & z & M & Z & E1 & E2). exists m, z. split; [exact M|]. split; [exact Z|].
  assert (NK : ~ is_kernel f k).
  { intros (r' & A' & K). assert (r' = r) by exact (attached_one f k _ _ A' Ha). subst r'. exact (kernel_not_data o r sym sec K Hd). }
  pose proof (wf_loads _ _ _ WF f k x r sym sec Hf Ha Hd Hx) as Hc.
  destruct (wf_pairs _ _ _ WF f k x Hf Hx Hc) as (z' & Z1 & _ & Z3).
  assert (Hk : (k < length (f_ins f))%nat) by (apply nth_error_Some; congruence).
  assert (HSk : (S k < length (f_ins f))%nat) by (apply nth_error_Some; congruence).
  split; [rewrite <- E1|rewrite <- E2]; apply ext_keeps; auto.
  - intros j w -> W C _. destruct (wf_pairs _ _ _ WF f j w Hf W C) as (_ & _ & _ & Q). exact (Q r Ha).
  - intros (r' & A' & _). exact (Z3 r' A').
  - intros j w E _ _. injection E as <-. exact NK.
Qed.

Lemma kcall2 k x r e : nth_error (f_ins f) k = Some x -> attached o f k r -> kernel_sym o r e -> code x = CALL_CODE ->
  (x_resolved e = true /\ exists id, x_btf_id e = Some id /\
     nth_error ins2 k = Some {| code := CALL_CODE; dst := dst x; src := 2; off := 0; imm := i32 id |}) \/
  (x_resolved e = false /\ x_weak e = true /\ nth_error ins2 k = Some (poison_kfunc_call (r_sym r))).
Proof.
  intros Hx Ha K C. assert (Hk : (k < length (f_ins f))%nat) by (apply nth_error_Some; congruence).
  assert (X1 : nth_error ins1 k = Some x) by (rewrite kernel1; [exact Hx|exact Hk|exists r; split; [exact Ha|exact (kernel_sym_ref r e K)]]).
  destruct (proj2 (sits1 k r Hk) Ha) as [S1 R1].
  destruct (ob_externs o) as [xs|] eqn:Exs; [|destruct K as (xs & _ & _ & E & _); congruence].
  apply (ext_ref xs r e Exs) in K. exact (ext_call _ _ _ _ _ _ _ _ _ _ ext_ok HX R1 S1 X1 K C).
Qed.

Lemma kload2 k x r e : nth_error (f_ins f) k = Some x -> attached o f k r -> kernel_sym o r e -> code x <> CALL_CODE ->
  code x = LDDW_CODE /\
  exists z lo hi, nth_error (f_ins f) (S k) = Some z /\ nth_error ins2 k = Some lo /\ nth_error ins2 (S k) = Some hi /\
    hi = set_imm (imm hi) z /\ lo = set_src (src lo) (set_imm (imm lo) x) /\
    ((exists id, x_btf_id e = Some id /\ src lo = 3 /\ imm lo = i32 id /\ imm hi = 0)
     \/ (exists a, x_btf_id e = None /\ x_addr e = Some a /\ src lo = 0 /\ (0 <= a < 2 ^ 64 -> lddw_value lo hi = a))
     \/ (x_btf_id e = None /\ x_addr e = None /\ x_weak e = true /\ src lo = 0 /\ lddw_value lo hi = 0)).
Proof.
  intros Hx Ha K C. assert (Hk : (k < length (f_ins f))%nat) by (apply nth_error_Some; congruence).
  assert (IK : is_kernel f k) by (exists r; split; [exact Ha|exact (kernel_sym_ref r e K)]).
  assert (X1 : nth_error ins1 k = Some x) by (rewrite kernel1; [exact Hx|exact Hk|exact IK]).
  destruct (proj2 (sits1 k r Hk) Ha) as [S1 R1].
  destruct (ob_externs o) as [xs|] eqn:Exs; [|destruct K as (xs & _ & _ & E & _); congruence].
  apply (ext_ref xs r e Exs) in K.
  destruct (ext_load _ _ _ _ _ _ _ _ _ _ ext_ok HX R1 S1 X1 K C) as (C2 & z & lo & hi & Z & R). split; [exact C2|].
  exists z, lo, hi. split; [|exact R].
  destruct (wf_pairs _ _ _ WF f k x Hf Hx C2) as (z' & Z1 & _ & Z3). rewrite <- Z. symmetry. apply second1; [apply nth_error_Some; congruence|exact IK|].
  intros (r' & ? & ? & A' & _). exact (Z3 r' A').
Qed.

Lemma other2 k : (k < length (f_ins f))%nat -> ~ is_data f k -> ~ is_kernel f k -> ~ is_second f k -> nth_error ins2 k = nth_error (f_ins f) k.
Proof.
  intros Hk N1 N2 N3. rewrite ext_keeps; [now apply other1|exact Hk|exact N2|]. intros j w -> W C K. apply N3. exists j, w. auto.
Qed.

(** In objects with BTF every reference to the kernel is known. *)
Lemma kernel_is k x r : ob_externs o <> None -> nth_error (f_ins f) k = Some x -> attached o f k r -> kernel_ref o r -> exists e, kernel_sym o r e.
Proof.
  intros HB Hx Ha (sym & Y1 & Y2). destruct (ob_externs o) as [xs|] eqn:Exs; [|now elim HB].
  assert (Hk : (k < length (f_ins f))%nat) by (apply nth_error_Some; congruence).
  destruct (proj2 (sits1 k r Hk) Ha) as [S1 R1].
  destruct (ext_run _ _ _ _ _ _ ext_ok HX) as (_ & _ & HP). destruct (HP r R1) as (lr & E & _). unfold extern_step in E.
  assert (Hl : locate (f_secoff f) (length ins1) r = At k) by now apply locate_at. rewrite Hl, Y1, Y2 in E. cbn [negb] in E.
  destruct (s_name sym) as [nm|] eqn:En; [|discriminate E]. destruct (xs nm) as [e|] eqn:Ee; [|discriminate E].
  exists e, xs, sym, nm. auto.
Qed.

Lemma second2 k x y : is_second f k -> ob_externs o <> None \/ ~ (exists j, k = S j /\ is_kernel f j) -> nth_error (f_ins f) k = Some x -> nth_error ins2 k = Some y -> code y = 0.
Proof.
  intros S2 HB Hx Hy. pose proof (proj2 (second_nothing f k Hf S2) x Hx) as Cx.
  destruct S2 as (j & w & -> & W & C & [(r & sym & sec & A & D)|(r & A & K)]).
  - destruct (data2 j w r sym sec W A D) as (m & z & _ & Z & _ & E). assert (z = x) by congruence. subst z. rewrite E in Hy. apply some_inj in Hy. subst y.
    destruct (m_data_empty m); exact Cx.
  - destruct HB as [HB|HB]; [|exfalso; apply HB; exists j; split; [reflexivity|now exists r]].
    destruct (kernel_is j w r HB W A K) as (e & Ke).
    destruct (kload2 j w r e W A Ke) as (_ & z & lo & hi & Z & _ & H2 & H3 & _); [unfold CALL_CODE, LDDW_CODE in *; lia|].
    assert (z = x) by congruence. subst z. assert (hi = y) by congruence. subst hi. rewrite H3. exact Cx.
Qed.
End F.
End W.
