From Verif Require Import Base Insn PatchModel.
Local Open Scope Z_scope.

(* ------------------------------------------------------------------ *)
(** Generic facts about running local patches one after the other. *)
Section Generic.
Context {R : Type}.
Variable stp : R -> list insn -> res perr (list insn).
Variable touch : R -> nat -> bool.
Variable l0 : list insn.

Definition agree (r : R) (l : list insn) : Prop :=
  length l = length l0 /\ forall j, touch r j = true -> nth_error l j = nth_error l0 j.

Hypothesis stp_local : forall r l, agree r l ->
  match stp r l with
  | Ok l' => length l' = length l /\
      (forall j, touch r j = false -> nth_error l' j = nth_error l j) /\
      exists l0', stp r l0 = Ok l0' /\ length l0' = length l0 /\ forall j, touch r j = true -> nth_error l' j = nth_error l0' j
  | Err e => stp r l0 = Err e
  end.

Definition disjoint (r r' : R) : Prop := forall j, touch r j = true -> touch r' j = true -> False.

Lemma run_spec rs : forall l l',
  ForallOrdPairs disjoint rs -> Forall (fun r => agree r l) rs -> length l = length l0 ->
  run_relocs stp rs l = Ok l' ->
  length l' = length l /\
  (forall j, (forall r, In r rs -> touch r j = false) -> nth_error l' j = nth_error l j) /\
  (forall r, In r rs -> exists lr, stp r l0 = Ok lr /\ forall j, touch r j = true -> nth_error l' j = nth_error lr j).
Proof.
  induction rs as [|r rs IH]; intros l l' HD HA HL H; cbn [run_relocs] in H.
  - inversion H; subst. split; [reflexivity|split; [auto|intros r []]].
  - destruct (stp r l) as [l1|e] eqn:E; [|discriminate].
    inversion HD as [|? ? HD1 HD2]; subst. inversion HA as [|? ? HA1 HA2]; subst.
    pose proof (stp_local r l HA1) as HS. rewrite E in HS. destruct HS as (S1 & S2 & l0' & S3 & S4 & S5).
    assert (Forall (fun r0 => agree r0 l1) rs) as HA'.
    { rewrite Forall_forall in *. intros q Hq. destruct (HA2 q Hq) as [Q1 Q2]. split; [congruence|].
      intros j Hj. rewrite S2; [auto|]. destruct (touch r j) eqn:Et; [|reflexivity].
      exfalso. exact (HD1 q Hq j Et Hj). }
    destruct (IH l1 l' HD2 HA' ltac:(congruence) H) as (I1 & I2 & I3).
    split; [congruence|]. split.
    + intros j Hj. rewrite I2, S2; [reflexivity|apply Hj; now left|intros q Hq; apply Hj; now right].
    + intros q [<-|Hq]; [|auto]. exists l0'. split; [exact S3|]. intros j Hj. rewrite I2; [auto|].
      intros q Hq. destruct (touch q j) eqn:Et; [|reflexivity]. exfalso.
      rewrite Forall_forall in HD1. exact (HD1 q Hq j Hj Et).
Qed.

Lemma run_ok rs : forall l,
  ForallOrdPairs disjoint rs -> Forall (fun r => agree r l) rs -> length l = length l0 ->
  (forall r, In r rs -> exists lr, stp r l0 = Ok lr) -> exists l', run_relocs stp rs l = Ok l'.
Proof.
  induction rs as [|r rs IH]; intros l HD HA HL H; cbn [run_relocs]; [eauto|].
  inversion HD as [|? ? HD1 HD2]; subst. inversion HA as [|? ? HA1 HA2]; subst.
  pose proof (stp_local r l HA1) as HS. destruct (stp r l) as [l1|e].
  - destruct HS as (S1 & S2 & _). apply IH; [exact HD2| |congruence|intros q Hq; apply H; now right].
    rewrite Forall_forall in *. intros q Hq. destruct (HA2 q Hq) as [Q1 Q2]. split; [congruence|].
    intros j Hj. rewrite S2; [auto|]. destruct (touch r j) eqn:Et; [|reflexivity].
    exfalso. exact (HD1 q Hq j Et Hj).
  - destruct (H r (or_introl eq_refl)) as [lr Hr]. congruence.
Qed.

Lemma disjoint_perm rs rs' : Permutation rs rs' -> ForallOrdPairs disjoint rs -> ForallOrdPairs disjoint rs'.
Proof.
  assert (Hsym : forall a b, disjoint a b -> disjoint b a) by (intros a b Hab j H1 H2; exact (Hab j H2 H1)).
  induction 1 as [|x l l' HP IH|x y l|l l' l'' HP1 IH1 HP2 IH2]; intros H; auto.
  - inversion H; subst. constructor; auto. now rewrite <- HP.
  - inversion H as [|? ? H1 H2]; subst. inversion H2 as [|? ? H3 H4]; subst. inversion H1; subst.
    repeat constructor; auto.
Qed.

(** The order in which a hash map is iterated does not matter. *)
Lemma run_perm rs rs' l' : Permutation rs rs' -> ForallOrdPairs disjoint rs ->
  run_relocs stp rs l0 = Ok l' -> run_relocs stp rs' l0 = Ok l'.
Proof.
  intros HP HD H.
  assert (HA : forall qs, Forall (fun r => agree r l0) qs).
  { intros qs. apply Forall_forall. intros q _. split; auto. }
  destruct (run_spec rs l0 l' HD (HA rs) eq_refl H) as (I1 & I2 & I3).
  pose proof (disjoint_perm rs rs' HP HD) as HD'.
  destruct (run_ok rs' l0 HD' (HA rs') eq_refl) as [l2 H2].
  { intros r Hr. apply Permutation_sym in HP. destruct (I3 r (Permutation_in r HP Hr)) as (lr & E & _). eauto. }
  destruct (run_spec rs' l0 l2 HD' (HA rs') eq_refl H2) as (J1 & J2 & J3).
  rewrite H2. f_equal. apply list_eq_nth_error. intros j.
  destruct (existsb (fun r => touch r j) rs) eqn:Ex.
  - apply existsb_exists in Ex. destruct Ex as (r & Hr & Ht).
    destruct (I3 r Hr) as (lr & E & Ej). destruct (J3 r (Permutation_in r HP Hr)) as (lr' & E' & Ej').
    rewrite Ej, Ej' by exact Ht. congruence.
  - assert (forall r, In r rs -> touch r j = false) as Hn.
    { intros r Hr. destruct (touch r j) eqn:Et; [|reflexivity]. rewrite <- Ex. symmetry. apply existsb_exists. eauto. }
    rewrite I2, J2; auto. intros r Hr. apply Hn. eapply Permutation_in; [apply Permutation_sym; exact HP|exact Hr].
Qed.
End Generic.

Lemma locate_at secoff n r i : locate secoff n r = At i <-> (i < n)%nat /\ r_offset r = secoff + 8 * Z.of_nat i.
Proof.
  unfold locate, INS_SIZE.
  destruct ((r_offset r <? secoff) || (secoff + Z.of_nat n * 8 <=? r_offset r)) eqn:E1;
  [|destruct ((r_offset r - secoff) mod 8 =? 0) eqn:E2]; split; try discriminate; try (intros [? ?]; exfalso; lia).
  - intros H; inversion H. lia.
  - intros [H1 H2]. f_equal. lia.
Qed.

(* ------------------------------------------------------------------ *)
(** Maps. *)
Section Maps.
Variables (secoff : Z) (maps : list mapinfo) (syms : symtab) (text : nat -> bool).

(** What a relocation refers to, in terms of the symbol table and the maps. *)
Definition lookup_map (r : reloc) (sec : nat) : option mapinfo :=
  match by_symbol maps (r_sym r) with Some m => Some m | None => by_section maps sec end.

(** The relocation needs the second slot of a 64-bit load. *)
Definition wide (r : reloc) : bool :=
  match syms (r_sym r) with
  | Some sym => match s_section sym with
      | Some sec => negb (text sec) &&
          match lookup_map r sec with Some m => negb (m_data_empty m) | None => false end
      | None => false
      end
  | None => false
  end.

Definition map_touch (n : nat) (r : reloc) (j : nat) : bool :=
  match locate secoff n r with
  | At i => Nat.eqb j i || (wide r && Nat.eqb j (S i))
  | _ => false
  end.

Lemma map_local l0 r l : agree (map_touch (length l0)) l0 r l ->
  match map_reloc_step secoff maps syms text r l with
  | Ok l' => length l' = length l /\
      (forall j, map_touch (length l0) r j = false -> nth_error l' j = nth_error l j) /\
      exists l0', map_reloc_step secoff maps syms text r l0 = Ok l0' /\ length l0' = length l0 /\
        forall j, map_touch (length l0) r j = true -> nth_error l' j = nth_error l0' j
  | Err e => map_reloc_step secoff maps syms text r l0 = Err e
  end.
Proof.
  intros [HL HA]. unfold map_reloc_step, map_touch in *. replace (locate secoff (length l) r) with (locate secoff (length l0) r) by (now rewrite HL). unfold wide, lookup_map in *.
  destruct (locate secoff (length l0) r) as [| |i] eqn:Eloc; [|reflexivity|].
  { split; [reflexivity|split; [reflexivity|]]. exists l0. auto. }
  apply locate_at in Eloc. destruct Eloc as [Hi _].
  destruct (syms (r_sym r)) as [sym|]; [|reflexivity].
  assert (Hni : nth_error l i = nth_error l0 i) by (apply HA; now rewrite Nat.eqb_refl).
  assert (Hskip : length l = length l /\
      (forall j, Nat.eqb j i || (match s_section sym with
      | Some sec => negb (text sec) && match (match by_symbol maps (r_sym r) with Some m => Some m | None => by_section maps sec end) with Some m => negb (m_data_empty m) | None => false end
      | None => false end && Nat.eqb j (S i)) = false -> nth_error l j = nth_error l j) /\
      exists l0', @Ok perr _ l0 = Ok l0' /\ length l0' = length l0 /\ forall j, Nat.eqb j i || (match s_section sym with
      | Some sec => negb (text sec) && match (match by_symbol maps (r_sym r) with Some m => Some m | None => by_section maps sec end) with Some m => negb (m_data_empty m) | None => false end
      | None => false end && Nat.eqb j (S i)) = true -> nth_error l j = nth_error l0' j).
  { split; [reflexivity|split; [reflexivity|]]. exists l0. auto. }
  destruct (s_section sym) as [sec|]; [|exact Hskip].
  rewrite Hni. destruct (nth_error l0 i) as [x|] eqn:Ex; [|reflexivity].
  destruct (insn_is_call x || text sec) eqn:Ect; [exact Hskip|]. clear Hskip.
  apply orb_false_iff in Ect. destruct Ect as [_ Et]. rewrite Et in *. cbn [negb andb] in *.
  destruct (match by_symbol maps (r_sym r) with Some m => Some m | None => by_section maps sec end) as [m|]; [|reflexivity].
  destruct (m_data_empty m); cbn [negb andb] in *.
  - split; [apply upd_length|]. split.
    + intros j Hj. rewrite orb_false_r in Hj. apply nth_error_upd_ne. apply Nat.eqb_neq in Hj. congruence.
    + eexists. split; [reflexivity|]. split; [apply upd_length|]. intros j Hj.
      rewrite orb_false_r, Nat.eqb_eq in Hj. subst j. rewrite !nth_error_upd_eq by lia. reflexivity.
  - assert (Hni1 : nth_error l (S i) = nth_error l0 (S i)).
    { apply HA. rewrite Nat.eqb_refl. apply orb_true_r. }
    rewrite Hni1. destruct (nth_error l0 (S i)) as [y|] eqn:Ey; [|reflexivity].
    assert (S i < length l0)%nat by (apply nth_error_Some; congruence).
    split; [now rewrite !upd_length|]. split.
    + intros j Hj. apply orb_false_iff in Hj. destruct Hj as [H1 H2].
      apply Nat.eqb_neq in H1, H2. rewrite !nth_error_upd_ne by congruence. reflexivity.
    + eexists. split; [reflexivity|]. split; [now rewrite !upd_length|]. intros j Hj.
      destruct (Nat.eq_dec j i) as [->|Hne].
      * rewrite !nth_error_upd_eq by (rewrite ?upd_length; lia). reflexivity.
      * assert (j = S i) as -> by (apply orb_true_iff in Hj; rewrite !Nat.eqb_eq in Hj; destruct Hj; congruence).
        rewrite !(nth_error_upd_ne i (S i)) by lia. rewrite !nth_error_upd_eq by lia. reflexivity.
Qed.
End Maps.

(* ------------------------------------------------------------------ *)
(** Externs. *)
Section Externs.
Variables (secoff : Z) (externs : name -> option extern) (syms : symtab).

Definition ext_sym (r : reloc) : bool :=
  match syms (r_sym r) with Some sym => is_extern sym | None => false end.

Definition ext_touch (l0 : list insn) (r : reloc) (j : nat) : bool :=
  match locate secoff (length l0) r with
  | At i => Nat.eqb j i ||
      (ext_sym r && match nth_error l0 i with Some y => negb (code y =? CALL_CODE) | None => false end && Nat.eqb j (S i))
  | _ => false
  end.

Lemma ext_local l0 r l : agree (ext_touch l0) l0 r l ->
  match extern_step secoff externs syms r l with
  | Ok l' => length l' = length l /\
      (forall j, ext_touch l0 r j = false -> nth_error l' j = nth_error l j) /\
      exists l0', extern_step secoff externs syms r l0 = Ok l0' /\ length l0' = length l0 /\
        forall j, ext_touch l0 r j = true -> nth_error l' j = nth_error l0' j
  | Err e => extern_step secoff externs syms r l0 = Err e
  end.
Proof.
  intros [HL HA]. unfold extern_step, ext_touch, ext_sym in *. replace (locate secoff (length l) r) with (locate secoff (length l0) r) by (now rewrite HL).
  destruct (locate secoff (length l0) r) as [| |i] eqn:Eloc; [|reflexivity|].
  { split; [reflexivity|split; [reflexivity|]]. exists l0. auto. }
  apply locate_at in Eloc. destruct Eloc as [Hi _].
  destruct (syms (r_sym r)) as [sym|]; [|reflexivity].
  assert (Hni : nth_error l i = nth_error l0 i) by (apply HA; now rewrite Nat.eqb_refl).
  destruct (is_extern sym); cbn [negb andb] in *.
  2:{ split; [reflexivity|split; [reflexivity|]]. exists l0. auto. }
  destruct (s_name sym) as [nm|]; [|reflexivity]. destruct (externs nm) as [x|]; [|reflexivity].
  rewrite Hni. destruct (nth_error l0 i) as [y|] eqn:Ey; [|reflexivity].
  destruct (code y =? CALL_CODE) eqn:Ec; cbn [negb andb] in *.
  - assert (Hone : forall v, length (upd i v l) = length l /\
      (forall j, Nat.eqb j i || false = false -> nth_error (upd i v l) j = nth_error l j) /\
      exists l0', @Ok perr _ (upd i v l0) = Ok l0' /\ length l0' = length l0 /\
        forall j, Nat.eqb j i || false = true -> nth_error (upd i v l) j = nth_error l0' j).
    { intros v. split; [apply upd_length|]. split.
      - intros j Hj. rewrite orb_false_r in Hj. apply nth_error_upd_ne. apply Nat.eqb_neq in Hj. congruence.
      - eexists. split; [reflexivity|]. split; [apply upd_length|]. intros j Hj.
        rewrite orb_false_r, Nat.eqb_eq in Hj. subst j. rewrite !nth_error_upd_eq by lia. reflexivity. }
    destruct (x_resolved x).
    + destruct (x_btf_id x); [apply Hone|reflexivity].
    + destruct (x_weak x); [apply Hone|reflexivity].
  - destruct (code y =? LDDW_CODE); cbn [negb]; [|reflexivity].
    match goal with |- context [match ?q with Some _ => _ | None => Err UnresolvableSymbol end] => destruct q as [[y' ni]|]; [|reflexivity] end.
    assert (Hni1 : nth_error l (S i) = nth_error l0 (S i)).
    { apply HA. rewrite Nat.eqb_refl. apply orb_true_r. }
    rewrite Hni1. destruct (nth_error l0 (S i)) as [z|] eqn:Ez; [|reflexivity].
    assert (S i < length l0)%nat by (apply nth_error_Some; congruence).
    split; [now rewrite !upd_length|]. split.
    + intros j Hj. apply orb_false_iff in Hj. destruct Hj as [H1 H2].
      apply Nat.eqb_neq in H1, H2. rewrite !nth_error_upd_ne by congruence. reflexivity.
    + eexists. split; [reflexivity|]. split; [now rewrite !upd_length|]. intros j Hj.
      destruct (Nat.eq_dec j i) as [->|Hne].
      * rewrite !(nth_error_upd_ne (S i) i) by lia. rewrite !nth_error_upd_eq by lia. reflexivity.
      * assert (j = S i) as -> by (apply orb_true_iff in Hj; rewrite !Nat.eqb_eq in Hj; destruct Hj; congruence).
        rewrite !nth_error_upd_eq by (rewrite upd_length; lia). reflexivity.
Qed.
End Externs.
