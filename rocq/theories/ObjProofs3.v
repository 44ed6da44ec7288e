(** Proofs about programs, globals and helper fallbacks. *)
From Coq Require Import String Permutation.
From Verif Require Import Base Text Insn LinkModel BtfTypes BtfModel ObjModel ObjSpec ObjProofs ObjProofs2.
Local Open Scope Z_scope.

(** Programs. *)
Lemma cut_ok d off n r : 0 <= n -> cut d off n = Ok r -> 0 <= off /\ off + n <= Z.of_nat (length d) /\ r = slice (Z.to_nat off) (Z.to_nat n) d.
Proof.
  intros P. unfold cut. destruct (Z.leb_spec 0 off); [|discriminate]. destruct (Z.leb_spec (off + n) (Z.of_nat (length d))); [|discriminate].
  cbn [andb]. intros H'. apply ok_inj in H'. auto.
Qed.
Lemma prog_end s len : sym_ok s -> len < 2 ^ 64 ->
  (s_address s + s_size s <= len -> u64 (s_address s + s_size s) = s_address s + s_size s) /\
  (s_address s <= u64 (s_address s + s_size s) -> u64 (s_address s + s_size s) <= len -> u64 (s_address s + s_size s) = s_address s + s_size s).
Proof.
  intros [H1 H2] L. unfold u64, wrap. change (2 ^ 64) with 18446744073709551616 in *. split; lia.
Qed.
Lemma program_sym_spec s : is_prog_sym s = match program_sym s with Some _ => true | None => false end /\
  (forall n, program_sym s = Some n -> s_name s = Some n).
Proof.
  unfold is_prog_sym, program_sym. destruct (s_name s) as [[|x n]|]; destruct (s_kind s); cbn; split; try reflexivity; intros m H; try discriminate; exact H.
Qed.
Lemma program_loop_ok t sec p syms r : Forall sym_ok syms -> Z.of_nat (length (os_data sec)) < 2 ^ 64 ->
  program_loop t sec p syms = Ok r ->
  Forall2 (prog_of t sec p) (filter is_prog_sym syms) r /\ Forall (prog_fits sec) (filter is_prog_sym syms).
Proof.
  intros W L. revert r. induction W as [|s syms Hs _ IH]; intros r; cbn [program_loop filter].
  - intros H. apply ok_inj in H. subst r. split; constructor.
  - assert (is_prog_sym s = match program_sym s with Some _ => true | None => false end) as -> by apply program_sym_spec.
    destruct (program_sym s) as [n|] eqn:N; [|apply IH]. cbv zeta.
    destruct (Z.leb_spec (s_address s) (u64 (s_address s + s_size s))) as [A|A]; [|discriminate].
    destruct (cut (os_data sec) (s_address s) (u64 (s_address s + s_size s) - s_address s)) as [d|] eqn:C; [|discriminate]. cbn [bind].
    apply cut_ok in C; [|lia]. destruct C as (C1 & C2 & ->).
    destruct (prog_end s (Z.of_nat (length (os_data sec))) Hs L) as [_ E]. specialize (E A ltac:(lia)). rewrite E in *.
    replace (s_address s + s_size s - s_address s) with (s_size s) in * by lia.
    destruct (copy_instructions (slice (Z.to_nat (s_address s)) (Z.to_nat (s_size s)) (os_data sec))) as [ins|] eqn:I; [|discriminate]. cbn [bind].
    destruct (program_loop t sec p syms) as [q|]; [|discriminate]. cbn [bind]. intros H. apply ok_inj in H. subst r.
    destruct (IH q eq_refl) as [IH1 IH2]. split; constructor; auto.
    + unfold prog_of. cbn [fst snd pg_name pg_sec pg_index pg_addr f_sec f_addr f_secoff f_ins f_finfo f_linfo]. repeat split; auto. apply program_sym_spec. exact N.
    + split; [lia|]. apply copy_length in I. rewrite slice_length in I by lia. destruct Hs. lia.
Qed.
Lemma program_loop_total t sec p syms : Forall sym_ok syms -> Z.of_nat (length (os_data sec)) < 2 ^ 64 ->
  Forall (prog_fits sec) (filter is_prog_sym syms) -> exists r, program_loop t sec p syms = Ok r.
Proof.
  intros W L. induction W as [|s syms Hs _ IH]; cbn [program_loop filter]; [eauto|].
  assert (is_prog_sym s = match program_sym s with Some _ => true | None => false end) as -> by apply program_sym_spec.
  destruct (program_sym s) as [n|] eqn:N; [|exact IH]. intros F. inversion F as [|? ? [F1 F2] F3]. subst.
  destruct (IH F3) as [q ->]. destruct (prog_end s (Z.of_nat (length (os_data sec))) Hs L) as [E _]. rewrite (E F1).
  destruct Hs as [A B]. destruct (Z.leb_spec (s_address s) (s_address s + s_size s)); [|lia].
  replace (s_address s + s_size s - s_address s) with (s_size s) by lia. unfold cut.
  destruct (Z.leb_spec 0 (s_address s)); [|lia]. destruct (Z.leb_spec (s_address s + s_size s) (Z.of_nat (length (os_data sec)))); [|lia].
  cbn [andb bind]. destruct (copy_size (slice (Z.to_nat (s_address s)) (Z.to_nat (s_size s)) (os_data sec)) (s_size s)) as [C _]; try lia.
  { apply slice_length. lia. }
  destruct (C F2) as (ins & -> & _). cbn [bind]. eauto.
Qed.
Lemma programs_spec t sec syms : Forall sym_ok syms -> Z.of_nat (length (os_data sec)) < 2 ^ 64 ->
  (forall r, parse_programs t (Some syms) sec = Ok r ->
     exists p, parse_psec (os_name sec) = Ok p /\ Forall2 (prog_of t sec p) (filter is_prog_sym syms) r) /\
  ((exists r, parse_programs t (Some syms) sec = Ok r) <->
   (exists p, parse_psec (os_name sec) = Ok p) /\ Forall (prog_fits sec) (filter is_prog_sym syms)).
Proof.
  intros W L. unfold parse_programs. destruct (parse_psec (os_name sec)) as [p|e]; cbn [bind].
  - split.
    + intros r H. exists p. split; [reflexivity|]. now apply program_loop_ok in H.
    + split.
      * intros [r H]. split; [eauto|]. now apply program_loop_ok in H.
      * intros [_ H]. now apply program_loop_total.
  - split; [discriminate|]. split; [intros [r H]; discriminate|]. intros [[p H] _]. discriminate.
Qed.

(** Globals. *)
Lemma map_at_frame sec m1 m2 i : map frame_of m1 = map frame_of m2 -> map_at sec m1 i = map_at sec m2 i.
Proof.
  revert m2 i. induction m1 as [|[a x] m1 IH]; intros [|[b y] m2] i H; try discriminate; [reflexivity|].
  cbn [map] in H. injection H as H1 H2 H3 H4 H5 H6 H7 H8. cbn [map_at]. rewrite H4. now rewrite (IH m2 (S i) H8).
Qed.
Lemma place_frame syms m1 m2 n : map frame_of m1 = map frame_of m2 -> place_of syms m1 n = place_of syms m2 n.
Proof.
  intros H. unfold place_of. destruct (find_sym syms n) as [s|]; [|reflexivity]. destruct (s_section s) as [k|]; [|reflexivity].
  now rewrite (map_at_frame k m1 m2 0 H).
Qed.
Lemma map_at_lt sec maps i j : map_at sec maps i = Some j -> (i <= j < i + length maps)%nat.
Proof.
  revert i. induction maps as [|[a x] maps IH]; intros i; [discriminate|]. cbn [map_at length].
  destruct (om_section x =? sec)%nat.
  - intros H. apply some_inj in H. lia.
  - intros H. apply IH in H. lia.
Qed.
Lemma frame_write i a d maps : map frame_of (write i a d maps) = map frame_of maps.
Proof.
  unfold write. destruct (nth_error maps i) as [[mn m]|] eqn:E; [|reflexivity].
  apply list_eq_nth_error. intros k. rewrite !nth_error_map, nth_error_upd.
  destruct (Nat.eqb_spec i k) as [->|]; [|reflexivity]. rewrite E. destruct (Nat.ltb_spec k (length maps)) as [L|L]; [reflexivity|].
  apply nth_error_None in L. congruence.
Qed.
Lemma data_write i a d maps j : (i < length maps)%nat ->
  data_of (write i a d maps) j = if (i =? j)%nat then splice (Z.to_nat a) d (data_of maps i) else data_of maps j.
Proof.
  intros L. unfold write. destruct (nth_error maps i) as [[mn m]|] eqn:E; [|apply nth_error_None in E; lia].
  unfold data_of. rewrite nth_error_upd. destruct (Nat.eqb_spec i j) as [->|]; [|reflexivity].
  destruct (Nat.ltb_spec j (length maps)); [|lia]. now rewrite E.
Qed.
Lemma maps_ext m1 m2 : map frame_of m1 = map frame_of m2 -> (forall i, data_of m1 i = data_of m2 i) -> m1 = m2.
Proof.
  revert m2. induction m1 as [|[a x] m1 IH]; intros [|[b y] m2] H D; try discriminate; [reflexivity|].
  cbn [map] in H. injection H as H1 H2 H3 H4 H5 H6 H7 H8. f_equal.
  - specialize (D O). unfold data_of in D. cbn in D. f_equal; [exact H1|]. destruct x, y. cbn in *. congruence.
  - apply IH; [exact H8|]. intros i. exact (D (S i)).
Qed.
Lemma write_length i a d maps : length (write i a d maps) = length maps.
Proof. rewrite <- (map_length frame_of), frame_write. apply map_length. Qed.

Lemma place_lt syms maps n i a z : place_of syms maps n = Some (i, a, z) -> (i < length maps)%nat.
Proof.
  unfold place_of. destruct (find_sym syms n) as [s|]; [|discriminate]. destruct (s_section s) as [k|]; [|discriminate].
  destruct (map_at k maps 0) as [j|] eqn:E; [|discriminate]. intros H. apply some_inj in H. injection H as -> _ _. apply map_at_lt in E. lia.
Qed.

Lemma find_sym_in syms n s : find_sym syms n = Some s -> In s syms /\ s_name s = Some n.
Proof.
  unfold find_sym. intros H. apply find_some in H. destruct H as [H1 H2]. apply in_rev in H1. split; [exact H1|].
  destruct (s_name s); [|discriminate]. apply str_eqb_eq in H2. now subst.
Qed.

Lemma patch_one_spec syms maps n d must maps' : Forall sym_ok syms -> maps_small maps ->
  (patch_one syms maps n d must = Ok maps' <-> global_ok syms maps (n, d, must) /\ maps' = do_global syms maps (n, d, must)).
Proof.
  intros W MS. unfold patch_one, global_ok, do_global, place_of. cbn [fst snd].
  destruct (find_sym syms n) as [s|] eqn:F.
  2: { destruct must; split; [discriminate|intros [H _]; discriminate| |].
       - intros H. apply ok_inj in H. now split.
       - intros [_ ->]. reflexivity. }
  assert (sym_ok s) as [S1 S2]. { apply find_sym_in in F. rewrite Forall_forall in W. now apply W. }
  destruct (s_section s) as [k|].
  2: { destruct (negb _); (split; [discriminate|intros [(i & H & _) _]; discriminate]). }
  destruct (map_at k maps 0) as [i|] eqn:M.
  2: { destruct (negb _); (split; [discriminate|intros [(i & H & _) _]; discriminate]). }
  destruct (Z.eqb_spec (Z.of_nat (length d)) (s_size s)) as [Q|Q]; cbn [negb].
  2: { split; [discriminate|]. intros [(j & _ & H & _) _]. congruence. }
  apply map_at_lt in M. unfold write. destruct (nth_error maps i) as [[mn m]|] eqn:E; [|apply nth_error_None in E; lia].
  assert (data_of maps i = om_data m) as D by (unfold data_of; now rewrite E).
  pose proof (MS i) as MI. rewrite D in MI. clear MS.
  unfold u64, wrap. change (2 ^ 64) with 18446744073709551616 in *.
  destruct (Z.ltb_spec ((s_address s + s_size s) mod 18446744073709551616) (s_address s)) as [A|A];
    destruct (Z.ltb_spec (Z.of_nat (length (om_data m))) ((s_address s + s_size s) mod 18446744073709551616)) as [B|B]; cbn [orb].
  1,2,3: split; [discriminate|]; intros [(j & P & _ & X) _]; apply some_inj in P; injection P as <-; rewrite D in X; lia.
  split.
  - intros H. apply ok_inj in H. split; [|now subst]. exists i. split; [reflexivity|]. split; [exact Q|]. rewrite D. lia.
  - intros [_ ->]. reflexivity.
Qed.

Lemma nth_error_upd2 {A} i j (v w : A) l : i <> j -> upd i v (upd j w l) = upd j w (upd i v l).
Proof.
  intros N. apply list_eq_nth_error. intros k. rewrite !nth_error_upd, !upd_length.
  destruct (Nat.eqb_spec i k), (Nat.eqb_spec j k); subst; congruence.
Qed.
Lemma splice_comm a b (d e x : list Z) : (a + length d <= b \/ b + length e <= a)%nat ->
  (a + length d <= length x)%nat -> (b + length e <= length x)%nat -> splice a d (splice b e x) = splice b e (splice a d x).
Proof.
  intros H L1 L2. apply list_eq_nth_error. intros k. rewrite !nth_error_splice by (rewrite ?splice_length; lia).
  repeat match goal with |- context[if ?c then _ else _] => destruct c eqn:? end; try reflexivity;
    repeat match goal with
    | X : (_ && _)%bool = true |- _ => apply andb_true_iff in X; destruct X
    | X : (_ <=? _)%nat = true |- _ => apply Nat.leb_le in X
    | X : (_ <? _)%nat = true |- _ => apply Nat.ltb_lt in X end; lia.
Qed.

Lemma do_global_frame syms maps g : map frame_of (do_global syms maps g) = map frame_of maps.
Proof. unfold do_global. destruct (place_of syms maps (fst (fst g))) as [[[i a] z]|]; [apply frame_write|reflexivity]. Qed.
Lemma do_global_length syms maps g i : global_ok syms maps g -> Forall sym_ok syms ->
  length (data_of (do_global syms maps g) i) = length (data_of maps i).
Proof.
  unfold do_global, global_ok. intros H W. destruct (find_sym syms (fst (fst g))) as [s|] eqn:F.
  - destruct H as (j & P & E & L). rewrite P. rewrite data_write by (eapply place_lt; eassumption).
    destruct (Nat.eqb_spec j i) as [->|]; [|reflexivity]. apply splice_length.
    assert (sym_ok s) as [S1 S2]. { apply find_sym_in in F. rewrite Forall_forall in W. now apply W. } lia.
  - unfold place_of. rewrite F. reflexivity.
Qed.
Lemma global_ok_frame syms m1 m2 g : map frame_of m1 = map frame_of m2 -> (forall i, length (data_of m1 i) = length (data_of m2 i)) ->
  global_ok syms m1 g -> global_ok syms m2 g.
Proof.
  intros F L. unfold global_ok. destruct (find_sym syms (fst (fst g))) as [s|]; [|auto].
  intros (i & P & E & B). exists i. rewrite (place_frame _ _ _ _ F) in P. rewrite L in B. auto.
Qed.
Lemma patch_all syms gs : forall maps maps', Forall sym_ok syms -> maps_small maps ->
  (patch_map_data syms maps gs = Ok maps' <-> Forall (global_ok syms maps) gs /\ maps' = fold_left (do_global syms) gs maps).
Proof.
  induction gs as [|[[n d] must] gs IH]; intros maps maps' W MS; cbn [patch_map_data fold_left].
  - split; [intros H; apply ok_inj in H; split; [constructor|congruence]|intros [_ ->]; reflexivity].
  - assert (forall m, global_ok syms maps (n, d, must) -> m = do_global syms maps (n, d, must) ->
       map frame_of m = map frame_of maps /\ (forall i, length (data_of m i) = length (data_of maps i)) /\ maps_small m) as K.
    { intros m G ->. split; [apply do_global_frame|]. split; [intros i; now apply do_global_length|].
      intros i. rewrite do_global_length by assumption. apply MS. }
    split.
    + destruct (patch_one syms maps n d must) as [m|] eqn:P; [|discriminate]. cbn [bind]. apply patch_one_spec in P; auto.
      destruct P as [G E]. destruct (K m G E) as (K1 & K2 & K3). intros H. apply IH in H; auto. destruct H as [H ->]. subst m. split; [|reflexivity].
      constructor; [exact G|]. eapply Forall_impl; [|exact H]. intros g. now apply global_ok_frame.
    + intros [H ->]. inversion H as [|? ? G H']. subst.
      assert (patch_one syms maps n d must = Ok (do_global syms maps (n, d, must))) as -> by (apply patch_one_spec; auto).
      destruct (K _ G eq_refl) as (K1 & K2 & K3). cbn [bind]. apply IH; auto. split; [|reflexivity].
      eapply Forall_impl; [|exact H']. intros g. now apply global_ok_frame.
Qed.

Lemma do_global_comm syms maps g h : Forall sym_ok syms -> global_ok syms maps g -> global_ok syms maps h ->
  (forall p q, place_of syms maps (fst (fst g)) = Some p -> place_of syms maps (fst (fst h)) = Some q -> apart p q) ->
  do_global syms (do_global syms maps g) h = do_global syms (do_global syms maps h) g.
Proof.
  intros W G H A. unfold do_global at 1 3.
  rewrite (place_frame syms (do_global syms maps g) maps), (place_frame syms (do_global syms maps h) maps) by apply do_global_frame.
  unfold global_ok in G, H. unfold do_global.
  destruct (place_of syms maps (fst (fst g))) as [[[i a] z]|] eqn:P, (place_of syms maps (fst (fst h))) as [[[j b] y]|] eqn:Q; try reflexivity.
  specialize (A _ _ eq_refl eq_refl). cbn [apart] in A.
  destruct (find_sym syms (fst (fst g))) as [s|] eqn:F1; [|unfold place_of in P; rewrite F1 in P; discriminate].
  destruct (find_sym syms (fst (fst h))) as [t|] eqn:F2; [|unfold place_of in Q; rewrite F2 in Q; discriminate].
  assert (sym_ok s) as [S1 S2]. { apply find_sym_in in F1. rewrite Forall_forall in W. now apply W. }
  assert (sym_ok t) as [T1 T2]. { apply find_sym_in in F2. rewrite Forall_forall in W. now apply W. }
  destruct G as (? & G1 & G2 & G3), H as (? & H1 & H2 & H3). apply some_inj in G1, H1. injection G1 as <- -> ->. injection H1 as <- -> ->.
  pose proof (place_lt _ _ _ _ _ _ P) as LP. pose proof (place_lt _ _ _ _ _ _ Q) as LQ.
  apply maps_ext.
  - now rewrite !frame_write.
  - intros k. rewrite !data_write by (rewrite ?write_length; assumption).
    destruct (Nat.eqb_spec j k) as [->|], (Nat.eqb_spec i k) as [->|]; rewrite ?Nat.eqb_refl; try reflexivity.
    + apply splice_comm; lia.
    + match goal with |- context[(?a =? ?b)%nat] => destruct (Nat.eqb_spec a b); [congruence|reflexivity] end.
Qed.

Lemma pairs_perm {A} (R : A -> A -> Prop) l l' : (forall x y, R x y -> R y x) -> Permutation l l' -> ForallOrdPairs R l -> ForallOrdPairs R l'.
Proof.
  intros S P. induction P as [|x l l' P IH|x y l|l l' l'' P1 IH1 P2 IH2]; intros H; auto.
  - inversion H as [|? ? H1 H2]. subst. constructor; [|now apply IH]. eapply Permutation_Forall; eassumption.
  - inversion H as [|? ? H1 H2]. subst. inversion H2 as [|? ? H3 H4]. subst. inversion H1 as [|? ? H5 H6]. subst.
    constructor; [constructor; auto|constructor; auto].
Qed.
Lemma pairs_impl {A} (R S : A -> A -> Prop) l : (forall x y, R x y -> S x y) -> ForallOrdPairs R l -> ForallOrdPairs S l.
Proof. intros H P. induction P as [|x l P1 P2 IH]; constructor; [|exact IH]. eapply Forall_impl; [|exact P1]. intros y. apply H. Qed.
Lemma apart_sym p q : apart p q -> apart q p.
Proof. destruct p as [[i a] n], q as [[j b] m]. cbn. intros [H|[H|H]]; auto. Qed.

Lemma fold_perm syms gs gs' : Permutation gs gs' -> forall maps, Forall sym_ok syms -> Forall (global_ok syms maps) gs -> apart_globals syms maps gs ->
  fold_left (do_global syms) gs maps = fold_left (do_global syms) gs' maps.
Proof.
  intros P. induction P as [|x l l' P IH|x y l|l l' l'' P1 IH1 P2 IH2]; intros maps W G A; cbn [fold_left]; auto.
  - inversion G as [|? ? G1 G2]. inversion A as [|? ? A1 A2]. subst. apply IH; auto.
    + eapply Forall_impl; [|exact G2]. intros g. apply global_ok_frame; [symmetry; apply do_global_frame|].
      intros i. symmetry. now apply do_global_length.
    + unfold apart_globals in *. eapply pairs_impl; [|exact A2]. cbv beta. intros g h H p q. rewrite !(place_frame syms (do_global syms maps x) maps) by apply do_global_frame. apply H.
  - inversion G as [|? ? G1 G2]. inversion G2 as [|? ? G3 G4]. inversion A as [|? ? A1 A2]. inversion A1 as [|? ? A3 A4]. subst.
    now rewrite (do_global_comm syms maps y x) by auto.
  - rewrite IH1 by auto. apply IH2; auto.
    + eapply Permutation_Forall; eassumption.
    + eapply pairs_perm; [|exact P1|exact A]. cbv beta. intros g h H p q Hp Hq. apply apart_sym. now apply H.
Qed.
Lemma patch_perm syms maps gs gs' : Forall sym_ok syms -> maps_small maps -> apart_globals syms maps gs -> Permutation gs gs' ->
  forall maps', patch_map_data syms maps gs = Ok maps' <-> patch_map_data syms maps gs' = Ok maps'.
Proof.
  intros W MS A P maps'. rewrite !patch_all by assumption. split; intros [G ->]; (split; [eapply Permutation_Forall; [|exact G]; auto using Permutation_sym|]).
  - now apply fold_perm.
  - symmetry. apply fold_perm; auto. eapply Permutation_Forall; [|exact G]. now apply Permutation_sym.
Qed.

(** What the bytes are afterwards. *)
Definition covers (p : nat * Z * Z) (i : nat) (k : nat) : Prop := let '(j, a, z) := p in j = i /\ a <= Z.of_nat k < a + z.
Lemma patch_bytes syms gs : forall maps, Forall sym_ok syms -> Forall (global_ok syms maps) gs -> apart_globals syms maps gs ->
  map frame_of (fold_left (do_global syms) gs maps) = map frame_of maps /\
  (forall i, length (data_of (fold_left (do_global syms) gs maps) i) = length (data_of maps i)) /\
  (forall g i a z, In g gs -> place_of syms maps (fst (fst g)) = Some (i, a, z) ->
     slice (Z.to_nat a) (Z.to_nat z) (data_of (fold_left (do_global syms) gs maps) i) = snd (fst g)) /\
  (forall i k, (forall g p, In g gs -> place_of syms maps (fst (fst g)) = Some p -> ~ covers p i k) ->
     nth_error (data_of (fold_left (do_global syms) gs maps) i) k = nth_error (data_of maps i) k).
Proof.
  induction gs as [|g gs IH]; intros maps W G A; cbn [fold_left].
  - split; [reflexivity|]. split; [reflexivity|]. split; [intros g i a z []|reflexivity].
  - inversion G as [|? ? G1 G2]. inversion A as [|? ? A1 A2]. subst.
    destruct (IH (do_global syms maps g) W) as (I1 & I2 & I3 & I4).
    { eapply Forall_impl; [|exact G2]. intros h. apply global_ok_frame; [symmetry; apply do_global_frame|]. intros i. symmetry. now apply do_global_length. }
    { eapply pairs_impl; [|exact A2]. cbv beta. intros x y H p q. rewrite !(place_frame syms (do_global syms maps g) maps) by apply do_global_frame. apply H. }
    pose proof (do_global_frame syms maps g) as FR.
    split; [now rewrite I1|]. split; [intros i; rewrite I2; now apply do_global_length|].
    assert (forall i a z, place_of syms maps (fst (fst g)) = Some (i, a, z) -> 0 <= a /\ Z.of_nat (length (snd (fst g))) = z /\
        a + z <= Z.of_nat (length (data_of maps i)) /\ (forall j, data_of (do_global syms maps g) j = if (i =? j)%nat then splice (Z.to_nat a) (snd (fst g)) (data_of maps i) else data_of maps j)) as K.
    { intros i a z P. unfold global_ok in G1. destruct (find_sym syms (fst (fst g))) as [s|] eqn:F; [|unfold place_of in P; rewrite F in P; discriminate].
      assert (sym_ok s) as [S1 S2]. { apply find_sym_in in F. rewrite Forall_forall in W. now apply W. }
      destruct G1 as (? & P' & E & L). rewrite P in P'. apply some_inj in P'. injection P' as <- -> ->. split; [lia|]. split; [exact E|]. split; [exact L|].
      intros j. unfold do_global. rewrite P. apply data_write. eapply place_lt; eassumption. }
    split.
    + intros h i a z [->|I] P.
      * destruct (K i a z P) as (K1 & K2 & K3 & K4). apply list_eq_nth_error. intros k. rewrite nth_error_slice.
        destruct (Nat.ltb_spec k (Z.to_nat z)) as [B|B].
        { rewrite I4.
          - rewrite K4, Nat.eqb_refl, nth_error_splice by lia.
            destruct (Nat.ltb_spec (Z.to_nat a + k) (Z.to_nat a)); [lia|]. destruct (Nat.ltb_spec (Z.to_nat a + k) (Z.to_nat a + length (snd (fst h)))); [|lia].
            f_equal. lia.
          - intros x p X Q. rewrite (place_frame _ _ _ _ FR) in Q. rewrite Forall_forall in A1. specialize (A1 x X _ _ P Q).
            destruct p as [[j b] y]. cbn in A1 |- *. intros [-> C]. destruct A1 as [A1|A1]; [congruence|lia]. }
        { symmetry. apply nth_error_None. lia. }
      * apply (I3 h i a z I). now rewrite (place_frame _ _ _ _ FR).
    + intros i k H. rewrite I4.
      * destruct (place_of syms maps (fst (fst g))) as [[[j a] z]|] eqn:P.
        { destruct (K j a z eq_refl) as (K1 & K2 & K3 & K4). rewrite K4. destruct (Nat.eqb_spec j i) as [->|]; [|reflexivity].
          rewrite nth_error_splice by lia. specialize (H g _ (or_introl eq_refl) P). cbn in H.
          destruct (Nat.ltb_spec k (Z.to_nat a)); [reflexivity|]. destruct (Nat.ltb_spec k (Z.to_nat a + length (snd (fst g)))); [|reflexivity].
          exfalso. apply H. split; [reflexivity|lia]. }
        { unfold do_global. now rewrite P. }
      * intros h p I Q. rewrite (place_frame _ _ _ _ FR) in Q. apply (H h p); [now right|exact Q].
Qed.
