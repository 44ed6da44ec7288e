(** Proofs about the bit field accessors: what follows for whole units. *)
From Verif Require Import Base Text BitModel BitSpec BitProofs.
Open Scope Z_scope.

(** Reading past the unit. *)
Lemma get_loop_none be s o w is : forall acc,
  (exists i, In i is /\ (8 * length s <= i + o)%nat) -> get_loop be s o w is acc = None.
Proof.
  induction is as [|i is IH]; intros acc (j & J & R); [contradiction|]. cbn [get_loop].
  destruct (get_bit be s (i + o)) eqn:E; [|reflexivity]. apply IH.
  destruct J as [<-|J]; [|eauto]. rewrite get_bit_out in E by assumption. discriminate E.
Qed.
Lemma get_outside dbg be s o w : (8 * length s < o + w)%nat -> (0 < w)%nat ->
  get dbg be s o w = None.
Proof.
  intros R W. unfold get. destruct (dbg && _); [reflexivity|].
  apply get_loop_none. exists (w - 1)%nat. rewrite in_seq. lia.
Qed.
Lemma set_bit_length be s n v s' : set_bit be s n v = Some s' -> length s' = length s.
Proof.
  unfold set_bit. destruct (nth_error s (n / 8)); [|discriminate]. intros [= <-].
  apply upd_length.
Qed.
Lemma set_loop_none be o w v is : forall s,
  (exists i, In i is /\ (8 * length s <= turn be w i + o)%nat) ->
  set_loop be s o w v is = None.
Proof.
  induction is as [|i is IH]; intros s (j & J & R); [contradiction|]. cbn [set_loop].
  destruct (set_bit _ _ _ _) as [s'|] eqn:E; [|reflexivity]. apply IH.
  destruct J as [<-|J].
  - rewrite set_bit_out in E by assumption. discriminate E.
  - exists j. rewrite (set_bit_length _ _ _ _ _ E). auto.
Qed.
Lemma set_outside dbg be s o w v : (8 * length s < o + w)%nat -> (0 < w)%nat ->
  set dbg be s o w v = None.
Proof.
  intros R W. unfold set. destruct (dbg && _); [reflexivity|].
  apply set_loop_none. exists (turn be w (w - 1))%nat. rewrite in_seq.
  unfold turn. destruct be; lia.
Qed.

(** A unit is known by its number. *)
Lemma le_dec_inj s t : bytes_ok s = true -> bytes_ok t = true -> length s = length t ->
  le_dec s = le_dec t -> s = t.
Proof.
  intros S' T' L E. rewrite <- (le_enc_dec s S'), <- (le_enc_dec t T'), L, E. reflexivity.
Qed.
Lemma number_inj be s t : bytes_ok s = true -> bytes_ok t = true -> length s = length t ->
  number be s = number be t -> s = t.
Proof.
  intros S' T' L. unfold number. destruct be; intros E.
  - rewrite <- (rev_involutive s), <- (rev_involutive t). f_equal.
    apply le_dec_inj; try apply bytes_ok_rev; try assumption. rewrite !rev_length. exact L.
  - apply le_dec_inj; assumption.
Qed.
Lemma replaced_one be s o w v s1 s2 : replaced be s o w v s1 -> replaced be s o w v s2 ->
  s1 = s2.
Proof.
  intros (L1 & B1 & N1) (L2 & B2 & N2). apply (number_inj be); try assumption; congruence.
Qed.

(** What other fields hold afterwards. *)
Lemma replaced_bits be s o w v s' : bytes_ok s = true -> inside (length s) o w ->
  replaced be s o w v s' ->
  (forall m, (m < o \/ o + w <= m)%nat -> bitat be s' m = bitat be s m) /\
  (forall i, (i < w)%nat -> bitat be s' (turn be w i + o) = Z.testbit v (Z.of_nat i)).
Proof.
  intros B R H. destruct (set_loop_all be s o w v B R) as (s1 & E & L & B1 & H1 & H2).
  destruct (set_replaced_loop be s o w v B R) as (s2 & E2 & R2).
  rewrite E in E2. injection E2 as <-. rewrite (replaced_one _ _ _ _ _ _ _ H R2). auto.
Qed.
Lemma replaced_value be s o w v s' : bytes_ok s = true -> inside (length s) o w ->
  replaced be s o w v s' -> value be s' o w = v mod 2 ^ Z.of_nat w.
Proof.
  intros B R H. destruct (replaced_bits be s o w v s' B R H) as [_ H2].
  destruct R as [R W]. destruct H as (L & B' & _).
  apply bits_nat. intros n. rewrite value_bits by (assumption || lia).
  destruct (Nat.ltb_spec n w) as [N|N]; cbn [andb].
  - rewrite H2, Z.mod_pow2_bits_low by lia. reflexivity.
  - rewrite Z.mod_pow2_bits_high by lia. reflexivity.
Qed.
Lemma replaced_other be s o w v s' o' w' : bytes_ok s = true -> inside (length s) o w ->
  inside (length s) o' w' -> apart o w o' w' ->
  replaced be s o w v s' -> value be s' o' w' = value be s o' w'.
Proof.
  intros B R R' A H. destruct (replaced_bits be s o w v s' B R H) as [H1 _].
  destruct R as [R W], R' as [R' W']. destruct H as (L & B' & _). unfold apart in A.
  apply bits_nat. intros n. rewrite !value_bits by (assumption || lia).
  destruct (Nat.ltb_spec n w') as [N|N]; cbn [andb]; [|reflexivity].
  apply H1. unfold turn. destruct be; lia.
Qed.

(** Raw pointers. *)
Lemma raw_get_bit_spec be m p s n : holds m p s -> (n < 8 * length s)%nat ->
  get_bit be s n = Some (raw_get_bit be m p n).
Proof.
  intros H N. rewrite get_bit_spec by assumption. f_equal. unfold raw_get_bit, bitat.
  rewrite H, extract_bit_spec by lia. reflexivity.
Qed.
Lemma raw_get_same be m p s o w : holds m p s -> inside (length s) o w -> (0 < w)%nat ->
  forall dbg, get dbg be s o w = Some (raw_get be m p o w).
Proof.
  intros H R W dbg. unfold get. rewrite asserts_inside by assumption. rewrite andb_false_r.
  unfold raw_get. assert (G : forall is acc, (forall i, In i is -> (i < w)%nat) ->
    get_loop be s o w is acc
    = Some (fold_left (fun val i => if raw_get_bit be m p (i + o)
                         then Z.lor val (one_shl (turn be w i)) else val) is acc)).
  { destruct R as [R _]. induction is as [|i is IH]; intros acc I'; [reflexivity|].
    cbn [get_loop fold_left].
    pose proof (I' i (or_introl eq_refl)).
    rewrite (raw_get_bit_spec be m p s) by (assumption || lia).
    apply IH. intros j J. apply I'. now right. }
  apply G. intros i I'. apply in_seq in I'. lia.
Qed.
Lemma raw_set_bit_spec be m p s n v s' : holds m p s -> (n < 8 * length s)%nat ->
  set_bit be s n v = Some s' ->
  holds (raw_set_bit be m p n v) p s' /\
  forall a, ~ p <= a < p + Z.of_nat (length s) -> raw_set_bit be m p n v a = m a.
Proof.
  intros H N. unfold set_bit. destruct (nth_error s (n / 8)) as [b|] eqn:E; [|discriminate].
  intros [= <-]. pose proof (nth_error_nth s _ 0 E) as EB.
  assert (D : (n / 8 < length s)%nat) by lia. split.
  - intros i I'. rewrite upd_length in I'. rewrite (nth_upd s (n / 8) i) by assumption.
    unfold raw_set_bit.
    destruct (Nat.eqb_spec (n / 8) i) as [<-|NE].
    + rewrite Z.eqb_refl, H, EB by assumption. reflexivity.
    + destruct (Z.eqb_spec (p + Z.of_nat i) (p + Z.of_nat (n / 8))); [lia|]. apply H, I'.
  - intros a A. unfold raw_set_bit.
    destruct (Z.eqb_spec a (p + Z.of_nat (n / 8))); [lia|reflexivity].
Qed.
Lemma raw_set_same be m p s o w v : holds m p s -> inside (length s) o w -> (0 < w)%nat ->
  forall dbg s', set dbg be s o w v = Some s' ->
  holds (raw_set be m p o w v) p s' /\
  forall a, ~ p <= a < p + Z.of_nat (length s) -> raw_set be m p o w v a = m a.
Proof.
  intros H R W dbg s'. unfold set. rewrite asserts_inside by assumption. rewrite andb_false_r.
  unfold raw_set. assert (IN : forall i, In i (seq 0 w) -> (i < w)%nat).
  { intros i I'. apply in_seq in I'. lia. }
  destruct R as [R _]. revert m s s' H R IN. generalize (seq 0 w) as is.
  induction is as [|i is IH]; intros m s s' H R IN; cbn [set_loop fold_left].
  - intros [= <-]. auto.
  - pose proof (IN i (or_introl eq_refl)).
    destruct (set_bit _ _ _ _) as [s1|] eqn:E; [|discriminate]. intros E2.
    assert (N : (turn be w i + o < 8 * length s)%nat) by (unfold turn; destruct be; lia).
    destruct (raw_set_bit_spec be m p s _ _ s1 H N E) as [H1 A1].
    pose proof (set_bit_length _ _ _ _ _ E) as L.
    destruct (IH _ s1 s' H1 ltac:(lia) ltac:(intros j J; apply IN; now right) E2) as [H2 A2].
    split; [exact H2|]. intros a A. rewrite A2 by (rewrite L; exact A). apply A1, A.
Qed.

(** Fields. *)
Lemma wrap_mod t w v : (Z.of_nat w <= t) -> wrap t v mod 2 ^ Z.of_nat w = v mod 2 ^ Z.of_nat w.
Proof.
  intros W. unfold wrap. apply bits_nat. intros n.
  destruct (Nat.lt_ge_cases n w).
  - rewrite !Z.mod_pow2_bits_low by lia. reflexivity.
  - rewrite !Z.mod_pow2_bits_high by lia. reflexivity.
Qed.
Lemma value_bound be s o w : 0 <= value be s o w < 2 ^ Z.of_nat w.
Proof. unfold value. apply Z.mod_pos_bound. apply Z.pow_pos_nonneg; lia. Qed.

(** A field fits its unit and its type. *)
Definition fine (len : nat) (f : field) : Prop :=
  inside len (f_off f) (f_width f) /\ (0 < f_width f)%nat /\ Z.of_nat (f_width f) <= f_type f.

Lemma read_value dbg be s f : bytes_ok s = true -> fine (length s) f ->
  read_field dbg be s f = Some (value be s (f_off f) (f_width f)).
Proof.
  intros B (R & W & T). unfold read_field. rewrite get_value by assumption. f_equal.
  unfold wrap. apply Z.mod_small. pose proof (value_bound be s (f_off f) (f_width f)).
  assert (2 ^ Z.of_nat (f_width f) <= 2 ^ f_type f) by (apply Z.pow_le_mono_r; lia). lia.
Qed.
Lemma write_replaced dbg be s f v : bytes_ok s = true -> fine (length s) f ->
  exists s', write_field dbg be s f v = Some s' /\
    replaced be s (f_off f) (f_width f) v s'.
Proof.
  intros B (R & W & T). unfold write_field.
  destruct (set_replaced dbg be s (f_off f) (f_width f) (wrap (f_type f) v) B R W)
    as (s' & E & L & B' & N).
  exists s'. split; [exact E|]. split; [exact L|]. split; [exact B'|].
  rewrite N. rewrite wrap_mod by exact T. reflexivity.
Qed.

Definition place (f : field) : nat * nat := (f_off f, f_width f).
Definition placed (fv : field * Z) : nat * nat * Z := (place (fst fv), snd fv).

Lemma write_all_total dbg be : forall l s, bytes_ok s = true ->
  Forall (fun fv => fine (length s) (fst fv)) l ->
  separate (map (fun fv => place (fst fv)) l) ->
  (forall fv, In fv l -> value be s (f_off (fst fv)) (f_width (fst fv)) = 0) ->
  exists s', write_all dbg be s l = Some s' /\ length s' = length s /\ bytes_ok s' = true /\
    number be s' = number be s + total be (length s) (map placed l) /\
    (forall fv, In fv l ->
       value be s' (f_off (fst fv)) (f_width (fst fv))
       = snd fv mod 2 ^ Z.of_nat (f_width (fst fv))) /\
    (forall o w, inside (length s) o w ->
       Forall (fun ow => apart (fst ow) (snd ow) o w) (map (fun fv => place (fst fv)) l) ->
       value be s' o w = value be s o w).
Proof.
  induction l as [|[f v] l IH]; intros s B F S' Z0; cbn [write_all map total placed].
  - exists s. repeat split; auto; [lia|contradiction].
  - inversion F as [|? ? F1 F2]; subst. cbn [fst snd] in *.
    cbn [map separate place fst snd] in S'. destruct S' as [S1 S2].
    destruct (write_replaced dbg be s f v B F1) as (s1 & E1 & R1). rewrite E1.
    pose proof R1 as (L1 & B1 & N1).
    assert (Z1 : forall fv, In fv l -> value be s1 (f_off (fst fv)) (f_width (fst fv)) = 0).
    { intros fv FV. rewrite <- (Z0 fv) by (now right).
      rewrite Forall_forall in F2, S1.
      refine (replaced_other be s _ _ v s1 _ _ B (proj1 F1) (proj1 (F2 fv FV)) _ R1).
      apply (S1 (place (fst fv))). apply in_map_iff. eauto. }
    assert (F2' : Forall (fun fv => fine (length s1) (fst fv)) l) by (rewrite L1; exact F2).
    destruct (IH s1 B1 F2' S2 Z1) as (s2 & E2 & L2 & B2 & N2 & V2 & O2).
    exists s2. split; [exact E2|]. split; [congruence|]. split; [exact B2|].
    rewrite L1 in N2, O2. split; [|split].
    + pose proof (Z0 (f, v) (or_introl eq_refl)) as Z2. cbn [fst snd] in Z2.
      rewrite N2, N1, Z2. cbn [fst snd place]. ring.
    + intros fv [<-|FV]; [|apply V2, FV]. cbn [fst snd].
      rewrite O2; [apply (replaced_value be s _ _ v s1 B (proj1 F1) R1)|exact (proj1 F1)|].
      eapply Forall_impl; [|exact S1]. intros [o w]. unfold apart. cbn. lia.
    + intros o w R A. inversion A as [|? ? A1 A2]; subst. rewrite O2 by assumption.
      apply (replaced_other be s _ _ v s1 o w B (proj1 F1) R A1 R1).
Qed.

Lemma le_dec_zero n : le_dec (repeat 0 n) = 0.
Proof. induction n as [|n IH]; [reflexivity|]. cbn [repeat le_dec]. rewrite IH. reflexivity. Qed.
Lemma rev_repeat0 n : rev (repeat 0 n) = repeat 0 n.
Proof.
  induction n as [|n IH]; [reflexivity|]. cbn [repeat rev]. rewrite IH.
  clear. induction n as [|n IH]; [reflexivity|]. cbn [repeat app]. now rewrite IH.
Qed.
Lemma number_zero be n : number be (repeat 0 n) = 0.
Proof. unfold number. rewrite rev_repeat0, le_dec_zero. now destruct be. Qed.
Lemma value_zero be n o w : value be (repeat 0 n) o w = 0.
Proof.
  unfold value. rewrite number_zero. rewrite Z.div_0_l, Z.mod_0_l; lia.
Qed.
Lemma bytes_zero n : bytes_ok (repeat 0 n) = true.
Proof. induction n; auto. Qed.

Lemma separate_combine fs : forall vs : list Z, separate (map place fs) ->
  separate (map (fun fv => place (fst fv)) (combine fs vs)).
Proof.
  induction fs as [|f fs IH]; intros [|v vs] H; cbn [combine map separate]; try exact Logic.I.
  cbn [map separate place fst] in *. destruct H as [H1 H2]. split; [|apply IH, H2].
  rewrite Forall_forall in *. intros ow OW. apply in_map_iff in OW as ([g x] & <- & G).
  apply in_combine_l in G. apply H1. apply in_map_iff. eauto.
Qed.

Lemma new_unit_total dbg be size fs vs :
  Forall (fine size) fs -> separate (map place fs) ->
  exists s, new_unit dbg be size fs vs = Some s /\ length s = size /\ bytes_ok s = true /\
    number be s = total be size (map placed (combine fs vs)) /\
    forall f v, In (f, v) (combine fs vs) ->
      read_field dbg be s f = Some (v mod 2 ^ Z.of_nat (f_width f)).
Proof.
  intros F S'. unfold new_unit.
  assert (F' : Forall (fun fv => fine (length (repeat 0 size)) (fst fv)) (combine fs vs)).
  { rewrite repeat_length. rewrite Forall_forall in *. intros [f v] FV.
    apply in_combine_l in FV. apply F, FV. }
  destruct (write_all_total dbg be (combine fs vs) (repeat 0 size) (bytes_zero size) F'
              (separate_combine fs vs S')) as (s & E & L & B & N & V & _).
  { intros fv _. apply value_zero. }
  rewrite repeat_length in L, N. exists s. split; [exact E|]. split; [exact L|].
  split; [exact B|]. split; [rewrite N, number_zero; lia|].
  intros f v FV. rewrite read_value; [|exact B|].
  - f_equal. exact (V (f, v) FV).
  - rewrite L. rewrite Forall_forall in F. apply F. apply in_combine_l in FV. exact FV.
Qed.

(** The four units. *)
Definition fineb (len : nat) (f : field) : bool :=
  ((f_off f + f_width f <=? 8 * len) && (f_width f <=? 64) && (0 <? f_width f))%nat
  && (Z.of_nat (f_width f) <=? f_type f).
Lemma fineb_ok len f : fineb len f = true -> fine len f.
Proof. unfold fineb, fine, inside. lia. Qed.
Fixpoint separateb (l : list (nat * nat)) : bool :=
  match l with
  | [] => true
  | (o, w) :: r =>
      forallb (fun ow => (o + w <=? fst ow) || (fst ow + snd ow <=? o))%nat r && separateb r
  end.
Lemma separateb_ok l : separateb l = true -> separate l.
Proof.
  induction l as [|[o w] l IH]; cbn [separateb separate]; [auto|].
  intros H. apply andb_true_iff in H as [H1 H2]. split; [|apply IH, H2].
  rewrite forallb_forall in H1. apply Forall_forall. intros ow OW. specialize (H1 _ OW).
  unfold apart. lia.
Qed.
Lemma units_fine size fs : In (size, fs) units ->
  Forall (fine size) fs /\ separate (map place fs).
Proof.
  intros H.
  assert (G : forallb (fun u => forallb (fineb (fst u)) (snd u)
                                && separateb (map place (snd u))) units = true)
    by (vm_compute; reflexivity).
  rewrite forallb_forall in G. specialize (G _ H). cbn [fst snd] in G.
  apply andb_true_iff in G as [G1 G2]. split; [|apply separateb_ok, G2].
  rewrite forallb_forall in G1. apply Forall_forall. intros f F. apply fineb_ok, G1, F.
Qed.
Lemma units_decls :
  map (fun u => (fst u, map (fun f => (f_name f, place f)) (snd u))) units
  = map (fun d => (fst d, laid_out 0 (snd d))) decls /\
  Forall (fun d => fold_right (fun nw a => snd nw + a)%nat 0%nat (snd d) = (8 * fst d)%nat) decls.
Proof. split; [vm_compute; reflexivity|]. repeat constructor. Qed.

Lemma unit_read dbg be size fs s f : In (size, fs) units -> In f fs ->
  length s = size -> bytes_ok s = true ->
  read_field dbg be s f = Some (value be s (f_off f) (f_width f)).
Proof.
  intros U F L B. apply read_value; [exact B|]. rewrite L.
  destruct (units_fine size fs U) as [A _]. rewrite Forall_forall in A. apply A, F.
Qed.
Lemma unit_write dbg be size fs s f v : In (size, fs) units -> In f fs ->
  length s = size -> bytes_ok s = true ->
  exists s', write_field dbg be s f v = Some s' /\
    replaced be s (f_off f) (f_width f) v s' /\
    read_field dbg be s' f = Some (v mod 2 ^ Z.of_nat (f_width f)) /\
    forall g, In g fs -> f_name g <> f_name f ->
      read_field dbg be s' g = read_field dbg be s g.
Proof.
  intros U F L B. destruct (units_fine size fs U) as [A S'].
  assert (A' := A). rewrite Forall_forall in A'.
  assert (FF : fine (length s) f) by (rewrite L; apply A', F).
  destruct (write_replaced dbg be s f v B FF) as (s' & E & R). pose proof R as (L' & B' & _).
  exists s'. split; [exact E|]. split; [exact R|]. split.
  - rewrite read_value by (rewrite ?L'; assumption).
    rewrite (replaced_value be s _ _ v s' B (proj1 FF) R). reflexivity.
  - intros g G NE. assert (FG : fine (length s) g) by (rewrite L; apply A', G).
    rewrite !read_value by (rewrite ?L'; assumption). f_equal.
    refine (replaced_other be s _ _ v s' _ _ B (proj1 FF) (proj1 FG) _ R).
    clear - F G NE S'. revert F G S'. induction fs as [|h fs IH]; [contradiction|].
    cbn [map separate place In]. intros F G [S1 S2]. rewrite Forall_forall in S1.
    destruct F as [<-|F], G as [<-|G].
    + contradiction.
    + apply (S1 (place g)). now apply in_map.
    + specialize (S1 (place f) (in_map _ _ _ F)). unfold apart in *. cbn in S1. lia.
    + auto.
Qed.

(** The register byte of an instruction. *)
Lemma insn_byte dbg be d r :
  new_unit dbg be insn_size insn_fields [d; r]
  = Some [if be then 16 * (d mod 16) + r mod 16 else d mod 16 + 16 * (r mod 16)].
Proof.
  destruct (units_fine insn_size insn_fields ltac:(now left)) as [A S'].
  destruct (new_unit_total dbg be insn_size insn_fields [d; r] A S')
    as (s & E & L & B & N & _). rewrite E. f_equal.
  destruct s as [|b [|? ?]]; try discriminate L. f_equal.
  assert (number be [b] = b) as NB by (destruct be; cbn [number rev app le_dec]; lia).
  rewrite NB in N. rewrite N. unfold insn_fields, insn_size.
  cbn [combine map placed place fld f_off f_width fst snd total above].
  destruct be; cbn [above Nat.mul Nat.add Nat.sub];
    change (2 ^ Z.of_nat 4) with 16; change (2 ^ Z.of_nat 0) with 1; ring.
Qed.
