From Coq Require Import Sorting.Sorted.
From Verif Require Import Base Insn LinkModel LinkSpec LinkProofs LinkProofs2.
Local Open Scope Z_scope.

(** Where the records of [g] should end up when its copy starts at [s]: each
    record keeps its distance from the start of the function. *)
Definition moved (base : func -> Z) (recs : func -> list (Z * Z)) (sg : nat * func) : list (Z * Z) :=
  map (fun r => (Z.of_nat (fst sg) + (fst r - base (snd sg)), snd r)) (recs (snd sg)).

(** The records of [g] describe instructions of [g] (numbered from [base g]),
    func_info only its first one, and line_info starts with the first one. *)
Definition described (base : func -> Z) (g : func) : Prop :=
  (forall r, In r (f_finfo g) -> fst r = base g) /\
  (forall r, In r (f_linfo g) -> base g <= fst r < base g + Z.of_nat (length (f_ins g))) /\
  (forall r l, f_linfo g = r :: l -> fst r = base g).

Lemma u32_small z : 0 <= z < 2 ^ 32 -> u32 z = z.
Proof. intros H. unfold u32, wrap. now apply Z.mod_small. Qed.

Lemma link_infos_spec o base entry out :
  (forall g, reach o entry g -> described base g) -> Z.of_nat (length (f_ins out)) < 2 ^ 31 ->
  link o entry = Ok out ->
  exists segs, (exists r, segs = (0%nat, entry) :: r) /\ tiles 0 segs (length (f_ins out)) /\
    (forall s f k x, In (s, f) segs -> nth_error (f_ins f) k = Some x ->
       exists y, nth_error (f_ins out) (s + k) = Some y /\ code y = code x /\ dst y = dst x /\ off y = off x) /\
    f_finfo out = f_finfo entry ++ flat_map (moved base f_finfo) (tl segs) /\
    f_linfo out = f_linfo entry ++ flat_map (moved base f_linfo) (tl segs).
Proof.
  intros HB HL H. destruct (link_infos o entry out H) as (segs & HE & HT & HF & HI & HD & HR).
  exists segs. split; [exact HE|]. split; [exact HT|]. split.
  - intros s f k x Hin Hx. specialize (HD s f k Hin x Hx).
    destruct (target o f k x) as [[[sec a]|e]|]; [|contradiction|eauto 6].
    destruct HD as (g & g' & t & _ & _ & _ & Hy). eexists. split; [exact Hy|]. unfold patch_call. destruct (insn_is_call x); cbn; auto.
  - assert (HS : forall sg, In sg (tl segs) -> link_finfo (snd sg) (fst sg) = moved base f_finfo sg /\ link_linfo (snd sg) (fst sg) = moved base f_linfo sg).
    { intros [s g] Hin. assert (Hin' : In (s, g) segs) by (destruct HE as (r & ->); right; exact Hin).
      pose proof (tiles_in _ _ _ _ _ HT Hin') as [_ Hb]. destruct (HB g (HR s g Hin)) as (D1 & D2 & D3). cbn [fst snd] in *.
      unfold link_finfo, link_linfo, moved; cbn [fst snd]. split.
      - apply map_ext_in. intros r Hr. rewrite (D1 r Hr), u32_small by lia. f_equal. lia.
      - destruct (f_linfo g) as [|r0 l0] eqn:El; [reflexivity|]. rewrite <- El in *. apply map_ext_in. intros r Hr.
        rewrite (D3 r0 l0 El). specialize (D2 r Hr). rewrite !u32_small; try lia. f_equal. rewrite !u32_small; lia. }
    rewrite HF, HI. split; f_equal.
    + clear -HS. induction (tl segs) as [|a l IH]; cbn [flat_map]; [reflexivity|].
      rewrite (proj1 (HS a (or_introl eq_refl))). f_equal. apply IH. intros sg Hs. apply HS. now right.
    + clear -HS. induction (tl segs) as [|a l IH]; cbn [flat_map]; [reflexivity|].
      rewrite (proj2 (HS a (or_introl eq_refl))). f_equal. apply IH. intros sg Hs. apply HS. now right.
Qed.

(** What parsing attaches to a function satisfies [described], given a section
    table that is sorted and has a line record at the function's start. *)
Lemma pick_described f recs_f recs_l (p0 : Z) rewrite offset :
  0 <= offset -> offset mod 8 = 0 -> offset / 8 + Z.of_nat (length (f_ins f)) < 2 ^ 32 -> (0 < length (f_ins f))%nat ->
  (forall r, In r recs_l -> 0 <= fst r) -> StronglySorted (fun a b => fst a <= fst b) recs_l -> In (offset / 8, p0) recs_l ->
  f_finfo f = pick_finfo recs_f offset rewrite ->
  f_linfo f = pick_linfo recs_l offset (8 * Z.of_nat (length (f_ins f))) rewrite ->
  forall base, base f = (if rewrite then 0 else offset / 8) -> described base f.
Proof.
  intros Ho Hm Hsz Hne Hpos HS H0 EF EL base Hbase. unfold described. rewrite Hbase, EF, EL. unfold pick_finfo, pick_linfo, INS_SIZE.
  rewrite !(u32_small (offset / 8)) by lia.
  replace (8 * Z.of_nat (length (f_ins f)) / 8) with (Z.of_nat (length (f_ins f))) by lia.
  rewrite (u32_small (Z.of_nat _)) by lia. split; [|split].
  - intros r Hr. apply in_map_iff in Hr. destruct Hr as (q & <- & Hq). apply filter_In in Hq. destruct rewrite; cbn [fst]; lia.
  - intros r Hr. apply in_map_iff in Hr. destruct Hr as (q & <- & Hq). apply filter_In in Hq. destruct rewrite; cbn [fst]; lia.
  - set (fl := filter _ recs_l). intros r l E.
    assert (Hin : In (offset / 8, p0) fl). { apply filter_In. split; [exact H0|]. cbn [fst]. lia. }
    assert (HSf : StronglySorted (fun a b => fst a <= fst b) fl).
    { clear -HS. unfold fl. induction HS as [|a l HS IH HF]; cbn [filter]; [constructor|].
      destruct (_ && _); [|exact IH]. constructor; [exact IH|]. rewrite Forall_forall in *. intros b Hb. apply filter_In in Hb. now apply HF. }
    destruct fl as [|q fl'] eqn:Ef; [contradiction|]. cbn [map] in E. inversion E; subst r l.
    assert (Hq : In q (q :: fl')) by now left. rewrite <- Ef in Hq. unfold fl in Hq. apply filter_In in Hq.
    assert (fst q <= offset / 8).
    { destruct Hin as [->|Hin]; [cbn; lia|]. inversion HSf as [|? ? ? HF]; subst. rewrite Forall_forall in HF. apply (HF _ Hin). }
    destruct rewrite; cbn [fst]; lia.
Qed.

(** Non-empty copies start at different positions. *)
Lemma tiles_starts p segs n : tiles p segs n -> forall s f g, In (s, f) segs -> In (s, g) segs ->
  f_ins f <> [] -> f_ins g <> [] -> f = g.
Proof.
  revert p; induction segs as [|[s0 f0] segs IH]; intros p HT s f g Hf Hg Nf Ng; [contradiction|].
  cbn [tiles] in HT. destruct HT as [-> HT].
  destruct Hf as [Ef|Hf], Hg as [Eg|Hg].
  - congruence.
  - inversion Ef; subst. pose proof (tiles_in _ _ _ _ _ HT Hg) as [X _]. destruct (f_ins f); [congruence|cbn in X; lia].
  - inversion Eg; subst. pose proof (tiles_in _ _ _ _ _ HT Hf) as [X _]. destruct (f_ins g); [congruence|cbn in X; lia].
  - eapply IH; eauto.
Qed.

Lemma link_separate o entry out : addresses_distinct o entry -> Z.of_nat (length (f_ins out)) < 2 ^ 31 ->
  link o entry = Ok out ->
  exists segs, well_linked o entry (f_ins out) segs /\
    forall s f k x y g s' f' k' x' y' g',
      In (s, f) segs -> nth_error (f_ins f) k = Some x -> nth_error (f_ins out) (s + k) = Some y ->
      In (s', f') segs -> nth_error (f_ins f') k' = Some x' -> nth_error (f_ins out) (s' + k') = Some y' ->
      In g (o_funs o) -> In g' (o_funs o) -> f_ins g <> [] -> f_ins g' <> [] ->
      keys_unique o ->
      names o f k x (f_sec g) (f_addr g) -> names o f' k' x' (f_sec g') (f_addr g') ->
      Z.of_nat (s + k) + 1 + imm y = Z.of_nat (s' + k') + 1 + imm y' -> g = g'.
Proof.
  intros HD HL H. destruct (link_well o entry out HD HL H) as (segs & W & _). exists segs. split; [exact W|].
  intros s f k x y g s' f' k' x' y' g' I1 X1 Y1 I2 X2 Y2 G G' N N' HK M M' E.
  destruct W as ((r & HE) & HT & W).
  destruct (W s f k x I1 X1) as (z & Z1 & _ & Z2). assert (z = y) by congruence. subst z.
  destruct (W s' f' k' x' I2 X2) as (z' & Z1' & _ & Z2'). assert (z' = y') by congruence. subst z'.
  destruct (Z2 _ _ M) as (h & t & A & B & C & D & (F & _)). destruct (Z2' _ _ M') as (h' & t' & A' & B' & C' & D' & (F' & _)).
  assert (h = g) by (apply HK; congruence). assert (h' = g') by (apply HK; congruence). subst h h'.
  assert (t = t') by lia. subst t'. subst segs. cbn [tl] in *.
  exact (tiles_starts _ _ _ HT t g g' (or_intror D) (or_intror D') N N').
Qed.
