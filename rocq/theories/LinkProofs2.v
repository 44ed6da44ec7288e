From Verif Require Import Base Insn LinkModel LinkSpec LinkProofs.
Local Open Scope Z_scope.

Section S.
Variable o : obj.

Lemma link_structure entry out : link o entry = Ok out ->
  exists segs st, inv entry segs st /\ p_ins st = f_ins out /\ p_finfo st = f_finfo out /\ p_linfo st = f_linfo out /\
    (forall s f k, In (s, f) segs -> done o segs (f_ins out) s f k) /\
    (forall s f, In (s, f) (tl segs) -> reach o entry f).
Proof.
  unfold link. intros H. match type of H with context [relocate o ?n entry ?s] => set (st0 := s) in H; destruct (relocate o n entry st0) as [st|] eqn:E end; [|discriminate].
  inversion H; subst; clear H.
  destruct (relocate_ok o entry (S (length (o_funs o))) entry st0 st [] 0%nat) as (new & A & B & C & D).
  - unfold inv. cbn [app tl map flat_map rev tiles]. rewrite !app_nil_r. split; [eexists; reflexivity|].
    split; [split; [reflexivity|]; cbn; reflexivity|]. split; [constructor|]. auto.
  - intros k Hk. reflexivity.
  - exact E.
  - cbn [app] in *. exists ((0%nat, entry) :: new), st. cbn [f_ins f_finfo f_linfo]. auto 10.
Qed.

Lemma i32_small z : 0 <= z < 2 ^ 31 -> i32 z = z.
Proof. intros H. unfold i32, swrap. rewrite Z.mod_small by lia. destruct (Z.ltb_spec z (2 ^ (32 - 1))); lia. Qed.

Lemma i32_range z : - 2 ^ 31 <= z < 2 ^ 31 -> i32 z = z.
Proof.
  intros H. unfold i32, swrap. change (2 ^ (32 - 1)) with (2 ^ 31).
  destruct (Z.ltb_spec (z mod 2 ^ 32) (2 ^ 31)); lia.
Qed.

Lemma patch_goes x t p : Z.of_nat t < 2 ^ 31 -> Z.of_nat p < 2 ^ 31 -> goes_to x (patch_call t p x) p t.
Proof.
  intros Ht Hp. unfold goes_to, patch_call.
  assert (E : i32 (i32 (Z.of_nat t) - i32 (Z.of_nat p) - 1) = Z.of_nat t - Z.of_nat p - 1).
  { rewrite !(i32_small (Z.of_nat _)) by lia. apply i32_range. lia. }
  destruct (insn_is_call x); cbn [imm code dst off src set_imm set_src]; rewrite E; repeat split; lia.
Qed.

Lemma seg_reach entry segs (s : nat) f : (exists r, segs = (0%nat, entry) :: r) ->
  (forall s f, In (s, f) (tl segs) -> reach o entry f) -> In (s, f) segs -> f = entry \/ reach o entry f.
Proof.
  intros (r & ->) HR [E|Hin]; [inversion E; now left|right]. eapply HR; exact Hin.
Qed.

Lemma reach_snoc a b c : reach o a b -> refers o b c -> reach o a c.
Proof.
  induction 1 as [f g H|f g h H HR IH]; intros Hc.
  - econstructor 2; [exact H|now constructor 1].
  - econstructor 2; [exact H|auto].
Qed.

Lemma link_well entry out : addresses_distinct o entry -> Z.of_nat (length (f_ins out)) < 2 ^ 31 ->
  link o entry = Ok out ->
  exists segs, well_linked o entry (f_ins out) segs /\
    (forall s f, In (s, f) (tl segs) -> reach o entry f) /\ NoDup (map snd (tl segs)).
Proof.
  intros HD HL H. destruct (link_structure entry out H) as (segs & st & HI & E1 & _ & _ & HDn & HR).
  exists segs. destruct HI as (HE & HT & HN & _). rewrite E1 in HT.
  split; [|split; [exact HR|]].
  2:{ apply (NoDup_map_inv f_addr). rewrite map_map. exact HN. }
  split; [exact HE|]. split; [exact HT|].
  intros s f k x Hin Hx. pose proof (HDn s f k Hin x Hx) as HK.
  pose proof (tiles_in _ _ _ _ _ HT Hin) as [_ Hb].
  assert (k < length (f_ins f))%nat by (apply nth_error_Some; congruence).
  destruct (target o f k x) as [[[sec a]|e]|] eqn:Et; [|contradiction|].
  - destruct HK as (g & g' & t & G1 & G2 & G3 & G4). exists (patch_call t (s + k) x). split; [exact G4|].
    apply target_names in Et. split.
    + intros HN'. exfalso. exact (HN' _ _ Et).
    + intros sec' a' Hn. assert (sec' = sec /\ a' = a) as [-> ->].
      { apply target_names in Hn, Et. rewrite Hn in Et. inversion Et; auto. }
      destruct (lookup_fun_spec _ _ _ _ G1) as (L1 & L2 & L3).
      assert (g' = g).
      { apply HD; [eapply HR; exact G2| |exact G3].
        assert (refers o f g) by (exists k, x, sec, a; auto).
        destruct (seg_reach entry segs s f HE HR Hin) as [->|Hr]; [now constructor 1|eapply reach_snoc; eauto]. }
      subst g'. exists g, t. repeat (split; [assumption|]).
      assert (Hint : In (t, g) segs) by (destruct HE as (r & ->); right; exact G2).
      pose proof (tiles_in _ _ _ _ _ HT Hint) as [_ Hb']. apply patch_goes; lia.
  - exists x. split; [exact HK|]. split; [reflexivity|]. intros sec a Hn. apply target_names in Hn. congruence.
Qed.

Lemma reach_included entry out segs : keys_unique o -> well_linked o entry (f_ins out) segs ->
  forall f, reach o entry f -> exists s, In (s, f) (tl segs).
Proof.
  intros HK (HE & HT & HW).
  assert (Hstep : forall s f g, In (s, f) segs -> refers o f g -> exists t, In (t, g) (tl segs)).
  { intros s f g Hin (k & x & sec & a & Hx & Hn & G1 & G2 & G3).
    destruct (HW s f k x Hin Hx) as (y & _ & _ & Hy). destruct (Hy sec a Hn) as (g' & t & A & B & C & D & _).
    assert (g' = g) by (apply HK; congruence). subst. eauto. }
  assert (HG : forall f h, reach o f h -> forall s, In (s, f) segs -> exists t, In (t, h) (tl segs)).
  { induction 1 as [f g HR|f g h HR HR2 IH]; intros s Hin; [eauto|].
    destruct (Hstep s f g Hin HR) as (t & Ht). apply (IH t). destruct HE as (r & ->). right. exact Ht. }
  intros f Hf. destruct HE as (r & ->). eapply HG; [exact Hf|left; reflexivity].
Qed.

Lemma link_never_out_of_fuel entry : link o entry <> Err OutOfFuel.
Proof.
  unfold link. match goal with |- context [relocate o ?n entry ?s] => set (st0 := s) end.
  destruct (relocate_progress o (S (length (o_funs o))) entry st0) as [HP _].
  - unfold unlinked. cbn [st0 p_linked assoc]. assert (length (filter (fun _ : func => true) (o_funs o)) <= length (o_funs o))%nat; [|lia].
    clear. induction (o_funs o) as [|g l IH]; cbn [filter length]; lia.
  - cbn. lia.
  - intros k Hk. cbn. now rewrite Nat.sub_diag.
  - destruct (relocate o _ entry st0); [discriminate|]. destruct HP as [HP _]. congruence.
Qed.

(** Every reference of [f] names an existing function, in a form the linker
    knows. *)
Definition references_resolve (f : func) : Prop :=
  (forall k x, nth_error (f_ins f) k = Some x -> forall rel sym, code_reloc o f k rel sym -> exists sec a, names o f k x sec a) /\
  (forall k x sec a, nth_error (f_ins f) k = Some x -> names o f k x sec a -> exists g, In g (o_funs o) /\ f_sec g = sec /\ f_addr g = a).

Lemma resolve_resolvable f : references_resolve f -> resolvable o f.
Proof.
  intros [H1 H2] k x Hx. destruct (target o f k x) as [[[sec a]|e]|] eqn:Et; [| |auto].
  - apply target_names in Et. destruct (H2 k x sec a Hx Et) as (g & G1 & G2 & G3).
    unfold lookup_fun. intros HN. pose proof (find_none _ _ HN g G1) as HF. cbn in HF. rewrite G2, G3, Nat.eqb_refl, Z.eqb_refl in HF. discriminate.
  - destruct (text_reloc o f k) as [[rel sym]|] eqn:Er.
    + apply text_reloc_spec in Er. destruct (H1 k x Hx rel sym Er) as (sec & a & Hn). apply target_names in Hn. congruence.
    + unfold target in Et. rewrite Er in Et. destruct (insn_is_call x); discriminate.
Qed.

Lemma link_succeeds entry : (forall h, h = entry \/ reach o entry h -> references_resolve h) -> exists out, link o entry = Ok out.
Proof.
  intros HR. unfold link. match goal with |- context [relocate o ?n entry ?s] => set (st0 := s) end.
  destruct (relocate_progress o (S (length (o_funs o))) entry st0) as [HP _].
  - unfold unlinked. cbn [st0 p_linked assoc]. assert (length (filter (fun _ : func => true) (o_funs o)) <= length (o_funs o))%nat; [|lia].
    clear. induction (o_funs o) as [|g l IH]; cbn [filter length]; lia.
  - cbn. lia.
  - intros k Hk. cbn. now rewrite Nat.sub_diag.
  - destruct (relocate o _ entry st0); [eauto|]. destruct HP as [_ HP]. exfalso. apply HP.
    intros h Hh. apply resolve_resolvable. auto.
Qed.

(** Func and line info. *)
Definition info_base (g : func) : Z := f_secoff g / 8.

Lemma link_infos entry out : link o entry = Ok out ->
  exists segs, (exists r, segs = (0%nat, entry) :: r) /\ tiles 0 segs (length (f_ins out)) /\
    f_finfo out = f_finfo entry ++ flat_map (fun sg => link_finfo (snd sg) (fst sg)) (tl segs) /\
    f_linfo out = f_linfo entry ++ flat_map (fun sg => link_linfo (snd sg) (fst sg)) (tl segs) /\
    (forall s f k, In (s, f) segs -> done o segs (f_ins out) s f k) /\
    (forall s f, In (s, f) (tl segs) -> reach o entry f).
Proof.
  intros H. destruct (link_structure entry out H) as (segs & st & HI & E1 & E2 & E3 & HDn & HR).
  exists segs. destruct HI as (HE & HT & _ & _ & HF & HLI). rewrite E1 in HT. rewrite E2 in HF. rewrite E3 in HLI. auto 10.
Qed.
End S.

(* ------------------------------------------------------------------ *)
(** Linking one program does not depend on functions it does not reach. *)
Section Ext.
Variables (o o' : obj).
Hypothesis (Hrel : o_relocs o = o_relocs o') (Hsym : o_syms o = o_syms o') (Htext : o_text o = o_text o').
Variable R : func -> Prop.
Hypothesis HR : forall f k x sec a, R f -> nth_error (f_ins f) k = Some x -> target o f k x = Some (Ok (sec, a)) ->
  lookup_fun (o_funs o) sec a = lookup_fun (o_funs o') sec a /\ (forall g, lookup_fun (o_funs o) sec a = Some g -> R g).

Lemma target_ext f k x : target o f k x = target o' f k x.
Proof. unfold target, text_reloc. rewrite Hrel, Hsym, Htext. reflexivity. Qed.

Definition frames (lnk : func -> lstate -> res lerr (nat * lstate)) : Prop :=
  forall g s ci s1, lnk g s = Ok (ci, s1) -> (length (p_ins s) <= length (p_ins s1))%nat /\
    forall j, (j < length (p_ins s))%nat -> nth_error (p_ins s1) j = nth_error (p_ins s) j.

Lemma loop_frame lnk f start : frames lnk -> forall ks s s', (start <= length (p_ins s))%nat ->
  reloc_loop o lnk f start ks s = Ok s' -> (length (p_ins s) <= length (p_ins s'))%nat /\
    forall j, (j < start)%nat -> nth_error (p_ins s') j = nth_error (p_ins s) j.
Proof.
  intros HF ks. induction ks as [|k ks IH]; intros s s' Hs H; cbn [reloc_loop] in H.
  - inversion H; subst. auto.
  - destruct (nth_error (p_ins s) (start + k)) as [x|]; [|discriminate].
    destruct (target o f k x) as [[[sec a]|e]|]; [|discriminate|now apply IH in H].
    destruct (lookup_fun (o_funs o) sec a) as [g|]; [|discriminate].
    destruct (lnk g s) as [[ci s1]|] eqn:El; [|discriminate]. destruct (HF _ _ _ _ El) as [F1 F2].
    destruct (nth_error (p_ins s1) (start + k)) as [x1|]; [|discriminate]. apply IH in H.
    + cbn [with_ins p_ins] in H. rewrite upd_length in H. destruct H as [H1 H2]. split; [lia|].
      intros j Hj. rewrite H2 by exact Hj. rewrite nth_error_upd_ne by lia. apply F2. lia.
    + cbn [with_ins p_ins]. rewrite upd_length. lia.
Qed.

Lemma frames_link n : frames (link_function (relocate o n)).
Proof.
  induction n as [|n IH]; intros g s ci s1 H; unfold link_function in H;
    (destruct (assoc Z.eqb (f_addr g) (p_linked s)); [inversion H; subst; auto|]).
  - cbn in H. discriminate.
  - match type of H with context [relocate o (S n) g ?q] => set (q0 := q) in H end.
    destruct (relocate o (S n) g q0) as [s2|] eqn:E; [|discriminate]. inversion H; subst. cbn [relocate] in E.
    apply loop_frame in E; [|exact IH|lia]. cbn [q0 p_ins] in E. rewrite app_length in E.
    destruct E as [E1 E2]. split; [lia|]. intros j Hj. rewrite E2 by lia. apply nth_error_app1. exact Hj.
Qed.

Lemma relocate_ext n : forall f st, R f -> (length (f_ins f) <= length (p_ins st))%nat ->
  (forall k, (k < length (f_ins f))%nat -> nth_error (p_ins st) (length (p_ins st) - length (f_ins f) + k) = nth_error (f_ins f) k) ->
  relocate o n f st = relocate o' n f st.
Proof.
  induction n as [|n IH]; intros f st Hf Hlen HU; [reflexivity|]. cbn [relocate].
  set (start := (length (p_ins st) - length (f_ins f))%nat) in *.
  assert (HLK : forall g s, R g -> link_function (relocate o n) g s = link_function (relocate o' n) g s).
  { intros g s Hg. unfold link_function. destruct (assoc Z.eqb (f_addr g) (p_linked s)); [reflexivity|].
    rewrite IH; [reflexivity|exact Hg| |]; cbn [p_ins]; rewrite app_length; [lia|].
    intros k Hk. rewrite nth_error_app2 by lia. f_equal. lia. }
  assert (HLOOP : forall m k0 s, (k0 + m = length (f_ins f))%nat -> (length (p_ins st) <= length (p_ins s))%nat ->
    (forall k, (k0 <= k < length (f_ins f))%nat -> nth_error (p_ins s) (start + k) = nth_error (f_ins f) k) ->
    reloc_loop o (link_function (relocate o n)) f start (seq k0 m) s = reloc_loop o' (link_function (relocate o' n)) f start (seq k0 m) s).
  { intros m. induction m as [|m IHm]; intros k0 s Hk Hls HUs; cbn [seq reloc_loop]; [reflexivity|].
    rewrite (HUs k0) by lia. destruct (nth_error (f_ins f) k0) as [x|] eqn:Ex; [|reflexivity].
    rewrite <- target_ext. destruct (target o f k0 x) as [[[sec a]|e]|] eqn:Et; [|reflexivity|].
    - destruct (HR f k0 x sec a Hf Ex Et) as [H1 H2]. rewrite <- H1.
      destruct (lookup_fun (o_funs o) sec a) as [g|] eqn:Eg; [|reflexivity].
      rewrite <- (HLK g s) by auto.
      destruct (link_function (relocate o n) g s) as [[ci s1]|] eqn:El; [|reflexivity].
      destruct (frames_link n _ _ _ _ El) as [F1 F2].
      destruct (nth_error (p_ins s1) (start + k0)) as [x1|]; [|reflexivity].
      apply IHm; [lia|cbn [with_ins p_ins]; rewrite upd_length; lia|].
      intros k Hkk. cbn [with_ins p_ins]. rewrite nth_error_upd_ne by lia. rewrite F2 by lia. apply HUs. lia.
    - apply IHm; [lia|exact Hls|]. intros k Hkk. apply HUs. lia. }
  apply HLOOP; [reflexivity|lia|]. intros k Hk. apply HU. lia.
Qed.

Lemma link_ext f : R f -> length (o_funs o) = length (o_funs o') -> link o f = link o' f.
Proof.
  intros Hf HL. unfold link. rewrite HL. rewrite relocate_ext; [reflexivity|exact Hf|cbn; lia|].
  intros k Hk. cbn. now rewrite Nat.sub_diag.
Qed.
End Ext.

Lemma replace_fun_length g l : length (replace_fun g l) = length l.
Proof. induction l as [|h l IH]; cbn [replace_fun]; [reflexivity|]. destruct (_ && _); cbn [length]; auto. Qed.

Lemma replace_fun_other g l sec a : (sec, a) <> (f_sec g, f_addr g) -> lookup_fun (replace_fun g l) sec a = lookup_fun l sec a.
Proof.
  intros Hne. induction l as [|h l IH]; cbn [replace_fun]; [reflexivity|].
  destruct (Nat.eqb (f_sec h) (f_sec g) && (f_addr h =? f_addr g)) eqn:E.
  - unfold lookup_fun. cbn [find]. apply andb_true_iff in E. destruct E as [E1 E2].
    apply Nat.eqb_eq in E1. apply Z.eqb_eq in E2. rewrite E1, E2.
    destruct (Nat.eqb_spec (f_sec g) sec), (Z.eqb_spec (f_addr g) a); cbn [andb]; try reflexivity. subst. congruence.
  - unfold lookup_fun in *. cbn [find]. rewrite IH. reflexivity.
Qed.

Lemma replace_fun_same g l : lookup_fun l (f_sec g) (f_addr g) <> None -> lookup_fun (replace_fun g l) (f_sec g) (f_addr g) = Some g.
Proof.
  unfold lookup_fun. induction l as [|h l IH]; cbn [replace_fun find]; [congruence|].
  destruct (Nat.eqb (f_sec h) (f_sec g) && (f_addr h =? f_addr g)) eqn:E; cbn [find].
  - intros _. now rewrite Nat.eqb_refl, Z.eqb_refl.
  - rewrite E. exact IH.
Qed.

Lemma lookup_in o sec a g : lookup_fun (o_funs o) sec a = Some g -> In g (o_funs o).
Proof. intros H. now apply lookup_fun_spec in H. Qed.

Lemma link_keeps_key o f g : link o f = Ok g -> f_sec g = f_sec f /\ f_addr g = f_addr f.
Proof. unfold link. destruct (relocate _ _ _ _); [|discriminate]. intros H; inversion H; auto. Qed.

(** Programs are linked independently of each other as long as none of them is
    called. *)
Lemma relocate_calls_spec o0 : forall progs o funs',
  NoDup progs ->
  o_relocs o = o_relocs o0 -> o_syms o = o_syms o0 -> o_text o = o_text o0 -> length (o_funs o) = length (o_funs o0) ->
  (forall sec a f g, In (sec, a) progs -> lookup_fun (o_funs o0) sec a = Some f -> reach o0 f g ->
     lookup_fun (o_funs o) (f_sec g) (f_addr g) = lookup_fun (o_funs o0) (f_sec g) (f_addr g) /\ ~ In (f_sec g, f_addr g) progs) ->
  (forall sec a, lookup_fun (o_funs o0) sec a = None -> lookup_fun (o_funs o) sec a = None) ->
  (forall p, In p progs -> lookup_fun (o_funs o) (fst p) (snd p) = lookup_fun (o_funs o0) (fst p) (snd p)) ->
  relocate_calls o progs = Ok funs' ->
  (forall sec a, In (sec, a) progs -> exists f g, lookup_fun (o_funs o0) sec a = Some f /\ link o0 f = Ok g /\ lookup_fun funs' sec a = Some g) /\
  (forall sec a, ~ In (sec, a) progs -> lookup_fun funs' sec a = lookup_fun (o_funs o) sec a).
Proof.
  induction progs as [|[sec a] progs IH]; intros o funs' ND H1 H2 H3 HL HC HN HP H; cbn [relocate_calls] in H.
  - inversion H; subst. split; [intros ? ? []|auto].
  - destruct (lookup_fun (o_funs o) sec a) as [f|] eqn:Ef; [|discriminate].
    destruct (link o f) as [g|] eqn:El; [|discriminate].
    inversion ND as [|? ? ND1 ND2]; subst.
    assert (Ef0 : lookup_fun (o_funs o0) sec a = Some f) by (rewrite <- Ef; symmetry; exact (HP (sec, a) (or_introl eq_refl))).
    assert (El0 : link o0 f = Ok g).
    { rewrite <- El. apply link_ext with (R := fun h => h = f \/ reach o0 f h); [congruence|congruence|congruence| |now left|congruence].
      intros h k x sec' a' Hh Hx Ht. apply target_names in Ht.
      destruct (lookup_fun (o_funs o0) sec' a') as [g'|] eqn:Eg; [|split; [symmetry; exact (HN sec' a' Eg)|discriminate]].
      destruct (lookup_fun_spec _ _ _ _ Eg) as (G1 & G2 & G3).
      assert (Hr : reach o0 f g').
      { assert (refers o0 h g') by (exists k, x, sec', a'; auto).
        destruct Hh as [->|Hh]; [now constructor 1|eapply reach_snoc; eassumption]. }
      destruct (HC sec a f g' (or_introl eq_refl) Ef0 Hr) as [C1 _]. rewrite G2, G3, Eg in C1. split; [symmetry; exact C1|].
      intros q Hq. right. assert (g' = q) by congruence. subst q. exact Hr. }
    destruct (link_keeps_key _ _ _ El) as [K1 K2].
    destruct (lookup_fun_spec _ _ _ _ Ef) as (_ & F2 & F3). rewrite F2 in K1. rewrite F3 in K2.
    match type of H with relocate_calls ?q _ = _ => specialize (IH q funs' ND2) end. cbn [o_relocs o_syms o_text o_funs] in IH.
    destruct IH as [R1 R2]; auto.
    + rewrite replace_fun_length. exact HL.
    + intros sec' a' f' g' Hin Hl Hr. destruct (HC sec' a' f' g' (or_intror Hin) Hl Hr) as [C1 C2].
      split; [|intros X; apply C2; now right]. rewrite replace_fun_other; [exact C1|].
      intros X. apply C2. left. rewrite K1, K2 in X. congruence.
    + intros sec' a' N0. rewrite replace_fun_other; [exact (HN sec' a' N0)|]. rewrite K1, K2. intros X. congruence.
    + intros p Hp. rewrite replace_fun_other; [apply HP; now right|]. rewrite K1, K2. intros X. destruct p as [p1 p2]. cbn in X. congruence.
    + cbn [o_funs] in R2. split.
      * intros sec' a' [E|Hin].
        -- assert (sec' = sec /\ a' = a) as [-> ->] by (inversion E; auto).
           exists f, g. split; [exact Ef0|]. split; [exact El0|].
           rewrite R2 by exact ND1. rewrite <- K1, <- K2. apply replace_fun_same. rewrite K1, K2. congruence.
        -- destruct (R1 sec' a' Hin) as (f' & g' & A & B & C). eauto 6.
      * intros sec' a' Hnin. rewrite R2 by (intros X; apply Hnin; now right).
        apply replace_fun_other. rewrite K1, K2. intros X. apply Hnin. left. congruence.
Qed.

(** Linking a program in a table in which only functions it does not reach differ. *)
Lemma link_same o0 o f : o_relocs o = o_relocs o0 -> o_syms o = o_syms o0 -> o_text o = o_text o0 -> length (o_funs o) = length (o_funs o0) ->
  (forall g, reach o0 f g -> lookup_fun (o_funs o) (f_sec g) (f_addr g) = lookup_fun (o_funs o0) (f_sec g) (f_addr g)) ->
  (forall sec a, lookup_fun (o_funs o0) sec a = None -> lookup_fun (o_funs o) sec a = None) -> link o0 f = link o f.
Proof.
  intros H1 H2 H3 HL HC HN. apply link_ext with (R := fun h => h = f \/ reach o0 f h); [congruence|congruence|congruence| |now left|congruence].
  intros h k x sec' a' Hh Hx Ht. apply target_names in Ht.
  destruct (lookup_fun (o_funs o0) sec' a') as [g'|] eqn:Eg; [|split; [symmetry; exact (HN sec' a' Eg)|discriminate]].
  destruct (lookup_fun_spec _ _ _ _ Eg) as (G1 & G2 & G3).
  assert (Hr : reach o0 f g').
  { assert (refers o0 h g') by (exists k, x, sec', a'; auto). destruct Hh as [->|Hh]; [now constructor 1|eapply reach_snoc; eassumption]. }
  pose proof (HC g' Hr) as C1. rewrite G2, G3, Eg in C1. split; [symmetry; exact C1|].
  intros q Hq. right. assert (g' = q) by congruence. subst q. exact Hr.
Qed.

(** If each program can be linked alone, all can be linked. *)
Lemma relocate_calls_all o0 : forall progs o,
  NoDup progs ->
  o_relocs o = o_relocs o0 -> o_syms o = o_syms o0 -> o_text o = o_text o0 -> length (o_funs o) = length (o_funs o0) ->
  (forall sec a f g, In (sec, a) progs -> lookup_fun (o_funs o0) sec a = Some f -> reach o0 f g ->
     lookup_fun (o_funs o) (f_sec g) (f_addr g) = lookup_fun (o_funs o0) (f_sec g) (f_addr g) /\ ~ In (f_sec g, f_addr g) progs) ->
  (forall sec a, lookup_fun (o_funs o0) sec a = None -> lookup_fun (o_funs o) sec a = None) ->
  (forall p, In p progs -> lookup_fun (o_funs o) (fst p) (snd p) = lookup_fun (o_funs o0) (fst p) (snd p)) ->
  (forall sec a, In (sec, a) progs -> exists f g, lookup_fun (o_funs o0) sec a = Some f /\ link o0 f = Ok g) ->
  exists funs', relocate_calls o progs = Ok funs'.
Proof.
  induction progs as [|[sec a] progs IH]; intros o ND H1 H2 H3 HL HC HN HP HA; cbn [relocate_calls]; [eauto|].
  inversion ND as [|? ? ND1 ND2]; subst. destruct (HA sec a (or_introl eq_refl)) as (f & g & Ef0 & El0).
  assert (Ef : lookup_fun (o_funs o) sec a = Some f) by (rewrite <- Ef0; exact (HP (sec, a) (or_introl eq_refl))).
  assert (El : link o f = Ok g).
  { rewrite <- El0. symmetry. apply link_same; [assumption|assumption|assumption|assumption| |exact HN]. intros q Hq. exact (proj1 (HC sec a f q (or_introl eq_refl) Ef0 Hq)). }
  rewrite Ef, El. destruct (link_keeps_key _ _ _ El) as [K1 K2]. destruct (lookup_fun_spec _ _ _ _ Ef) as (_ & F2 & F3). rewrite F2 in K1. rewrite F3 in K2.
  apply IH; cbn [o_relocs o_syms o_text o_funs]; auto.
  - rewrite replace_fun_length. exact HL.
  - intros sec' a' f' g' Hin Hl Hr. destruct (HC sec' a' f' g' (or_intror Hin) Hl Hr) as [C1 C2].
    split; [|intros X; apply C2; now right]. rewrite replace_fun_other; [exact C1|]. intros X. apply C2. left. rewrite K1, K2 in X. congruence.
  - intros sec' a' N0. rewrite replace_fun_other; [exact (HN sec' a' N0)|]. rewrite K1, K2. intros X. congruence.
  - intros p Hp. rewrite replace_fun_other; [apply HP; now right|]. rewrite K1, K2. intros X. destruct p as [p1 p2]. cbn in X. congruence.
  - intros sec' a' Hin. apply HA. now right.
Qed.
