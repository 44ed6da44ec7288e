(** Proofs about sanitising. *)
From Coq Require Import String.
From Verif Require Import Base Text BtfTypes BtfTypesProofs BtfModel BtfProofs BtfProofs2 BtfSanitize BtfSanitizeSpec.
Local Open Scope Z_scope.

(** The loader-only fallback of unions is not part of the encoding. *)
Definition strip (t : btype) : btype := match t with TUnion h ms _ => TUnion h ms None | t => t end.
Definition strip_fb (b : btf) : btf := set_types b (map strip (b_types b)).
Definition inv (b : btf) : Prop := btf_ok (strip_fb b).
Definition rsize (b : btf) : Z := 12 + types_size (b_types b) + Z.of_nat (length (b_strings b)).

Lemma strip_size t : type_info_size (strip t) = type_info_size t.
Proof. now destruct t. Qed.
Lemma strip_bytes t : to_bytes (strip t) = to_bytes t.
Proof. now destruct t. Qed.
Lemma strip_name t : name_offset (strip t) = name_offset t.
Proof. now destruct t. Qed.
Lemma types_size_strip ts : types_size (map strip ts) = types_size ts.
Proof. induction ts as [|t ts IH]; cbn [map types_size]; [reflexivity|]. now rewrite strip_size, IH. Qed.
Lemma types_size_app a b : types_size (a ++ b) = types_size a + types_size b.
Proof. induction a as [|x a IH]; cbn [app types_size]; lia. Qed.
Lemma types_size_pos ts : 0 <= types_size ts.
Proof. induction ts as [|x a IH]; cbn [types_size]; lia. Qed.

Lemma types_size_upd i t t' ts : nth_error ts i = Some t ->
  types_size (upd i t' ts) = types_size ts - Z.of_nat (type_info_size t) + Z.of_nat (type_info_size t').
Proof.
  revert i. induction ts as [|x ts IH]; intros [|i] H; cbn [nth_error upd types_size] in *; try discriminate.
  - assert (x = t) as -> by congruence. lia.
  - rewrite (IH i H). lia.
Qed.

Lemma map_upd {A B} (f : A -> B) i v l : map f (upd i v l) = upd i (f v) (map f l).
Proof. revert i. induction l as [|x l IH]; intros [|i]; cbn [upd map]; try reflexivity. now rewrite IH. Qed.
Lemma upd_same {A} i (v : A) l : nth_error l i = Some v -> upd i v l = l.
Proof.
  revert i. induction l as [|x l IH]; intros [|i] H; cbn [upd nth_error] in *; try discriminate; [congruence|].
  now rewrite IH.
Qed.
Lemma upd_app {A} i (v : A) l m : (i < length l)%nat -> upd i v (l ++ m) = upd i v l ++ m.
Proof.
  revert i. induction l as [|x l IH]; intros [|i] H; cbn [length upd app] in *; try lia; [reflexivity|].
  rewrite IH by lia. reflexivity.
Qed.
Lemma Forall_upd {A} (P : A -> Prop) i v l : P v -> Forall P l -> Forall P (upd i v l).
Proof. intros Hv H. revert i. induction H as [|x l Hx Hl IH]; intros [|i]; cbn [upd]; constructor; auto. Qed.

Lemma inv_rsize b : inv b -> rsize b = 24 + bh_type_len (b_hdr b) + Z.of_nat (length (b_strings b)).
Proof.
  intros (_ & _ & _ & _ & _ & ts & Hts & _ & Hty). cbn in Hts, Hty. unfold rsize.
  rewrite <- types_size_strip, Hts, Hty. cbn. lia.
Qed.

Lemma inv_facts b : inv b -> exists ts, b_types b = TUnknown :: ts /\ Forall (fun t => btype_ok (strip t)) ts.
Proof.
  intros (_ & _ & _ & _ & _ & ts & Hts & Hok & _). cbn in Hts.
  destruct (b_types b) as [|t0 ts0]; [discriminate|]. cbn [map] in Hts. injection Hts as H0 H1.
  assert (t0 = TUnknown) as -> by (destruct t0; cbn in H0; congruence).
  exists ts0. split; [reflexivity|]. subst ts. now rewrite Forall_map in Hok.
Qed.

Lemma inv_type_ok b i t : inv b -> nth_error (b_types b) i = Some t -> t <> TUnknown -> btype_ok (strip t) /\ (1 <= i)%nat.
Proof.
  intros H Hi Ht. destruct (inv_facts b H) as (ts & E & Hok). rewrite E in Hi. destruct i as [|i]; cbn [nth_error] in Hi; [congruence|].
  split; [|lia]. rewrite Forall_forall in Hok. apply Hok. eapply nth_error_In. exact Hi.
Qed.

(** * Extension by strings and types *)
Definition ext (feat : feature -> bool) (b b' : btf) : Prop :=
  exists more strs, b_types b' = b_types b ++ more /\ b_strings b' = b_strings b ++ strs /\
    Forall (appended feat) more /\
    (inv b -> rsize b' < 2 ^ 32 -> inv b') /\
    Forall (fun t => 0 <= name_offset t <= Z.of_nat (length (b_strings b')) /\ kind_of t <> KDataSec) more.

Lemma ext_refl feat b : ext feat b b.
Proof. exists [], []. rewrite !app_nil_r. repeat (split; [auto|]). constructor. Qed.
Lemma ext_rsize feat b b' : ext feat b b' -> rsize b <= rsize b'.
Proof.
  intros (m & s & E1 & E2 & _). unfold rsize. rewrite E1, E2, types_size_app, app_length. pose proof (types_size_pos m). lia.
Qed.
Lemma ext_trans feat a b c : ext feat a b -> ext feat b c -> ext feat a c.
Proof.
  intros H1 H2. pose proof (ext_rsize _ _ _ H2) as Hs.
  destruct H1 as (m1 & s1 & E1 & F1 & G1 & I1 & N1), H2 as (m2 & s2 & E2 & F2 & G2 & I2 & N2).
  exists (m1 ++ m2), (s1 ++ s2). rewrite E2, E1, F2, F1, !app_assoc. split; [reflexivity|]. split; [reflexivity|].
  split; [now apply Forall_app|]. split.
  - intros Hi Hr. apply I2; [apply I1; [exact Hi|lia]|exact Hr].
  - apply Forall_app. split; [|now rewrite F2, F1 in N2].
    eapply Forall_impl; [|exact N1]. cbv beta. intros t [Ht Hk]. split; [|exact Hk].
    rewrite F1 in Ht. rewrite (app_length (_ ++ _)). lia.
Qed.

Lemma ext_types_at feat b b' i t : ext feat b b' -> nth_error (b_types b) i = Some t -> nth_error (b_types b') i = Some t.
Proof.
  intros (m & s & E & _) H. rewrite E, nth_error_app1; [exact H|]. apply nth_error_Some. congruence.
Qed.
Lemma ext_len feat b b' : ext feat b b' -> (length (b_types b) <= length (b_types b'))%nat.
Proof. intros (m & s & E & _). rewrite E, app_length. lia. Qed.
Lemma ext_slen feat b b' : ext feat b b' -> (length (b_strings b) <= length (b_strings b'))%nat.
Proof. intros (m & s & _ & E & _). rewrite E, app_length. lia. Qed.

Lemma add_string_ext feat b name b' off :
  add_string b name = (b', off) -> ~ In 0 name ->
  ext feat b b' /\ word_ok off /\ 0 <= off <= Z.of_nat (length (b_strings b')).
Proof.
  intros E Hn.
  assert (b_types b' = b_types b /\ b_strings b' = b_strings b ++ (name ++ [0]) /\ off = u32 (Z.of_nat (length (b_strings b)))) as (E1 & E2 & E3).
  { unfold add_string in E. apply pair_equal_spec in E. destruct E as [<- <-]. auto. }
  assert (0 <= off < 2 ^ 32) as Ho by (subst off; unfold u32, wrap; apply Z.mod_pos_bound; lia).
  split; [|split; [exact Ho|]].
  - exists [], (name ++ [0]). rewrite app_nil_r. split; [exact E1|]. split; [exact E2|]. split; [constructor|].
    split; [|constructor]. intros Hi Hr.
    assert (add_string (strip_fb b) name = (strip_fb b', off)) as E'.
    { unfold add_string in *. apply pair_equal_spec in E. destruct E as [<- <-]. reflexivity. }
    refine (proj1 (btf_ok_add_string (strip_fb b) name _ _ Hi Hn _ E')).
    pose proof (inv_rsize b Hi) as Hsz.
    destruct Hi as (_ & _ & _ & Hs & _). cbn in Hs |- *. rewrite Hs.
    unfold rsize in *. rewrite E1, E2, !app_length in Hr. cbn [length] in Hr. lia.
  - rewrite E2, app_length, E3.
    unfold u32, wrap. pose proof (Z.mod_le (Z.of_nat (length (b_strings b))) (2 ^ 32)). lia.
Qed.

Lemma add_type_ext feat b t b' id :
  add_type b t = (b', id) -> btype_ok t -> appended feat t ->
  0 <= name_offset t <= Z.of_nat (length (b_strings b)) ->
  ext feat b b' /\ word_ok id /\ 0 <= id <= Z.of_nat (length (b_types b)) /\ b_strings b' = b_strings b /\
  b_types b' = b_types b ++ [t].
Proof.
  intros E Ht Ha Hnm.
  assert (b_types b' = b_types b ++ [t] /\ b_strings b' = b_strings b /\ id = u32 (Z.of_nat (length (b_types b)))) as (E1 & E2 & E3).
  { unfold add_type in E. apply pair_equal_spec in E. destruct E as [<- <-]. auto. }
  assert (0 <= id < 2 ^ 32) as Ho by (subst id; unfold u32, wrap; apply Z.mod_pos_bound; lia).
  assert (strip t = t) as Est by (destruct Ha as [[n ->]|[_ [n [i ->]]]]; reflexivity).
  split; [|split; [exact Ho|split; [|auto]]].
  - exists [t], []. rewrite app_nil_r. split; [exact E1|]. split; [exact E2|]. split; [constructor; [exact Ha|constructor]|].
    split.
    + intros Hi Hr.
      assert (add_type (strip_fb b) t = (strip_fb b', id)) as E'.
      { unfold add_type in *. apply pair_equal_spec in E. destruct E as [<- <-].
        unfold strip_fb, set_types. cbn [b_types b_hdr b_strings]. rewrite map_app, map_length. cbn [map]. now rewrite Est. }
      pose proof (inv_rsize b Hi) as Hsz.
      pose proof (types_count (strip_fb b) Hi) as Hcnt. unfold strip_fb, set_types in Hcnt. cbn [b_types b_hdr] in Hcnt.
      rewrite map_length in Hcnt.
      unfold rsize in *. rewrite E1, E2, types_size_app in Hr. cbn [types_size] in Hr.
      refine (proj1 (btf_ok_add_type (strip_fb b) t _ _ Hi Ht _ _ E')); unfold strip_fb, set_types; cbn [b_types b_hdr]; rewrite ?map_length; lia.
    + constructor; [|constructor]. rewrite E2. split; [exact Hnm|]. destruct Ha as [[n ->]|[_ [n [i ->]]]]; discriminate.
  - rewrite E3. unfold u32, wrap. pose proof (Z.mod_le (Z.of_nat (length (b_types b))) (2 ^ 32)).
    pose proof (Z.mod_pos_bound (Z.of_nat (length (b_types b))) (2 ^ 32)). lia.
Qed.

(** * Replacing one type *)
Lemma set_type_inv b i t t' :
  inv b -> nth_error (b_types b) i = Some t -> t <> TUnknown -> btype_ok (strip t') ->
  rsize (set_type b i t') < 2 ^ 32 ->
  inv (set_type (resize b (type_info_size t) (type_info_size t')) i t').
Proof.
  intros Hi Hn Ht Hok Hr. pose proof (inv_rsize b Hi) as Hsz. pose proof (inv_type_ok b i t Hi Hn Ht) as [Htok H1].
  destruct (inv_facts b Hi) as (ts & Ets & Hts). destruct i as [|i]; [lia|].
  assert (types_size (b_types (set_type b (S i) t')) = types_size (b_types b) - Z.of_nat (type_info_size t) + Z.of_nat (type_info_size t')) as Es.
  { unfold set_type, set_types. cbn [b_types]. now apply types_size_upd. }
  unfold rsize in Hr, Hsz. change (b_strings (set_type b (S i) t')) with (b_strings b) in Hr. rewrite Es in Hr.
  destruct Hi as (Hh & Hl & Ho & Hs & Hsl & ts' & Ets' & _ & Hty). cbn in Hh, Hl, Ho, Hs, Hsl, Ets', Hty.
  destruct Hh as (A1 & A2 & A3 & A4 & A5 & A6 & A7 & A8). unfold word_ok in *.
  assert (ts' = map strip ts) as -> by (rewrite Ets in Ets'; cbn [map strip] in Ets'; congruence).
  rewrite types_size_strip in Hty.
  assert (types_size (b_types b) = 12 + types_size ts) as Eb by (rewrite Ets; reflexivity).
  assert (nth_error ts i = Some t) as Hni by (rewrite Ets in Hn; exact Hn).
  assert (Z.of_nat (type_info_size t) <= types_size ts) as Hle.
  { pose proof (types_size_upd i t TUnknown ts Hni) as U. pose proof (types_size_pos (upd i TUnknown ts)) as P.
    clear -Hni. revert i Hni. induction ts as [|x ts IH]; intros [|i] H; cbn [nth_error types_size] in *; try discriminate.
    - assert (x = t) as -> by congruence. pose proof (types_size_pos ts). lia.
    - specialize (IH i H). lia. }
  assert (u32 (u32 (bh_type_len (b_hdr b) - Z.of_nat (type_info_size t)) + Z.of_nat (type_info_size t')) =
          bh_type_len (b_hdr b) - Z.of_nat (type_info_size t) + Z.of_nat (type_info_size t')) as Eu.
  { unfold u32, wrap. rewrite (Z.mod_small (bh_type_len (b_hdr b) - _)) by lia. apply Z.mod_small. lia. }
  unfold resize. destruct (Nat.eqb_spec (type_info_size t') (type_info_size t)) as [Eq|Ne].
  - unfold inv, btf_ok, strip_fb, set_type, set_types, hdr_ok, word_ok. cbn [b_hdr b_types b_strings].
    repeat (split; [lia|]). exists (map strip (upd i t' ts)). rewrite Ets. cbn [upd map]. split; [reflexivity|].
    split; [rewrite Forall_map; apply Forall_upd; assumption|].
    rewrite types_size_strip, (types_size_upd i t t' ts Hni). lia.
  - cbv zeta. rewrite Eu. unfold inv, btf_ok, strip_fb, set_type, set_types, hdr_ok, word_ok.
    cbn [b_hdr b_types b_strings bh_magic bh_version bh_flags bh_hdr_len bh_type_off bh_type_len bh_str_off bh_str_len].
    repeat (split; [lia|]). exists (map strip (upd i t' ts)). rewrite Ets. cbn [upd map]. split; [reflexivity|].
    split; [rewrite Forall_map; apply Forall_upd; assumption|].
    rewrite types_size_strip, (types_size_upd i t t' ts Hni). lia.
Qed.

Lemma resize_same b n : resize b n n = b.
Proof. unfold resize. now rewrite Nat.eqb_refl. Qed.
Lemma resize_types b o n : b_types (resize b o n) = b_types b.
Proof. unfold resize. destruct (_ =? _)%nat; reflexivity. Qed.
Lemma resize_strings b o n : b_strings (resize b o n) = b_strings b.
Proof. unfold resize. destruct (_ =? _)%nat; reflexivity. Qed.

(** * The helpers of the loop *)
Lemma string_at_no_nul b off s : string_at b off = Ok s -> ~ In 0 s.
Proof.
  unfold string_at. destruct (_ <=? off); [discriminate|]. destruct (_ <? off); [discriminate|].
  destruct (until_nul _) as [x|] eqn:E; [|discriminate]. intros H. apply ok_inj in H. subst x.
  apply until_nul_some in E. destruct E as (r & _ & H). exact H.
Qed.
Lemma replace_no_nul a b s : b <> 0 -> ~ In 0 s -> ~ In 0 (replace_char a b s).
Proof.
  intros Hb Hs Hi. unfold replace_char in Hi. apply in_map_iff in Hi. destruct Hi as (c & E & Hc).
  destruct (c =? a); [lia|]. subst. auto.
Qed.

Lemma rename_ext feat b off name fixed b' n :
  rename b off name fixed = (b', n) -> ~ In 0 fixed ->
  ext feat b b' /\ (word_ok off -> word_ok n) /\ (0 <= off <= Z.of_nat (length (b_strings b)) -> 0 <= n <= Z.of_nat (length (b_strings b'))).
Proof.
  unfold rename. destruct (str_eqb fixed name); intros E Hn.
  - apply pair_equal_spec in E. destruct E as [-> ->]. split; [apply ext_refl|auto].
  - destruct (add_string_ext feat b fixed b' n E Hn) as (A & B & C). auto.
Qed.

Lemma txt_no_nul s : forallb (fun c => negb (c =? 0)) (txt s) = true -> ~ In 0 (txt s).
Proof. intros H Hi. rewrite forallb_forall in H. specialize (H 0 Hi). discriminate. Qed.

Lemma new_var_word_ok n t : word_ok n -> word_ok t -> btype_ok (new_var n t 0).
Proof.
  intros Hn Ht. cbn [new_var btype_ok h_info].
  split; [split; [exact Hn|split; [|exact Ht]]|split; [lia|]].
  - apply (kind_info_word KVar).
  - apply (kind_info_kind KVar).
Qed.

Lemma add_filler_ext feat st st' vid : feat FDataSec = true -> add_filler st = (st', vid) ->
  (forall id, s_filler st = Some id -> word_ok id /\ 0 <= id < Z.of_nat (length (b_types (s_btf st)))) ->
  ext feat (s_btf st) (s_btf st') /\ s_filler st' = Some vid /\ s_place st' = s_place st /\
  word_ok vid /\ 0 <= vid < Z.of_nat (length (b_types (s_btf st'))).
Proof.
  intros Hf E Hw. unfold add_filler in E. destruct (s_filler st) as [id|] eqn:Es.
  - apply pair_equal_spec in E. destruct E as [-> ->]. specialize (Hw vid eq_refl). destruct Hw.
    split; [apply ext_refl|]. auto.
  - destruct (add_string (s_btf st) _) as [b1 tn] eqn:E1. destruct (add_type b1 _) as [b2 tid] eqn:E2.
    destruct (add_string b2 _) as [b3 vn] eqn:E3. destruct (add_type b3 _) as [b4 v] eqn:E4.
    apply pair_equal_spec in E. destruct E as [<- <-]. cbn [s_btf s_filler s_place].
    apply (add_string_ext feat) in E1; [|apply txt_no_nul; reflexivity]. destruct E1 as (X1 & W1 & L1).
    apply (add_type_ext feat) in E2; [|apply new_int_ok; [exact W1|unfold word_ok; lia]|left; eauto|exact L1].
    destruct E2 as (X2 & W2 & L2 & _).
    apply (add_string_ext feat) in E3; [|apply txt_no_nul; reflexivity]. destruct E3 as (X3 & W3 & L3).
    apply (add_type_ext feat) in E4; [|apply new_var_word_ok; assumption|right; eauto|exact L3].
    destruct E4 as (X4 & W4 & L4 & _ & T4).
    split; [eapply ext_trans; [exact X1|eapply ext_trans; [exact X2|eapply ext_trans; [exact X3|exact X4]]]|].
    split; [reflexivity|]. split; [reflexivity|]. split; [exact W4|]. rewrite T4, app_length. cbn [length]. lia.
Qed.

Lemma add_place_ext feat st st' vid : add_place st = (st', vid) ->
  (forall id, s_place st = Some id -> word_ok id /\ 0 <= id < Z.of_nat (length (b_types (s_btf st)))) ->
  ext feat (s_btf st) (s_btf st') /\ s_place st' = Some vid /\ s_filler st' = s_filler st /\
  word_ok vid /\ 0 <= vid < Z.of_nat (length (b_types (s_btf st'))).
Proof.
  intros E Hw. unfold add_place in E. destruct (s_place st) as [id|] eqn:Es.
  - apply pair_equal_spec in E. destruct E as [-> ->]. specialize (Hw vid eq_refl). destruct Hw.
    split; [apply ext_refl|]. auto.
  - destruct (add_string (s_btf st) _) as [b1 tn] eqn:E1. destruct (add_type b1 _) as [b2 tid] eqn:E2.
    apply pair_equal_spec in E. destruct E as [<- <-]. cbn [s_btf s_filler s_place].
    apply (add_string_ext feat) in E1; [|apply txt_no_nul; reflexivity]. destruct E1 as (X1 & W1 & L1).
    apply (add_type_ext feat) in E2; [|apply new_int_ok; [exact W1|unfold word_ok; lia]|left; eauto|exact L1].
    destruct E2 as (X2 & W2 & L2 & _ & T2).
    split; [eapply ext_trans; [exact X1|exact X2]|].
    split; [reflexivity|]. split; [reflexivity|]. split; [exact W2|]. rewrite T2, app_length. cbn [length]. lia.
Qed.

Lemma dec_go_no_nul fuel : forall n acc, ~ In 0 acc -> ~ In 0 (dec_go fuel n acc).
Proof.
  induction fuel as [|fuel IH]; intros n acc H; cbn [dec_go]; [exact H|].
  assert (~ In 0 ((48 + n mod 10) :: acc)) by (intros [E|E]; [lia|auto]).
  destruct (n / 10 =? 0); auto.
Qed.
Lemma dec_no_nul i : ~ In 0 (dec i).
Proof. apply dec_go_no_nul. intros []. Qed.

Lemma name_params_ext feat ps : forall b i b' ps',
  name_params b i ps = (b', ps') ->
  ext feat b b' /\ b_types b' = b_types b /\
  Forall2 (fun p p' => snd p' = snd p /\ (fst p' = fst p \/ (fst p = 0 /\ snd p <> 0))) ps ps' /\
  (Forall word_ok (pair_words ps) -> Forall word_ok (pair_words ps')).
Proof.
  induction ps as [|[n t] ps IH]; intros b i b' ps' E; cbn [name_params] in E.
  - apply pair_equal_spec in E. destruct E as [-> <-]. split; [apply ext_refl|]. split; [reflexivity|]. split; [constructor|auto].
  - destruct ((n =? 0) && negb (t =? 0)) eqn:Ec.
    + destruct (add_string b _) as [b1 n1] eqn:E1. destruct (name_params b1 (i + 1) ps) as [b2 ps2] eqn:E2.
      apply pair_equal_spec in E. destruct E as [-> <-].
      assert (b_types b1 = b_types b) as Et by (unfold add_string in E1; apply pair_equal_spec in E1; destruct E1 as [<- _]; reflexivity).
      apply (add_string_ext feat) in E1.
      2:{ intros Hin. apply in_app_or in Hin. destruct Hin as [Hin|Hin].
          - revert Hin. apply txt_no_nul. reflexivity.
          - revert Hin. apply dec_no_nul. }
      destruct E1 as (X1 & W1 & _).
      destruct (IH b1 (i + 1) b' ps2 E2) as (X2 & T2 & F2 & G2).
      split; [eapply ext_trans; eassumption|]. split; [congruence|].
      split.
      * constructor; [|exact F2]. cbn [fst snd]. split; [reflexivity|]. right. lia.
      * unfold pair_words. cbn [flat_map app fst snd]. intros Hw. rewrite !Forall_cons_iff in *. destruct Hw as (_ & H2 & H3).
        split; [exact W1|]. split; [exact H2|]. exact (G2 H3).
    + destruct (name_params b (i + 1) ps) as [b2 ps2] eqn:E2.
      apply pair_equal_spec in E. destruct E as [-> <-].
      destruct (IH b (i + 1) b' ps2 E2) as (X2 & T2 & F2 & G2).
      split; [exact X2|]. split; [exact T2|]. split.
      * constructor; [|exact F2]. cbn [fst snd]. auto.
      * unfold pair_words. cbn [flat_map app fst snd]. intros Hw. rewrite !Forall_cons_iff in *. destruct Hw as (H1 & H2 & H3).
        split; [exact H1|]. split; [exact H2|]. exact (G2 H3).
Qed.

