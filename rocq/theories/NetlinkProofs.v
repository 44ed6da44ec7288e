(** Attributes: writing, reading, and reading what was written. *)
From Coq Require Import String.
From Verif Require Import Base Text NetlinkModel NetlinkSpec.
Local Open Scope Z_scope.

Lemma align4_eq n : align4 n = (n + pad4 n)%nat.
Proof.
  unfold align4, pad4.
  pose proof (Nat.div_mod (n + 3) 4 ltac:(lia)). pose proof (Nat.mod_upper_bound (n + 3) 4 ltac:(lia)).
  pose proof (Nat.div_mod n 4 ltac:(lia)). pose proof (Nat.mod_upper_bound n 4 ltac:(lia)).
  assert (n mod 4 = 0 \/ n mod 4 = 1 \/ n mod 4 = 2 \/ n mod 4 = 3)%nat as [E | [E | [E | E]]] by lia;
    rewrite E; change ((4 - 0) mod 4)%nat with 0%nat; change ((4 - 1) mod 4)%nat with 3%nat; change ((4 - 2) mod 4)%nat with 2%nat;
    change ((4 - 3) mod 4)%nat with 1%nat; lia.
Qed.
Lemma pad4_lt n : (pad4 n < 4)%nat.
Proof. unfold pad4. apply Nat.mod_upper_bound. lia. Qed.
Lemma pad4_add4 n : pad4 (4 + n) = pad4 n.
Proof. unfold pad4. replace (4 + n)%nat with (n + 1 * 4)%nat by lia. rewrite Nat.mod_add by lia. reflexivity. Qed.
Lemma pad4_mult n : ((n + pad4 n) mod 4 = 0)%nat.
Proof. rewrite <- align4_eq. unfold align4. apply Nat.mod_mul. lia. Qed.
Lemma align4_4 : align4 4 = 4%nat. Proof. reflexivity. Qed.

Lemma attr_bytes_length ty v pad : length (attr_bytes ty v pad) = (4 + length v + length pad)%nat.
Proof. unfold attr_bytes. rewrite !app_length, !le_enc_length. lia. Qed.
Lemma slice0 {A} n (l : list A) : slice 0 n l = firstn n l. Proof. reflexivity. Qed.
Lemma len_dec n rest : (Z.of_nat n < 65536) -> le_dec (slice 0 2 (le_enc 2 (Z.of_nat n) ++ rest)) = Z.of_nat n.
Proof. intro H. rewrite slice0, firstn_app_exact by (rewrite le_enc_length; reflexivity). apply le_dec_enc_small. cbn. lia. Qed.

Lemma attr_next_nil : attr_next [] = None. Proof. reflexivity. Qed.
Lemma attr_next_long b : (4 <= length b)%nat ->
  attr_next b =
    let len := Z.to_nat (le_dec (slice 0 2 b)) in
    let ty := le_dec (slice 2 2 b) in
    let rest := skipn 4 b in
    if (len <? 4)%nat then Some (Err (NHeaderLength len), [])
    else
      let payload := (len - 4)%nat in
      let apayload := (align4 len - 4)%nat in
      if (length rest <? apayload)%nat then Some (Err (NBufferLength (length rest) apayload), [])
      else
        let data := firstn apayload rest in
        if (length data <? payload)%nat then Some (Err NPanic, [])
        else Some (Ok {| at_type := ty; at_data := firstn payload data |}, skipn apayload rest).
Proof.
  intro H. unfold attr_next. destruct b as [| z b]; [cbn in H; lia |].
  replace (length (z :: b) <? 4)%nat with false by (symmetry; apply Nat.ltb_ge; exact H). reflexivity.
Qed.

Lemma attr_next_bytes ty v pad rest : pattr_ok (ty, v, pad) ->
  attr_next (attr_bytes ty v pad ++ rest) = Some (Ok {| at_type := ty; at_data := v |}, rest).
Proof.
  intros (T & V & P).
  assert (L4 : (4 <= length (attr_bytes ty v pad ++ rest))%nat) by (rewrite app_length, attr_bytes_length; lia).
  rewrite attr_next_long by exact L4. cbv zeta.
  assert (E1 : le_dec (slice 0 2 (attr_bytes ty v pad ++ rest)) = Z.of_nat (4 + length v)).
  { unfold attr_bytes. rewrite <- !app_assoc. replace (4 + Z.of_nat (length v)) with (Z.of_nat (4 + length v)) by lia.
    apply len_dec. lia. }
  assert (E2 : le_dec (slice 2 2 (attr_bytes ty v pad ++ rest)) = ty).
  { unfold attr_bytes. rewrite <- !app_assoc. rewrite slice_app_exact' by (rewrite ?le_enc_length; reflexivity).
    apply le_dec_enc_small. cbn. lia. }
  assert (E3 : skipn 4 (attr_bytes ty v pad ++ rest) = v ++ pad ++ rest).
  { unfold attr_bytes.
    replace ((le_enc 2 (4 + Z.of_nat (length v)) ++ le_enc 2 ty ++ v ++ pad) ++ rest)
      with ((le_enc 2 (4 + Z.of_nat (length v)) ++ le_enc 2 ty) ++ v ++ pad ++ rest) by (rewrite <- !app_assoc; reflexivity).
    apply skipn_app_exact. rewrite app_length, !le_enc_length. reflexivity. }
  rewrite E1, E2, E3, Nat2Z.id, align4_eq, pad4_add4.
  replace (4 + length v <? 4)%nat with false by (symmetry; apply Nat.ltb_ge; lia).
  replace (4 + length v - 4)%nat with (length v) by lia.
  replace (4 + length v + pad4 (length v) - 4)%nat with (length (v ++ pad)) by (rewrite app_length; lia).
  rewrite app_assoc. rewrite firstn_app_exact, skipn_app_exact by reflexivity.
  replace (length ((v ++ pad) ++ rest) <? length (v ++ pad))%nat with false by (symmetry; apply Nat.ltb_ge; rewrite !app_length; lia).
  replace (length (v ++ pad) <? length v)%nat with false by (symmetry; apply Nat.ltb_ge; rewrite app_length; lia).
  rewrite firstn_app_exact by reflexivity. reflexivity.
Qed.

(** ** The loop *)

Lemma attr_next_shrinks b r b' : attr_next b = Some (r, b') -> (length b' < length b)%nat.
Proof.
  intro H. destruct (Nat.eq_dec (length b) 0) as [Z0 | NZ]; [destruct b; [discriminate | discriminate Z0] |].
  destruct (Nat.le_gt_cases 4 (length b)) as [L | L].
  - rewrite attr_next_long in H by exact L. cbv zeta in H.
    repeat match type of H with context [if ?c then _ else _] => destruct c end;
      apply some_inj, pair_equal_spec in H; destruct H as [_ <-]; rewrite ?skipn_length; cbn [length]; lia.
  - unfold attr_next in H. replace (length b <? 4)%nat with true in H by (symmetry; apply Nat.ltb_lt; exact L).
    destruct b; [discriminate |]. apply some_inj, pair_equal_spec in H. destruct H as [_ <-]. cbn. lia.
Qed.
Lemma attrs_go_fuel b : forall n m, (length b < n)%nat -> (length b < m)%nat -> attrs_go n b = attrs_go m b.
Proof.
  remember (length b) as k eqn:E. revert b E. induction k as [k IH] using lt_wf_ind. intros b E n m N M.
  destruct n as [| n]; [lia |]. destruct m as [| m]; [lia |]. cbn [attrs_go].
  destruct (attr_next b) as [[r b'] |] eqn:A; [| reflexivity]. f_equal.
  pose proof (attr_next_shrinks _ _ _ A) as S1. apply (IH (length b')); lia.
Qed.
Lemma attrs_unfold b : attrs b = match attr_next b with None => [] | Some (r, b') => r :: attrs b' end.
Proof.
  unfold attrs at 1. cbn [attrs_go]. destruct (attr_next b) as [[r b'] |] eqn:A; [| reflexivity]. f_equal.
  pose proof (attr_next_shrinks _ _ _ A) as S1. apply attrs_go_fuel; lia.
Qed.
Lemma attrs_nil : attrs [] = []. Proof. reflexivity. Qed.
Lemma attrs_app l rest : Forall pattr_ok l -> attrs (attrs_bytes l ++ rest) = map Ok (plain l) ++ attrs rest.
Proof.
  induction 1 as [| [[ty v] pad] l P _ IH]; [reflexivity |].
  unfold attrs_bytes, plain. cbn [map concat]. rewrite <- app_assoc. fold (attrs_bytes l) (plain l).
  rewrite attrs_unfold, (attr_next_bytes ty v pad _ P), IH. reflexivity.
Qed.
Lemma attrs_exact l : Forall pattr_ok l -> attrs (attrs_bytes l) = map Ok (plain l).
Proof. intro H. rewrite <- (app_nil_r (attrs_bytes l)), attrs_app, attrs_nil, app_nil_r by exact H. reflexivity. Qed.

(** ** Any bytes *)

Lemma slice_decomp (b : list Z) : (4 <= length b)%nat -> b = slice 0 2 b ++ slice 2 2 b ++ skipn 4 b.
Proof.
  intro L. unfold slice. rewrite skipn_O.
  rewrite <- (firstn_skipn 2 b) at 1. f_equal.
  rewrite <- (firstn_skipn 2 (skipn 2 b)) at 1. rewrite skipn_skipn'. reflexivity.
Qed.
Lemma le_dec_bound2 b : bytes_ok b = true -> length b = 2%nat -> 0 <= le_dec b < 65536.
Proof. intros B L. pose proof (le_dec_bound b B) as H. rewrite L in H. exact H. Qed.

Lemma attr_next_cases b : bytes_ok b = true -> b <> [] ->
  (exists a rest, pattr_ok a /\ b = attrs_bytes [a] ++ rest) \/ (exists e, malformed b e /\ attr_next b = Some (Err e, [])).
Proof.
  intros B NE. destruct (Nat.lt_ge_cases (length b) 4) as [L | L].
  - right. exists (NBufferLength (length b) 4). split.
    + constructor. destruct b; [contradiction |]. cbn in *. lia.
    + unfold attr_next. destruct b as [| z b]; [contradiction |].
      replace (length (z :: b) <? 4)%nat with true by (symmetry; apply Nat.ltb_lt; exact L). reflexivity.
  - assert (B0 : 0 <= le_dec (slice 0 2 b) < 65536)
      by (apply le_dec_bound2; [apply bytes_ok_slice, B | apply slice_length; lia]).
    set (n := Z.to_nat (le_dec (slice 0 2 b))) in *.
    assert (N : le_dec (slice 0 2 b) = Z.of_nat n) by (unfold n; lia).
    rewrite attr_next_long by exact L. cbv zeta. fold n.
    destruct (n <? 4)%nat eqn:C1.
    + right. apply Nat.ltb_lt in C1. exists (NHeaderLength n). split; [| reflexivity]. constructor; [exact L | exact N | exact C1].
    + apply Nat.ltb_ge in C1. destruct (length (skipn 4 b) <? align4 n - 4)%nat eqn:C2.
      * right. apply Nat.ltb_lt in C2. rewrite skipn_length, align4_eq in *. eexists. split; [| reflexivity].
        apply mal_data; [exact L | exact N | exact C1 | lia].
      * left. apply Nat.ltb_ge in C2. rewrite skipn_length, align4_eq in C2.
        set (ty := le_dec (slice 2 2 b)). set (v := firstn (n - 4) (skipn 4 b)).
        set (pad := firstn (pad4 n) (skipn (n - 4) (skipn 4 b))).
        exists (ty, v, pad), (skipn (pad4 n) (skipn (n - 4) (skipn 4 b))).
        assert (LV : length v = (n - 4)%nat) by (unfold v; rewrite firstn_length, skipn_length; lia).
        assert (PN : pad4 (n - 4) = pad4 n) by (rewrite <- pad4_add4; f_equal; lia).
        assert (LP : length pad = pad4 n) by (unfold pad; rewrite firstn_length, !skipn_length; lia).
        assert (TY : 0 <= ty < 65536) by (apply le_dec_bound2; [apply bytes_ok_slice, B | apply slice_length; lia]).
        split.
        -- split; [exact TY |]. split; [lia |]. rewrite LP, LV, PN. reflexivity.
        -- unfold attrs_bytes, attr_bytes. cbn [map concat]. rewrite app_nil_r, <- !app_assoc.
           unfold v, pad. rewrite (firstn_skipn (pad4 n)), (firstn_skipn (n - 4)). fold v.
           replace (4 + Z.of_nat (length v)) with (le_dec (slice 0 2 b)) by lia.
           unfold ty.
           rewrite <- (slice_length 0 2 b) at 1 by lia. rewrite le_enc_dec by apply bytes_ok_slice, B.
           rewrite <- (slice_length 2 2 b) at 2 by lia. rewrite le_enc_dec by apply bytes_ok_slice, B.
           apply slice_decomp, L.
Qed.

Lemma attrs_cases b : bytes_ok b = true -> exists l rem,
  Forall pattr_ok l /\ b = attrs_bytes l ++ rem
  /\ ((rem = [] /\ attrs b = map Ok (plain l)) \/ (exists e, malformed rem e /\ attrs b = map Ok (plain l) ++ [Err e])).
Proof.
  remember (length b) as k eqn:E. revert b E. induction k as [k IH] using lt_wf_ind. intros b E B.
  destruct b as [| z b'] eqn:Eb.
  - exists [], []. split; [constructor |]. split; [reflexivity |]. left. split; reflexivity.
  - rewrite <- Eb in *. assert (NE : b <> []) by (rewrite Eb; discriminate).
    destruct (attr_next_cases b B NE) as [([[ty v] pad] & rest & P & Hb) | (e & M & A)].
    + assert (Lr : (length rest < k)%nat).
      { rewrite E, Hb. unfold attrs_bytes. cbn [map concat]. rewrite app_nil_r, app_length, attr_bytes_length. lia. }
      assert (Br : bytes_ok rest = true).
      { rewrite Hb, bytes_ok_app in B. apply andb_prop in B. apply B. }
      destruct (IH (length rest) Lr rest eq_refl Br) as (l & rem & F & Hr & C).
      exists ((ty, v, pad) :: l), rem. split; [constructor; assumption |]. split.
      * rewrite Hb, Hr. unfold attrs_bytes. cbn [map concat]. rewrite app_nil_r, <- app_assoc. reflexivity.
      * assert (A : attrs b = Ok {| at_type := ty; at_data := v |} :: attrs rest).
        { rewrite Hb. unfold attrs_bytes. cbn [map concat]. rewrite app_nil_r, attrs_unfold, attr_next_bytes by exact P. reflexivity. }
        rewrite A. destruct C as [[R C] | (e & M & C)]; rewrite C.
        -- left. split; [exact R | reflexivity].
        -- right. exists e. split; [exact M | reflexivity].
    + exists [], b. split; [constructor |]. split; [reflexivity |]. right. exists e. split; [exact M |].
      rewrite attrs_unfold, A. reflexivity.
Qed.

(** ** Writing *)

Lemma attr_header_length ty n : length (attr_header ty n) = 4%nat.
Proof. unfold attr_header, u16b. rewrite app_length, !le_enc_length. reflexivity. Qed.
Lemma write_attr_eq buf ty v :
  write_attr buf ty v =
    if (4 + length v + pad4 (length v) <=? length buf)%nat
    then Ok (attr_bytes ty v (slice (4 + length v) (pad4 (length v)) buf), skipn (4 + length v + pad4 (length v)) buf, (4 + length v + pad4 (length v))%nat)
    else Err NNoSpace.
Proof.
  unfold write_attr, write_bytes at 1. rewrite attr_header_length, align4_4, Nat.sub_diag.
  destruct (4 <=? length buf)%nat eqn:C1.
  - cbn [bind]. unfold write_bytes. rewrite skipn_length, align4_eq.
    apply Nat.leb_le in C1.
    replace (length v + pad4 (length v) <=? length buf - 4)%nat with (4 + length v + pad4 (length v) <=? length buf)%nat
      by (destruct (4 + length v + pad4 (length v) <=? length buf)%nat eqn:X;
          [apply Nat.leb_le in X; symmetry; apply Nat.leb_le; lia | apply Nat.leb_gt in X; symmetry; apply Nat.leb_gt; lia]).
    destruct (4 + length v + pad4 (length v) <=? length buf)%nat; [| reflexivity].
    cbn [bind]. rewrite skipn_skipn'.
    unfold slice. rewrite !skipn_skipn', firstn_O, app_nil_r.
    replace (length v + pad4 (length v) - length v)%nat with (pad4 (length v)) by lia.
    replace (4 + (length v + pad4 (length v)))%nat with (4 + length v + pad4 (length v))%nat by lia.
    unfold attr_bytes, attr_header, u16b. rewrite <- !app_assoc. reflexivity.
  - cbn [bind]. apply Nat.leb_gt in C1.
    replace (4 + length v + pad4 (length v) <=? length buf)%nat with false by (symmetry; apply Nat.leb_gt; lia). reflexivity.
Qed.

Lemma write_items_ok l : Forall item_ok l -> forall buf, (items_size l <= length buf)%nat ->
  exists ps, Forall pattr_ok ps /\ plain ps = map as_attr l /\ length (attrs_bytes ps) = items_size l
    /\ write_items buf l = Ok (attrs_bytes ps, skipn (items_size l) buf).
Proof.
  induction 1 as [| [ty v] l P _ IH]; intros buf L.
  - exists []. repeat split; constructor.
  - cbn [items_size fold_right snd] in *. fold (items_size l) in *. cbn [write_items]. rewrite write_attr_eq.
    replace (4 + length v + pad4 (length v) <=? length buf)%nat with true by (symmetry; apply Nat.leb_le; lia). cbn [bind].
    destruct (IH (skipn (4 + length v + pad4 (length v)) buf)) as (ps & F & E & LE & W); [rewrite skipn_length; lia |].
    rewrite W. cbn [bind]. rewrite skipn_skipn'.
    exists ((ty, v, slice (4 + length v) (pad4 (length v)) buf) :: ps).
    assert (LP : length (slice (4 + length v) (pad4 (length v)) buf) = pad4 (length v)) by (apply slice_length; lia).
    split; [constructor; [| exact F] |].
    + destruct P as [P1 P2]. cbn in P1, P2. split; [exact P1 |]. split; [exact P2 | exact LP].
    + split; [| split].
      * unfold plain. cbn [map]. fold (plain ps). rewrite E. reflexivity.
      * unfold attrs_bytes. cbn [map concat]. fold (attrs_bytes ps). rewrite app_length, attr_bytes_length, LE, LP. lia.
      * unfold attrs_bytes. cbn [map concat]. reflexivity.
Qed.
Lemma write_items_full l : forall buf, (length buf < items_size l)%nat -> write_items buf l = Err NNoSpace.
Proof.
  induction l as [| [ty v] l IH]; intros buf L; [cbn in L; lia |].
  cbn [items_size fold_right snd] in L. fold (items_size l) in L. cbn [write_items]. rewrite write_attr_eq.
  destruct (4 + length v + pad4 (length v) <=? length buf)%nat eqn:C; [| reflexivity]. cbn [bind].
  rewrite IH; [reflexivity |]. apply Nat.leb_le in C. rewrite skipn_length. lia.
Qed.

Lemma nest_items_eq l : forall n, nest_items n l =
  match write_items (ne_rest n) l with
  | Err e => Err e
  | Ok (d, rest) => Ok {| ne_hdr := ne_hdr n; ne_done := ne_done n ++ d; ne_rest := rest; ne_type := ne_type n; ne_len := (ne_len n + items_size l)%nat |}
  end.
Proof.
  induction l as [| [ty v] l IH]; intro n.
  - cbn. rewrite app_nil_r, Nat.add_0_r. destruct n; reflexivity.
  - cbn [nest_items write_items items_size fold_right snd]. fold (items_size l). unfold nested_attr. rewrite write_attr_eq.
    destruct (4 + length v + pad4 (length v) <=? length (ne_rest n))%nat; [| reflexivity]. cbn [bind].
    rewrite IH. cbn [ne_rest ne_hdr ne_done ne_type ne_len].
    destruct (write_items (skipn (4 + length v + pad4 (length v)) (ne_rest n)) l) as [[e rest] | x]; [| reflexivity].
    cbn [bind]. rewrite <- app_assoc, <- Nat.add_assoc. reflexivity.
Qed.

Lemma items_size_aligned l : (items_size l mod 4 = 0)%nat.
Proof.
  induction l as [| [ty v] l IH]; [reflexivity |]. cbn [items_size fold_right snd]. fold (items_size l).
  replace (4 + length v + pad4 (length v) + items_size l)%nat with ((length v + pad4 (length v)) + items_size l + 1 * 4)%nat by lia.
  rewrite Nat.mod_add, <- Nat.add_mod_idemp_l, pad4_mult by lia. exact IH.
Qed.
Lemma pad4_aligned n : (n mod 4 = 0)%nat -> pad4 n = 0%nat.
Proof. intro H. unfold pad4. rewrite H. reflexivity. Qed.

Lemma lor_nested ty : 0 <= ty < 32768 -> Z.lor 32768 ty = 32768 + ty.
Proof.
  intro H.
  assert (D : Z.land 32768 ty = 0).
  { apply Z.bits_inj'. intros i Hi. rewrite Z.land_spec, Z.bits_0.
    change 32768 with (2 ^ 15). rewrite Z.pow2_bits_eqb by lia. destruct (15 =? i) eqn:C; [| reflexivity].
    apply Z.eqb_eq in C. subst i. rewrite andb_true_l. destruct (Z.eq_dec ty 0) as [-> | N]; [reflexivity |].
    apply Z.bits_above_log2; [lia |]. apply Z.log2_lt_pow2; lia. }
  rewrite <- Z.lxor_lor by exact D. symmetry. apply Z.add_nocarry_lxor, D.
Qed.

Lemma write_nested_ok buf ty l : 0 <= ty < 32768 -> Forall item_ok l -> (4 + items_size l <= length buf)%nat -> Z.of_nat (items_size l) < 65532 ->
  exists ps, Forall pattr_ok ps /\ plain ps = map as_attr l /\ length (attrs_bytes ps) = items_size l
    /\ write_nested buf ty l = Ok (attr_bytes (32768 + ty) (attrs_bytes ps) [] ++ skipn (4 + items_size l) buf, (4 + items_size l)%nat).
Proof.
  intros T F L S1. unfold write_nested, nested_new.
  replace (4 <=? length buf)%nat with true by (symmetry; apply Nat.leb_le; lia).
  rewrite nest_items_eq. cbn [ne_rest ne_hdr ne_done ne_type ne_len].
  destruct (write_items_ok l F (skipn 4 buf)) as (ps & FP & E & LE & W); [rewrite skipn_length; lia |].
  exists ps. split; [exact FP |]. split; [exact E |]. split; [exact LE |].
  rewrite W. cbn [bind]. unfold nested_finish. cbn [ne_rest ne_hdr ne_done ne_type ne_len].
  unfold write_bytes. rewrite attr_header_length, align4_4.
  replace (4 <=? length (firstn 4 buf))%nat with true by (symmetry; apply Nat.leb_le; rewrite firstn_length; lia).
  cbn [bind]. rewrite Nat.sub_diag. unfold slice at 1. rewrite firstn_O, app_nil_r.
  replace (skipn 4 (firstn 4 buf)) with (@nil Z) by (symmetry; apply skipn_all2; rewrite firstn_length; lia).
  rewrite app_nil_r. cbn [app]. rewrite skipn_skipn'.
  unfold attr_bytes, attr_header, NLA_F_NESTED, u16b. rewrite lor_nested by exact T. rewrite app_nil_r, LE, <- !app_assoc.
  rewrite Nat2Z.inj_add. reflexivity.
Qed.
Lemma write_nested_full buf ty l : (length buf < 4 + items_size l)%nat -> write_nested buf ty l = Err NNoSpace.
Proof.
  intro L. unfold write_nested, nested_new. destruct (4 <=? length buf)%nat eqn:C.
  - rewrite nest_items_eq. cbn [ne_rest]. rewrite write_items_full; [reflexivity |].
    apply Nat.leb_le in C. rewrite skipn_length. lia.
  - rewrite nest_items_eq. cbn [ne_rest]. destruct l as [| [ty' v] l].
    + cbn [write_items bind]. unfold nested_finish, write_bytes. cbn [ne_hdr]. rewrite attr_header_length, align4_4. reflexivity.
    + rewrite write_items_full; [reflexivity |]. cbn. lia.
Qed.
