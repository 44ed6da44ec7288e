(** Requests as sent, replies as understood. *)
From Coq Require Import String.
From Verif Require Import Base Text NetlinkModel NetlinkSpec NetlinkProofs NetlinkProofs2.
Local Open Scope Z_scope.

(** ** Handles *)

Lemma land_high a : 0 <= a < 4294967296 -> Z.land a 4294901760 = a / 65536 * 65536.
Proof.
  intro H. change 65536 with (2 ^ 16). rewrite <- Z.shiftr_div_pow2, <- Z.shiftl_mul_pow2 by lia.
  change 4294901760 with (Z.shiftl (Z.ones 16) 16).
  apply Z.bits_inj'. intros i Hi. rewrite Z.land_spec, !Z.shiftl_spec by lia.
  destruct (Z.lt_ge_cases i 16) as [C | C].
  - rewrite !(Z.testbit_neg_r _ (i - 16)) by lia. apply andb_false_r.
  - rewrite Z.shiftr_spec by lia. replace (i - 16 + 16) with i by lia.
    destruct (Z.lt_ge_cases i 32) as [C2 | C2].
    + rewrite Z.ones_spec_low by lia. apply andb_true_r.
    + replace (Z.testbit a i) with false; [reflexivity |]. symmetry.
      destruct (Z.eq_dec a 0) as [-> | N]; [apply Z.bits_0 |]. apply Z.bits_above_log2; [lia |].
      apply Z.log2_lt_pow2; [lia |]. apply Z.lt_le_trans with (2 ^ 32); [lia | apply Z.pow_le_mono_r; lia].
Qed.
Lemma land_low a : Z.land a 65535 = a mod 65536.
Proof. change 65535 with (Z.ones 16). rewrite Z.land_ones by lia. reflexivity. Qed.
Lemma lor_parts h l : 0 <= l < 65536 -> Z.lor (h * 65536) l = h * 65536 + l.
Proof.
  intro H.
  assert (D : Z.land (h * 65536) l = 0).
  { change 65536 with (2 ^ 16). rewrite <- Z.shiftl_mul_pow2 by lia.
    apply Z.bits_inj'. intros i Hi. rewrite Z.land_spec, Z.shiftl_spec, Z.bits_0 by lia.
    destruct (Z.lt_ge_cases i 16) as [C | C]; [rewrite (Z.testbit_neg_r _ (i - 16)) by lia; reflexivity |].
    replace (Z.testbit l i) with false; [apply andb_false_r |]. symmetry.
    destruct (Z.eq_dec l 0) as [-> | N]; [apply Z.bits_0 |]. apply Z.bits_above_log2; [lia |].
    apply Z.log2_lt_pow2; [lia |]. apply Z.lt_le_trans with (2 ^ 16); [lia | apply Z.pow_le_mono_r; lia]. }
  rewrite <- Z.lxor_lor by exact D. symmetry. apply Z.add_nocarry_lxor, D.
Qed.
Lemma tc_make_eq a b : 0 <= a < 4294967296 -> tc_make a b = a / 65536 * 65536 + b mod 65536.
Proof. intro H. unfold tc_make. rewrite land_high, land_low by exact H. apply lor_parts. apply Z.mod_pos_bound. lia. Qed.
Lemma prio_info_eq p : 0 <= p < 65536 -> tc_prio_info p = p * 65536 + 768.
Proof.
  intro H. unfold tc_prio_info, ETH_P_ALL_BE. rewrite Z.shiftl_mul_pow2 by lia. change (2 ^ 16) with 65536.
  rewrite tc_make_eq by lia. rewrite Z.div_mul by lia. reflexivity.
Qed.
Lemma tc_parent_hook t : tc_parent t = hook t.
Proof. destruct t; reflexivity. Qed.

(** ** Requests *)

Lemma bind_bind {A B C} (x : res nerr A) (f : A -> res nerr B) (g : B -> res nerr C) : bind (bind x f) g = bind x (fun a => bind (f a) g).
Proof. destruct x; reflexivity. Qed.

Lemma sent_request ty flags body used rest :
  length body = 20%nat \/ length body = 16%nat ->
  sent (msg_header (16 + Z.of_nat (length body) + Z.of_nat (length used)) ty flags) body (used ++ rest) (16 + Z.of_nat (length body) + Z.of_nat (length used))
  = Ok (request ty flags (body ++ used)).
Proof.
  intro B. unfold sent.
  assert (LH : forall a b c, length (msg_header a b c) = 16%nat)
    by (intros; unfold msg_header, u32b, u16b; rewrite !app_length, !le_enc_length; reflexivity).
  rewrite !app_length, LH.
  replace (Z.of_nat (16 + (length body + (length used + length rest))) <? 16 + Z.of_nat (length body) + Z.of_nat (length used)) with false by lia.
  f_equal. rewrite (app_assoc body), app_assoc. rewrite firstn_app_exact by (rewrite !app_length, LH; lia).
  unfold request, amsg_bytes, msg_header, u32b, u16b. cbn [a_type a_flags a_seq a_port a_data].
  rewrite <- !app_assoc, app_length, Nat2Z.inj_add, Z.add_assoc. reflexivity.
Qed.
Lemma tc_info_length a b c d : length (tc_info a b c d) = 20%nat.
Proof. unfold tc_info, u32b. rewrite !app_length, !le_enc_length. reflexivity. Qed.
Lemma if_info_length a b c : length (if_info a b c) = 16%nat.
Proof. unfold if_info, u32b. rewrite !app_length, !le_enc_length. reflexivity. Qed.

Lemma pad_bound n k : (n <= k)%nat -> (k mod 4 = 0)%nat -> (n + pad4 n <= k)%nat.
Proof.
  intros H K. unfold pad4. pose proof (Nat.div_mod n 4 ltac:(lia)). pose proof (Nat.mod_upper_bound n 4 ltac:(lia)).
  pose proof (Nat.div_mod k 4 ltac:(lia)). rewrite K in *.
  assert (n mod 4 = 0 \/ n mod 4 = 1 \/ n mod 4 = 2 \/ n mod 4 = 3)%nat as [E | [E | [E | E]]] by lia;
    rewrite E in *; change ((4 - 0) mod 4)%nat with 0%nat; change ((4 - 1) mod 4)%nat with 3%nat; change ((4 - 2) mod 4)%nat with 2%nat;
    change ((4 - 3) mod 4)%nat with 1%nat; lia.
Qed.
Lemma skipn_repeat {A} (x : A) n m : skipn n (repeat x m) = repeat x (m - n).
Proof.
  revert m. induction n as [| n IH]; intro m; [rewrite Nat.sub_0_r; reflexivity |]. destruct m as [| m]; [reflexivity |]. cbn. apply IH.
Qed.

Lemma items_size_app a b : items_size (a ++ b) = (items_size a + items_size b)%nat.
Proof. induction a as [| [t v] a IH]; [reflexivity |]. cbn [app items_size fold_right snd] in *. fold (items_size (a ++ b)) (items_size a). lia. Qed.
Lemma tc_options_size fd name classid : (length name <= 256)%nat -> (items_size (tc_options fd name classid) <= 284)%nat.
Proof.
  intro H. unfold tc_options. rewrite items_size_app. cbn [items_size fold_right snd].
  rewrite le_enc_length. change (pad4 4) with 0%nat. change (length [1; 0; 0; 0]) with 4%nat. change (pad4 4) with 0%nat.
  pose proof (pad_bound (length name) 256 H eq_refl).
  destruct classid as [c |]; cbn [items_size fold_right snd]; rewrite ?le_enc_length; change (pad4 4) with 0%nat; lia.
Qed.
Lemma tc_options_ok fd name classid : (length name <= 256)%nat -> Forall item_ok (tc_options fd name classid).
Proof.
  intro H. apply Forall_app. split.
  - destruct classid; constructor; [| constructor]. split; cbn [fst snd]; [lia | rewrite le_enc_length; lia].
  - repeat constructor; cbn [fst snd]; try lia; rewrite ?le_enc_length; cbn; lia.
Qed.

Lemma tc_attach_attrs_ok fd name classid : (length name <= 256)%nat ->
  exists ps, Forall pattr_ok ps /\ plain ps = map as_attr (tc_options fd name classid)
    /\ length (attrs_bytes ps) = items_size (tc_options fd name classid)
    /\ tc_attach_attrs fd name classid =
       Ok (attr_bytes 1 [98; 112; 102; 0] [] ++ attr_bytes 32770 (attrs_bytes ps) [] ++ repeat 0 (284 - items_size (tc_options fd name classid)),
           (12 + items_size (tc_options fd name classid))%nat).
Proof.
  intro H.
  pose proof (tc_options_size fd name classid H) as SZ.
  destruct (write_nested_ok (repeat 0 288) 2 (tc_options fd name classid)) as (ps & F & E & L & W);
    [lia | apply tc_options_ok, H | rewrite repeat_length; lia | lia |].
  exists ps. split; [exact F |]. split; [exact E |]. split; [exact L |].
  unfold tc_attach_attrs. replace (256 <? length name)%nat with false by (symmetry; apply Nat.ltb_ge; exact H).
  rewrite write_attr_eq. unfold TC_ATTRS. rewrite repeat_length.
  change (length (txt "bpf" ++ [0])) with 4%nat. change (pad4 4) with 0%nat. change (4 + 4 + 0 <=? 296)%nat with true. cbv iota.
  cbn [bind]. change (4 + 4 + 0)%nat with 8%nat. rewrite skipn_repeat. change (296 - 8)%nat with 288%nat.
  change (slice (4 + 4) 0 (repeat 0 296)) with (@nil Z). change (txt "bpf" ++ [0]) with [98; 112; 102; 0].
  assert (G : forall g : list Z * nat -> res nerr (list Z * nat),
    bind (match classid with None => Ok (nested_new (repeat 0 288) 2) | Some c => nested_attr (nested_new (repeat 0 288) 2) 3 (u32b c) end) (fun n =>
    bind (nested_attr n 6 (u32b fd)) (fun n => bind (nested_attr n 7 name) (fun n => bind (nested_attr n 8 (u32b 1)) (fun n =>
    bind (nested_finish n) g)))) = bind (write_nested (repeat 0 288) 2 (tc_options fd name classid)) g).
  { intro g. unfold write_nested, tc_options. rewrite bind_bind. change (u32b 1) with [1; 0; 0; 0]. unfold u32b.
    destruct classid as [c |]; cbn [app nest_items]; repeat (rewrite bind_bind; cbn [bind]).
    - match goal with |- bind ?x _ = bind ?x _ => destruct x as [n1 |]; [cbn [bind] | reflexivity] end. rewrite bind_bind.
      match goal with |- bind ?x _ = bind ?x _ => destruct x as [n2 |]; [cbn [bind] | reflexivity] end. rewrite bind_bind.
      match goal with |- bind ?x _ = bind ?x _ => destruct x as [n3 |]; [cbn [bind] | reflexivity] end. rewrite bind_bind.
      match goal with |- bind ?x _ = bind ?x _ => destruct x as [n4 |]; reflexivity end.
    - cbn [bind]. match goal with |- bind ?x _ = bind ?x _ => destruct x as [n2 |]; [cbn [bind] | reflexivity] end. rewrite bind_bind.
      match goal with |- bind ?x _ = bind ?x _ => destruct x as [n3 |]; [cbn [bind] | reflexivity] end. rewrite bind_bind.
      match goal with |- bind ?x _ = bind ?x _ => destruct x as [n4 |]; reflexivity end. }
  rewrite G, W. cbn [bind]. rewrite skipn_repeat.
  rewrite align4_eq. rewrite (pad4_aligned (8 + (4 + items_size (tc_options fd name classid)))).
  - set (k := items_size (tc_options fd name classid)) in *. clearbody k.
    replace (288 - (4 + k))%nat with (284 - k)%nat by lia. replace (8 + (4 + k) + 0)%nat with (12 + k)%nat by lia. reflexivity.
  - replace (8 + (4 + items_size (tc_options fd name classid)))%nat with (items_size (tc_options fd name classid) + 3 * 4)%nat by lia.
    rewrite Nat.mod_add by lia. apply items_size_aligned.
Qed.

Lemma attach_request_ok if_index t fd name prio handle classid (create : bool) : (length name <= 256)%nat -> 0 <= prio < 65536 ->
  exists a opts, attach_request if_index t fd name prio handle classid create
      = Ok (request 44 (if create then 1549 else 13) (tcm if_index handle (hook t) (prio * 65536 + 768) ++ a))
    /\ attrs a = [Ok {| at_type := 1; at_data := [98; 112; 102; 0] |}; Ok {| at_type := 32770; at_data := opts |}]
    /\ attrs opts = map (fun i => Ok (as_attr i)) (tc_options fd name classid)
    /\ (length a <= 296)%nat.
Proof.
  intros H P. destruct (tc_attach_attrs_ok fd name classid H) as (ps & F & E & L & W).
  pose proof (tc_options_size fd name classid H) as SZ.
  set (a := attr_bytes 1 [98; 112; 102; 0] [] ++ attr_bytes 32770 (attrs_bytes ps) []).
  assert (LA : length a = (12 + items_size (tc_options fd name classid))%nat).
  { unfold a. rewrite app_length, !attr_bytes_length, L. cbn [length]. lia. }
  exists a, (attrs_bytes ps). split; [| split; [| split]].
  - unfold attach_request. rewrite W. cbn [bind].
    replace (36 + Z.of_nat (12 + items_size (tc_options fd name classid)))
      with (16 + Z.of_nat (length (tc_info if_index handle (tc_parent t) (tc_prio_info prio))) + Z.of_nat (length a)) by (rewrite tc_info_length; lia).
    rewrite (app_assoc (attr_bytes 1 _ _)). fold a. rewrite sent_request by (left; apply tc_info_length).
    rewrite tc_parent_hook, prio_info_eq by exact P. unfold tc_info, tcm, u32b, RTM_NEWTFILTER.
    destruct create; reflexivity.
  - assert (PA : Forall pattr_ok [(1, [98; 112; 102; 0], []); (32770, attrs_bytes ps, [])]).
    { constructor; [split; [lia |]; split; [cbn; lia | reflexivity] |]. constructor; [| constructor].
      split; [lia |]. rewrite L. split; [lia |]. rewrite pad4_aligned; [reflexivity | apply items_size_aligned]. }
    pose proof (attrs_exact _ PA) as X. unfold attrs_bytes at 1 in X. cbn [map concat] in X. rewrite app_nil_r in X. exact X.
  - rewrite attrs_exact by exact F. rewrite E, map_map. reflexivity.
  - lia.
Qed.
Lemma attach_request_long if_index t fd name prio handle classid create : (256 < length name)%nat ->
  attach_request if_index t fd name prio handle classid create = Err NNameTooLong.
Proof.
  intro H. unfold attach_request, tc_attach_attrs. replace (256 <? length name)%nat with true by (symmetry; apply Nat.ltb_lt; exact H). reflexivity.
Qed.

Lemma detach_request_ok if_index t prio handle : 0 <= prio < 65536 ->
  detach_request if_index t prio handle = Ok (request 45 5 (tcm if_index handle (hook t) (prio * 65536 + 768))).
Proof.
  intro P. unfold detach_request.
  change 36 with (16 + 20 + Z.of_nat (length (@nil Z))). change 20 with (Z.of_nat 20).
  rewrite <- (tc_info_length if_index handle (tc_parent t) (tc_prio_info prio)) at 1 2.
  rewrite <- (app_nil_l (repeat 0 TC_ATTRS)). rewrite sent_request by (left; apply tc_info_length).
  rewrite tc_parent_hook, prio_info_eq, app_nil_r by exact P. reflexivity.
Qed.
Lemma find_request_ok if_index t : find_request if_index t = Ok (request 46 769 (tcm if_index 0 (hook t) 0)).
Proof.
  unfold find_request. change 36 with (16 + 20 + Z.of_nat (length (@nil Z))). change 20 with (Z.of_nat 20).
  rewrite <- (tc_info_length if_index 0 (tc_parent t) 0) at 1 2.
  rewrite <- (app_nil_l (repeat 0 TC_ATTRS)). rewrite sent_request by (left; apply tc_info_length).
  rewrite tc_parent_hook, app_nil_r. reflexivity.
Qed.
Lemma clsact_request_ok if_index :
  clsact_request if_index = Ok (request 36 1541 (tcm if_index 4294901760 4294967281 0 ++ attr_bytes 1 [99; 108; 115; 97; 99; 116; 0] [0])).
Proof.
  unfold clsact_request. rewrite write_attr_eq. unfold TC_ATTRS. rewrite repeat_length.
  change (length (txt "clsact" ++ [0])) with 7%nat. change (pad4 7) with 1%nat. change (4 + 7 + 1 <=? 296)%nat with true. cbv iota. cbn [bind].
  change (4 + 7 + 1)%nat with 12%nat. change (align4 12) with 12%nat. change (slice (4 + 7) 1 (repeat 0 296)) with [0].
  change (txt "clsact" ++ [0]) with [99; 108; 115; 97; 99; 116; 0].
  change (36 + Z.of_nat 12) with (16 + Z.of_nat 20 + Z.of_nat (length (attr_bytes 1 [99; 108; 115; 97; 99; 116; 0] [0]))).
  rewrite <- (tc_info_length if_index (tc_make TC_H_CLSACT 0) (tc_make TC_H_CLSACT TC_H_CLSACT) 0) at 1 2.
  rewrite sent_request by (left; apply tc_info_length). reflexivity.
Qed.

Definition xdp_items (fd expected : option Z) (mode : xdp_mode) : list item :=
  (1, le_enc 4 (match fd with Some f => f | None => -1 end)) ::
  match expected with
  | None => [(3, le_enc 4 (xdp_mode_bits mode + 1))]
  | Some e => [(3, le_enc 4 (xdp_mode_bits mode + 17)); (8, le_enc 4 e)]
  end.
Lemma xdp_request_ok if_index fd expected mode :
  exists a opts, xdp_request if_index fd expected mode
      = Ok (request 19 5 ([0; 0; 0; 0] ++ le_enc 4 if_index ++ le_enc 4 0 ++ le_enc 4 0 ++ a))
    /\ attrs a = [Ok {| at_type := 32811; at_data := opts |}]
    /\ attrs opts = map (fun i => Ok (as_attr i)) (xdp_items fd expected mode)
    /\ (length a <= 64)%nat.
Proof.
  assert (SZ : (items_size (xdp_items fd expected mode) <= 24)%nat /\ (items_size (xdp_items fd expected mode) mod 4 = 0)%nat).
  { split; [| apply items_size_aligned]. unfold xdp_items. destruct expected; cbn [items_size fold_right snd]; rewrite !le_enc_length; change (pad4 4) with 0%nat; lia. }
  destruct SZ as [SZ AL].
  destruct (write_nested_ok (repeat 0 64) 43 (xdp_items fd expected mode)) as (ps & F & E & L & W).
  { lia. }
  { unfold xdp_items. destruct expected; repeat constructor; cbn [fst snd]; try lia; rewrite ?le_enc_length; lia. }
  { rewrite repeat_length. lia. }
  { lia. }
  set (a := attr_bytes 32811 (attrs_bytes ps) []).
  assert (LA : length a = (4 + items_size (xdp_items fd expected mode))%nat).
  { unfold a. rewrite attr_bytes_length, L. cbn [length]. lia. }
  exists a, (attrs_bytes ps). split; [| split; [| split]].
  - assert (G : forall g : list Z * nat -> res nerr (list Z),
      (bind (nested_attr (nested_new (repeat 0 64) 43) 1 (u32b (match fd with Some f => f | None => -1 end))) (fun n =>
        let flags := Z.lor (xdp_flags mode) XDP_UPDATE_IF_NOEXIST in
        let flags := match expected with None => flags | Some _ => Z.lor flags XDP_REPLACE end in
        bind (if flags =? 0 then Ok n else nested_attr n 3 (u32b flags)) (fun n =>
        bind (match expected with None => Ok n | Some e => nested_attr n 8 (u32b e) end) (fun n => bind (nested_finish n) g))))
      = bind (write_nested (repeat 0 64) 43 (xdp_items fd expected mode)) g).
    { intro g. unfold write_nested, xdp_items. rewrite bind_bind. cbn [nest_items]. rewrite bind_bind. unfold u32b.
      match goal with |- bind ?x _ = bind ?x _ => destruct x as [n1 |]; [cbn [bind] | reflexivity] end.
      destruct expected as [e |]; cbv zeta; cbn [nest_items].
      - replace (Z.lor (Z.lor (xdp_flags mode) XDP_UPDATE_IF_NOEXIST) XDP_REPLACE) with (xdp_mode_bits mode + 17) by (destruct mode; reflexivity).
        replace (xdp_mode_bits mode + 17 =? 0) with false by (destruct mode; reflexivity). rewrite bind_bind.
        match goal with |- bind ?x _ = bind ?x _ => destruct x as [n2 |]; [cbn [bind] | reflexivity] end. rewrite bind_bind.
        match goal with |- bind ?x _ = bind ?x _ => destruct x as [n3 |]; reflexivity end.
      - replace (Z.lor (xdp_flags mode) XDP_UPDATE_IF_NOEXIST) with (xdp_mode_bits mode + 1) by (destruct mode; reflexivity).
        replace (xdp_mode_bits mode + 1 =? 0) with false by (destruct mode; reflexivity). rewrite bind_bind.
        match goal with |- bind ?x _ = bind ?x _ => destruct x as [n2 |]; reflexivity end. }
    unfold xdp_request. rewrite G, W. cbn [bind].
    rewrite align4_eq, (pad4_aligned (4 + _)) by (rewrite <- Nat.add_mod_idemp_r, AL by lia; reflexivity).
    change (32768 + 43) with 32811. fold a.
    replace (32 + Z.of_nat (4 + items_size (xdp_items fd expected mode) + 0))
      with (16 + Z.of_nat (length (if_info if_index 0 0)) + Z.of_nat (length a)) by (rewrite if_info_length; lia).
    rewrite sent_request by (right; apply if_info_length). unfold if_info, u32b. rewrite <- !app_assoc. reflexivity.
  - assert (PA : Forall pattr_ok [(32811, attrs_bytes ps, [])]).
    { constructor; [| constructor]. split; [lia |]. rewrite L. split; [lia |]. rewrite pad4_aligned; [reflexivity | exact AL]. }
    pose proof (attrs_exact _ PA) as X. unfold attrs_bytes at 1 in X. cbn [map concat] in X. rewrite app_nil_r in X. exact X.
  - rewrite attrs_exact by exact F. rewrite E, map_map. reflexivity.
  - lia.
Qed.
Lemma request_length ty flags data : length (request ty flags data) = (16 + length data)%nat.
Proof. unfold request. rewrite amsg_bytes_length. reflexivity. Qed.

(** ** Filters *)

Lemma cstr_ok s : ~ In 0 s -> cstr (s ++ [0]) = Some s.
Proof.
  intro H. unfold cstr. rewrite rev_unit. replace (existsb (Z.eqb 0) (rev s)) with false; [rewrite rev_involutive; reflexivity |].
  symmetry. apply not_true_is_false. intro X. apply existsb_exists in X. destruct X as (x & I & E). apply in_rev in I. apply Z.eqb_eq in E. subst x. contradiction.
Qed.
Lemma mask14 t : Z.land t NLA_TYPE_MASK = low14 t.
Proof. unfold NLA_TYPE_MASK, low14. change 16383 with (Z.ones 14). rewrite Z.land_ones by lia. reflexivity. Qed.

Definition padded (l : list item) : list pattr := map (fun a => (fst a, snd a, repeat 0 (pad4 (length (snd a))))) l.
Lemma attrs_items l : Forall item_ok l -> attrs (items_bytes l) = map (fun a => Ok (as_attr a)) l.
Proof.
  intro F. assert (E : items_bytes l = attrs_bytes (padded l)).
  { unfold items_bytes, attrs_bytes, padded. rewrite map_map. f_equal. }
  rewrite E, attrs_exact.
  - unfold plain, padded. rewrite !map_map. reflexivity.
  - unfold padded. apply Forall_map. eapply Forall_impl; [| exact F]. intros [t v] [P1 P2]. cbn [fst snd] in *.
    split; [exact P1 |]. split; [exact P2 | apply repeat_length].
Qed.

Lemma named_opts_ok name l : Forall (fun a => low14 (fst a) = 7 -> exists s, snd a = s ++ [0] /\ ~ In 0 s) l -> forall found,
  named_opts name (map (fun a => Ok (as_attr a)) l) found
  = Ok (found || existsb (fun a => (low14 (fst a) =? 7) && str_eqb (snd a) (name ++ [0])) l).
Proof.
  induction 1 as [| [t v] l P _ IH]; intro found; cbn [map named_opts existsb].
  - rewrite orb_false_r. reflexivity.
  - cbn [as_attr at_type at_data fst snd] in *. rewrite mask14. destruct (low14 t =? 7) eqn:C.
    + apply Z.eqb_eq in C. destruct (P C) as (s & E & N). subst v. rewrite (cstr_ok s N), IH.
      replace (str_eqb (s ++ [0]) (name ++ [0])) with (str_eqb s name).
      * rewrite orb_assoc. reflexivity.
      * destruct (str_eqb s name) eqn:C1; symmetry.
        -- apply str_eqb_eq in C1. subst s. apply str_eqb_eq. reflexivity.
        -- apply not_true_is_false. intro X. apply str_eqb_eq in X. apply app_inj_tail in X. destruct X as [-> _].
           assert (str_eqb name name = true) by (apply str_eqb_eq; reflexivity). congruence.
    + rewrite IH. reflexivity.
Qed.
Lemma named_filter_other name l : Forall (fun a => low14 (fst a) <> 2) l -> forall rest found,
  named_filter name (map (fun a => Ok (as_attr a)) l ++ rest) found = named_filter name rest found.
Proof.
  induction 1 as [| [t v] l P _ IH]; intros rest found; [reflexivity |].
  cbn [map app named_filter as_attr at_type fst] in *. rewrite mask14. replace (low14 t =? 2) with false by lia. apply IH.
Qed.

Lemma tcm_length i h p x : length (tcm i h p x) = 20%nat.
Proof. unfold tcm. rewrite !app_length, !le_enc_length. reflexivity. Qed.
Lemma tcm_handle i h p x : 0 <= h < 4294967296 -> tc_handle_of (tcm i h p x) = h.
Proof.
  intro H. unfold tc_handle_of, tcm. rewrite (app_assoc [0; 0; 0; 0]).
  rewrite slice_app_exact' by (rewrite ?app_length, ?le_enc_length; reflexivity). apply le_dec_enc_small. exact H.
Qed.
Lemma tcm_info i h p x : 0 <= x < 4294967296 -> tc_info_of (tcm i h p x) = x.
Proof.
  intro H. unfold tc_info_of, tcm. rewrite !app_assoc. rewrite <- (app_nil_r (le_enc 4 x)).
  rewrite slice_app_exact' by (rewrite ?app_length, ?le_enc_length; reflexivity). apply le_dec_enc_small. exact H.
Qed.
Lemma filter_data_eq nested f : filter_data nested f = tcm (f_index f) (f_handle f) (f_parent f) (f_info f) ++ items_bytes (filter_items nested f).
Proof. unfold filter_data, tcm. rewrite <- !app_assoc. reflexivity. Qed.

Lemma filter_of_ok name m f : carries m (Some f) -> filter_of name (got m) = Ok (if named name f then Some (f_prio f, f_handle f) else None).
Proof.
  intros (OK & T & nested & D). destruct OK as (H1 & H2 & H3 & F1 & F2 & F3 & NT & LN & ST).
  unfold filter_of, got. cbn [m_type m_data]. rewrite T. change (44 =? RTM_NEWTFILTER) with true. cbn [negb].
  rewrite D, filter_data_eq. rewrite app_length, tcm_length.
  replace (20 + _ <? 20)%nat with false by (symmetry; apply Nat.ltb_ge; lia).
  rewrite firstn_app_exact, skipn_app_exact by (rewrite tcm_length; reflexivity).
  apply Forall_app in NT. destruct NT as [N1 N2].
  assert (F4 : Forall item_ok (filter_items nested f)).
  { unfold filter_items. apply Forall_app. split; [exact F1 |]. constructor; [| exact F3].
    split; cbn [fst snd]; [destruct nested; lia | exact LN]. }
  rewrite attrs_items by exact F4. unfold filter_items. rewrite map_app, named_filter_other by exact N1.
  cbn [map named_filter as_attr at_type at_data fst snd]. rewrite mask14.
  replace (low14 (if nested then 32770 else 2) =? 2) with true by (destruct nested; reflexivity).
  rewrite attrs_items by exact F2. rewrite named_opts_ok by exact ST. cbn [orb bind]. fold (named name f).
  rewrite <- (app_nil_r (map _ (f_after f))). rewrite named_filter_other by exact N2. cbn [named_filter bind].
  rewrite tcm_info, tcm_handle by (unfold f_info; lia).
  replace (u16 (Z.shiftr (f_info f) 16)) with (f_prio f); [reflexivity |].
  rewrite Z.shiftr_div_pow2 by lia. change (2 ^ 16) with 65536. unfold f_info. rewrite Z.div_add_l, Z.div_small, Z.add_0_r by lia.
  unfold u16, wrap. change (2 ^ 16) with 65536. rewrite Z.mod_small by lia. reflexivity.
Qed.
Lemma filters_ok name ms os : Forall2 carries ms os -> filters name (map got ms) = Ok (chosen name os).
Proof.
  induction 1 as [| m o ms os C _ IH]; [reflexivity |]. cbn [map filters].
  destruct o as [f |].
  - rewrite (filter_of_ok name m f C), IH. cbn [bind chosen]. destruct (named name f); reflexivity.
  - unfold filter_of, got at 1. cbn [m_type]. cbn in C. replace (a_type m =? RTM_NEWTFILTER) with false by (unfold RTM_NEWTFILTER; lia).
    cbn [negb bind]. rewrite IH. reflexivity.
Qed.
Lemma find_ok name ds ms os : Forall datagram_ok ds -> deliver ds true = Ok (map got ms) -> Forall2 carries ms os ->
  find_filters name (map datagram ds) = Ok (chosen name os).
Proof. intros F D C. unfold find_filters. rewrite recv_delivers, D by exact F. cbn [bind]. apply filters_ok, C. Qed.

Fixpoint reported (l : list (option filter)) : list filter := match l with [] => [] | Some f :: l => f :: reported l | None :: l => reported l end.
Lemma new_filters_ok ms os : Forall2 carries ms os ->
  new_filters (map got ms) = Ok (map (fun f => tcm (f_index f) (f_handle f) (f_parent f) (f_info f)) (reported os)).
Proof.
  induction 1 as [| m o ms os C _ IH]; [reflexivity |]. cbn [map new_filters]. change (m_type (got m)) with (a_type m). change (m_data (got m)) with (a_data m).
  destruct o as [f |].
  - destruct C as (OK & T & nested & D). rewrite T. change (44 =? RTM_NEWTFILTER) with true. cbv iota.
    rewrite D, filter_data_eq, app_length, tcm_length.
    replace (20 + _ <? 20)%nat with false by (symmetry; apply Nat.ltb_ge; lia).
    rewrite firstn_app_exact by (rewrite tcm_length; reflexivity). rewrite IH. reflexivity.
  - cbn in C. replace (a_type m =? RTM_NEWTFILTER) with false by (unfold RTM_NEWTFILTER; lia). exact IH.
Qed.
Lemma reported_ok ms os : Forall2 carries ms os -> Forall filter_ok (reported os).
Proof.
  induction 1 as [| m o ms os C _ IH]; [constructor |]. destruct o as [f |]; cbn [reported]; [constructor; [apply C | exact IH] | exact IH].
Qed.
Lemma attach_reply_ok ds ms os : Forall datagram_ok ds -> deliver ds true = Ok (map got ms) -> Forall2 carries ms os ->
  attach_reply (map datagram ds)
  = match reported os with [] => Err NNoReply | [f] => Ok (f_prio f, f_handle f) | _ => Err NManyReplies end.
Proof.
  intros F D C. unfold attach_reply. rewrite recv_delivers, D by exact F. cbn [bind]. rewrite (new_filters_ok _ _ C). cbn [bind].
  pose proof (reported_ok _ _ C) as R. destruct (reported os) as [| f [| g l]]; [reflexivity | | reflexivity].
  cbn [map]. apply Forall_inv in R. destruct R as (H1 & H2 & H3 & _).
  rewrite tcm_info, tcm_handle by (unfold f_info; lia).
  rewrite land_high, Z.shiftr_div_pow2 by (unfold f_info; lia). change (2 ^ 16) with 65536. rewrite Z.div_mul by lia.
  unfold f_info. rewrite Z.div_add_l, Z.div_small, Z.add_0_r by lia.
  unfold u16, wrap. change (2 ^ 16) with 65536. rewrite Z.mod_small by lia. reflexivity.
Qed.
