(** Proofs about the blob codec and the string table. *)
From Verif Require Import Base BtfTypes BtfTypesProofs BtfModel.
Local Open Scope Z_scope.

Definition hdr_ok (h : bhdr) : Prop :=
  0 <= bh_magic h < 2 ^ 16 /\ 0 <= bh_version h < 2 ^ 8 /\ 0 <= bh_flags h < 2 ^ 8 /\
  word_ok (bh_hdr_len h) /\ word_ok (bh_type_off h) /\ word_ok (bh_type_len h) /\
  word_ok (bh_str_off h) /\ word_ok (bh_str_len h).

Fixpoint types_size (ts : list btype) : Z :=
  match ts with [] => 0 | t :: ts => Z.of_nat (type_info_size t) + types_size ts end.

(** A blob in the layout that [Btf::to_bytes] writes: the types directly after
    the header, the strings directly after the types. *)
Definition btf_ok (b : btf) : Prop :=
  hdr_ok (b_hdr b) /\ bh_hdr_len (b_hdr b) = 24 /\ bh_type_off (b_hdr b) = 0 /\
  bh_str_off (b_hdr b) = bh_type_len (b_hdr b) /\
  bh_str_len (b_hdr b) = Z.of_nat (length (b_strings b)) /\
  exists ts, b_types b = TUnknown :: ts /\ Forall btype_ok ts /\ bh_type_len (b_hdr b) = types_size ts.

Lemma btype_ok_known t : btype_ok t -> t <> TUnknown.
Proof. intros H E. subst. exact H. Qed.

Lemma types_bytes_length ts : Forall btype_ok ts -> Z.of_nat (length (types_bytes ts)) = types_size ts.
Proof.
  induction 1 as [|t ts Ht _ IH]; [reflexivity|]. unfold types_bytes in *. cbn [map concat types_size].
  rewrite app_length, to_bytes_length by (now apply btype_ok_known). lia.
Qed.

Lemma hdr_bytes_length h : length (hdr_bytes h) = 24%nat.
Proof. unfold hdr_bytes. now rewrite !app_length, !le_enc_length, words_length. Qed.

Lemma read_hdr_bytes h rest : hdr_ok h -> read_hdr (hdr_bytes h ++ rest) = h.
Proof.
  intros (H1 & H2 & H3 & H4 & H5 & H6 & H7 & H8). unfold read_hdr, hdr_bytes.
  set (W := words _).
  assert (skipn 4 ((le_enc 2 (bh_magic h) ++ le_enc 1 (bh_version h) ++ le_enc 1 (bh_flags h) ++ W) ++ rest) = W ++ rest) as Es.
  { rewrite !app_assoc, <- (app_assoc _ W rest). apply skipn_app_exact. now rewrite !app_length, !le_enc_length. }
  rewrite Es. subst W. pose proof (unwords_words [bh_hdr_len h; bh_type_off h; bh_type_len h; bh_str_off h; bh_str_len h] rest) as U.
  cbn [length] in U. rewrite U by (repeat (apply Forall_cons; [assumption|]); apply Forall_nil). cbn [nth].
  set (W := words _ ).
  assert (slice 0 2 ((le_enc 2 (bh_magic h) ++ le_enc 1 (bh_version h) ++ le_enc 1 (bh_flags h) ++ W) ++ rest) = le_enc 2 (bh_magic h)) as ->.
  { rewrite <- app_assoc. unfold slice. cbn [skipn]. apply firstn_app_exact. now rewrite le_enc_length. }
  assert (slice 2 1 ((le_enc 2 (bh_magic h) ++ le_enc 1 (bh_version h) ++ le_enc 1 (bh_flags h) ++ W) ++ rest) = le_enc 1 (bh_version h)) as ->.
  { rewrite <- app_assoc. unfold slice. rewrite skipn_app_exact by now rewrite le_enc_length. rewrite <- app_assoc.
    apply firstn_app_exact. now rewrite le_enc_length. }
  assert (slice 3 1 ((le_enc 2 (bh_magic h) ++ le_enc 1 (bh_version h) ++ le_enc 1 (bh_flags h) ++ W) ++ rest) = le_enc 1 (bh_flags h)) as ->.
  { rewrite (app_assoc (le_enc 2 _)), <- app_assoc. unfold slice.
    rewrite skipn_app_exact by (now rewrite app_length, !le_enc_length). rewrite <- app_assoc.
    apply firstn_app_exact. now rewrite le_enc_length. }
  rewrite (le_dec_enc_small 2), !(le_dec_enc_small 1) by (change (256 ^ Z.of_nat 2) with (2 ^ 16); change (256 ^ Z.of_nat 1) with (2 ^ 8); assumption).
  now destruct h.
Qed.

Lemma read_types_bytes ts : forall fuel, Forall btype_ok ts -> (length (types_bytes ts) <= fuel)%nat ->
  read_types fuel (types_bytes ts) = Ok ts.
Proof.
  induction ts as [|t ts IH]; intros fuel H Hf; [now destruct fuel|].
  inversion H as [|? ? Ht Hts]; subst.
  assert (types_bytes (t :: ts) = to_bytes t ++ types_bytes ts) as E by reflexivity.
  pose proof (to_bytes_length t (btype_ok_known t Ht)) as Hl.
  assert (12 <= type_info_size t)%nat as H12.
  { destruct t; cbn; lia. }
  rewrite E in *. rewrite app_length in Hf.
  destruct (to_bytes t ++ types_bytes ts) as [|x l] eqn:El.
  { apply (f_equal (@length Z)) in El. rewrite app_length in El. cbn [length] in El. lia. }
  destruct fuel as [|fuel]; [lia|]. cbn [read_types]. rewrite <- El.
  rewrite read_to_bytes by exact Ht. cbn [bind].
  rewrite app_length, Hl. destruct (Nat.ltb_spec (type_info_size t + length (types_bytes ts)) (type_info_size t)); [lia|].
  rewrite skipn_app_exact by (now rewrite Hl). rewrite IH by (auto; lia). reflexivity.
Qed.

Theorem parse_to_bytes b : btf_ok b -> btf_parse (btf_to_bytes b) = Ok b.
Proof.
  intros (Hh & Hl & Ho & Hs & Hn & ts & Hts & Hok & Hty).
  unfold btf_parse, btf_to_bytes. rewrite Hts. cbn [skipn].
  pose proof (types_bytes_length ts Hok) as Ht.
  pose proof (hdr_bytes_length (b_hdr b)) as Hhl.
  assert (length (hdr_bytes (b_hdr b) ++ types_bytes ts ++ b_strings b) = (24 + length (types_bytes ts) + length (b_strings b))%nat) as Hlen
    by (rewrite !app_length, Hhl; lia).
  rewrite Hlen. destruct (Nat.ltb_spec (24 + length (types_bytes ts) + length (b_strings b)) 24); [lia|].
  rewrite read_hdr_bytes by exact Hh. cbv zeta.
  rewrite Hl, Hs, Hn, Ho, Hty.
  match goal with |- context [Z.ltb ?a ?b] => destruct (Z.ltb_spec a b); [lia|] end.
  match goal with |- context [Z.ltb ?a ?b] => destruct (Z.ltb_spec a b); [lia|] end.
  change (Z.to_nat (24 + 0)) with 24%nat. rewrite Nat2Z.id.
  assert (slice 24 (Z.to_nat (types_size ts)) (hdr_bytes (b_hdr b) ++ types_bytes ts ++ b_strings b) = types_bytes ts) as ->.
  { unfold slice. rewrite skipn_app_exact by (now rewrite Hhl). apply firstn_app_exact. lia. }
  assert (slice (Z.to_nat (24 + types_size ts)) (length (b_strings b)) (hdr_bytes (b_hdr b) ++ types_bytes ts ++ b_strings b) = b_strings b) as ->.
  { unfold slice. rewrite app_assoc. rewrite skipn_app_exact by (rewrite app_length, Hhl; lia). apply firstn_all. }
  rewrite read_types_bytes by (auto; lia). cbn [bind]. rewrite <- Hts. now destruct b.
Qed.

(** Whatever [Btf::parse] accepts consists of representable types and kinds
    marked unknown. *)
Lemma read_types_ok fuel : forall d ts, bytes_ok d = true -> read_types fuel d = Ok ts ->
  Forall (fun t => t = TUnknown \/ btype_ok t) ts /\ types_size ts = Z.of_nat (length d).
Proof.
  induction fuel as [|fuel IH]; intros d ts Hb H.
  - destruct d; cbn in H; [|discriminate]. apply ok_inj in H. subst. split; [constructor|reflexivity].
  - destruct d as [|x d']; [cbn in H; apply ok_inj in H; subst; split; [constructor|reflexivity]|].
    remember (x :: d') as d eqn:Ed.
    assert (bind (read d) (fun t => if (length d <? type_info_size t)%nat then Err BPanic
            else bind (read_types fuel (skipn (type_info_size t) d)) (fun ts => Ok (t :: ts))) = Ok ts) as H'.
    { rewrite <- H. rewrite Ed. reflexivity. }
    clear H. destruct (read d) as [t|] eqn:Er; cbn [bind] in H'; [|discriminate].
    destruct (length d <? type_info_size t)%nat eqn:El; [discriminate|].
    destruct (read_types fuel _) as [ts'|] eqn:Et; cbn [bind] in H'; [|discriminate].
    apply ok_inj in H'. subst ts.
    destruct (IH _ _ (bytes_ok_skipn _ _ Hb) Et) as [IH1 IH2]. rewrite skipn_length in IH2.
    pose proof (read_size d t Hb Er) as Hs. split.
    + constructor; [|exact IH1]. destruct t; [now left|..]; right;
        exact (proj1 (read_ok d _ Hb Er ltac:(discriminate))).
    + cbn [types_size]. rewrite IH2. lia.
Qed.

Theorem parse_ok d b : bytes_ok d = true -> btf_parse d = Ok b ->
  hdr_ok (b_hdr b) /\ bh_str_len (b_hdr b) = Z.of_nat (length (b_strings b)) /\
  exists ts, b_types b = TUnknown :: ts /\ Forall (fun t => t = TUnknown \/ btype_ok t) ts /\
             bh_type_len (b_hdr b) = types_size ts.
Proof.
  intros Hb H. unfold btf_parse in H.
  destruct (Nat.ltb_spec (length d) 24); [discriminate|].
  assert (hdr_ok (read_hdr d)) as Hh.
  { assert (forall i n, bytes_ok (slice i n d) = true) as Hsl by (intros; apply bytes_ok_firstn, bytes_ok_skipn, Hb).
    assert (forall i n, (i + n <= 24)%nat -> 0 <= le_dec (slice i n d) < 256 ^ Z.of_nat n) as Hd.
    { intros i n Hin. pose proof (le_dec_bound (slice i n d) (Hsl i n)) as B.
      unfold slice in B at 3. rewrite firstn_length, skipn_length, Nat.min_l in B by lia. exact B. }
    pose proof (unwords_ok 5 (skipn 4 d) (bytes_ok_skipn _ _ Hb) ltac:(rewrite skipn_length; lia)) as Hw.
    pose proof (unwords_length 5 (skipn 4 d)) as Hwl.
    unfold read_hdr. destruct (unwords 5 (skipn 4 d)) as [|w0 [|w1 [|w2 [|w3 [|w4 [|]]]]]]; cbn [length] in Hwl; try lia.
    rewrite !Forall_cons_iff in Hw. destruct Hw as (W0 & W1 & W2 & W3 & W4 & _).
    unfold hdr_ok. cbn [bh_magic bh_version bh_flags bh_hdr_len bh_type_off bh_type_len bh_str_off bh_str_len nth].
    pose proof (Hd 0%nat 2%nat ltac:(lia)). pose proof (Hd 2%nat 1%nat ltac:(lia)). pose proof (Hd 3%nat 1%nat ltac:(lia)).
    change (256 ^ Z.of_nat 2) with (2 ^ 16) in *. change (256 ^ Z.of_nat 1) with (2 ^ 8) in *.
    unfold word_ok in *. lia. }
  set (h := read_hdr d) in *. cbv zeta in H.
  destruct Hh as (H1 & H2 & H3 & H4 & H5 & H6 & H7 & H8). unfold word_ok in *.
  match goal with _ : context [Z.ltb ?a ?b] |- _ => destruct (Z.ltb_spec a b); [discriminate|] end.
  match goal with _ : context [Z.ltb ?a ?b] |- _ => destruct (Z.ltb_spec a b); [discriminate|] end.
  destruct (read_types _ _) as [ts|] eqn:Et; cbn [bind] in H; [|discriminate]. apply ok_inj in H. subst b.
  cbn [b_hdr b_strings b_types].
  apply read_types_ok in Et; [|apply bytes_ok_firstn, bytes_ok_skipn, Hb]. destruct Et as [Et1 Et2].
  split; [|split].
  - unfold hdr_ok, word_ok. lia.
  - unfold slice. rewrite firstn_length, skipn_length. lia.
  - exists ts. split; [reflexivity|]. split; [exact Et1|]. rewrite Et2. unfold slice. rewrite firstn_length, skipn_length. lia.
Qed.

(** [Btf::parse] itself never panics. *)
Lemma read_types_no_panic fuel : forall d, bytes_ok d = true -> (length d <= fuel)%nat ->
  (forall d', bytes_ok d' = true -> read d' <> Err BPanic) -> read_types fuel d <> Err BPanic.
Proof.
  induction fuel as [|fuel IH]; intros d Hb Hf Hr.
  - destruct d; cbn [length] in Hf; [discriminate|lia].
  - destruct d as [|x d']; [discriminate|]. remember (x :: d') as d eqn:Ed.
    assert (read_types (S fuel) d = bind (read d) (fun t => if (length d <? type_info_size t)%nat then Err BPanic
            else bind (read_types fuel (skipn (type_info_size t) d)) (fun ts => Ok (t :: ts)))) as -> by (rewrite Ed; reflexivity).
    specialize (Hr d Hb) as Hrd. destruct (read d) as [t|e] eqn:Er; cbn [bind]; [|congruence].
    pose proof (read_size d t Hb Er). destruct (Nat.ltb_spec (length d) (type_info_size t)); [lia|].
    specialize (IH (skipn (type_info_size t) d) (bytes_ok_skipn _ _ Hb)).
    rewrite skipn_length in IH. specialize (IH ltac:(lia) Hr).
    destruct (read_types fuel _); cbn [bind]; congruence.
Qed.

(** Adding strings and types. *)
Lemma btf_ok_add_type b t b' id :
  btf_ok b -> btype_ok t -> bh_type_len (b_hdr b) + Z.of_nat (type_info_size t) < 2 ^ 32 ->
  Z.of_nat (length (b_types b)) < 2 ^ 32 ->
  add_type b t = (b', id) ->
  btf_ok b' /\ id = Z.of_nat (length (b_types b)) /\ type_by_id (b_types b') id = Ok t /\
  forall i, 0 <= i < Z.of_nat (length (b_types b)) -> type_by_id (b_types b') i = type_by_id (b_types b) i.
Proof.
  intros (Hh & Hl & Ho & Hs & Hn & ts & Hts & Hok & Hty) Ht Hlt Hlen E.
  unfold add_type in E. apply pair_equal_spec in E. destruct E as [<- <-].
  destruct Hh as (H1 & H2 & H3 & H4 & H5 & H6 & H7 & H8). unfold word_ok in *.
  assert (u32 (Z.of_nat (type_info_size t)) = Z.of_nat (type_info_size t)) as -> by (unfold u32, wrap; apply Z.mod_small; lia).
  assert (u32 (bh_type_len (b_hdr b) + Z.of_nat (type_info_size t)) = bh_type_len (b_hdr b) + Z.of_nat (type_info_size t)) as E1
    by (unfold u32, wrap; apply Z.mod_small; lia).
  rewrite Hs, E1.
  assert (u32 (Z.of_nat (length (b_types b))) = Z.of_nat (length (b_types b))) as -> by (unfold u32, wrap; apply Z.mod_small; lia).
  split; [|split; [|split]].
  - unfold btf_ok, hdr_ok, word_ok.
    cbn [b_hdr b_types b_strings bh_magic bh_version bh_flags bh_hdr_len bh_type_off bh_type_len bh_str_off bh_str_len].
    repeat (split; [lia|]). exists (ts ++ [t]). rewrite Hts. split; [reflexivity|]. split.
    + apply Forall_app. split; [exact Hok|]. now constructor.
    + rewrite Hty. clear. induction ts as [|a ts IH]; cbn [app types_size]; lia.
  - reflexivity.
  - unfold type_by_id. cbn [b_types]. rewrite Nat2Z.id, nth_error_app2, Nat.sub_diag by lia. cbn [nth_error].
    destruct (Z.leb_spec 0 (Z.of_nat (length (b_types b)))); [reflexivity|lia].
  - intros i Hi. unfold type_by_id. cbn [b_types]. rewrite nth_error_app1 by lia. reflexivity.
Qed.

Lemma until_nul_app s rest : ~ In 0 s -> until_nul (s ++ 0 :: rest) = Some s.
Proof.
  induction s as [|x s IH]; intros H; [reflexivity|]. cbn [app until_nul].
  destruct (Z.eqb_spec x 0); [subst; destruct H; now left|]. rewrite IH; [reflexivity|]. intros Hi. apply H. now right.
Qed.

Lemma until_nul_some l s : until_nul l = Some s <-> exists rest, l = s ++ 0 :: rest /\ ~ In 0 s.
Proof.
  split.
  - revert s. induction l as [|x l IH]; intros s H; [discriminate|]. cbn [until_nul] in H.
    destruct (Z.eqb_spec x 0).
    + assert (s = []) as -> by congruence. subst. exists l. split; [reflexivity|]. intros [].
    + destruct (until_nul l) as [s'|]; [|discriminate]. cbn [option_map] in H.
      assert (s = x :: s') as -> by congruence. destruct (IH s' eq_refl) as (rest & -> & Hn). exists rest.
      split; [reflexivity|]. intros [Hx|Hx]; auto.
  - intros (rest & -> & H). now apply until_nul_app.
Qed.

Lemma until_nul_none l : until_nul l = None <-> ~ In 0 l.
Proof.
  split.
  - induction l as [|x l IH]; intros H; [intros []|]. cbn [until_nul] in H. destruct (Z.eqb_spec x 0); [discriminate|].
    destruct (until_nul l); [discriminate|]. intros [Hx|Hx]; [auto|]. now apply IH.
  - intros H. destruct (until_nul l) as [s|] eqn:E; [|reflexivity]. exfalso. apply H.
    apply until_nul_some in E. destruct E as (rest & -> & _). apply in_or_app. right. now left.
Qed.

Lemma until_nul_extend l m s : until_nul l = Some s -> until_nul (l ++ m) = Some s.
Proof.
  rewrite !until_nul_some. intros (rest & -> & H). exists (rest ++ m). split; [|exact H]. now rewrite <- app_assoc.
Qed.

(** The string at an offset inside the string section: the bytes up to the
    next NUL. *)
Lemma string_at_inside b off :
  bh_hdr_len (b_hdr b) + bh_str_off (b_hdr b) + bh_str_len (b_hdr b) < 2 ^ 32 ->
  0 <= bh_hdr_len (b_hdr b) -> 0 <= bh_str_off (b_hdr b) -> 0 <= bh_str_len (b_hdr b) ->
  0 <= off < bh_str_len (b_hdr b) -> bh_str_len (b_hdr b) = Z.of_nat (length (b_strings b)) ->
  string_at b off = match until_nul (skipn (Z.to_nat off) (b_strings b)) with
                    | Some s => Ok s | None => Err (BInvalidStringOffset off) end.
Proof.
  intros Hsum H1 H2 H3 Hoff Hl. unfold string_at. unfold u32, wrap.
  rewrite (Z.mod_small (bh_str_off (b_hdr b) + bh_hdr_len (b_hdr b))) by lia. rewrite Z.mod_small by lia.
  match goal with |- context [Z.leb ?a ?b] => destruct (Z.leb_spec a b); [lia|] end.
  match goal with |- context [Z.ltb ?a ?b] => destruct (Z.ltb_spec a b); [lia|] end. reflexivity.
Qed.

Lemma btf_ok_add_string b name b' off :
  btf_ok b -> ~ In 0 name ->
  24 + bh_str_off (b_hdr b) + Z.of_nat (length (b_strings b) + length name + 1) < 2 ^ 32 ->
  add_string b name = (b', off) ->
  btf_ok b' /\ off = Z.of_nat (length (b_strings b)) /\ string_at b' off = Ok name /\ b_types b' = b_types b /\
  forall o s, 0 <= o < Z.of_nat (length (b_strings b)) -> string_at b o = Ok s -> string_at b' o = Ok s.
Proof.
  intros (Hh & Hl & Ho & Hs & Hn & ts & Hts & Hok & Hty) Hname Hsum E.
  unfold add_string in E. apply pair_equal_spec in E. destruct E as [<- <-].
  pose proof Hh as (H1 & H2 & H3 & H4 & H5 & H6 & H7 & H8). unfold word_ok in *.
  assert (Z.of_nat (length (b_strings b ++ name ++ [0])) = Z.of_nat (length (b_strings b) + length name + 1)) as El.
  { rewrite !app_length. cbn [length]. lia. }
  assert (u32 (Z.of_nat (length (b_strings b ++ name ++ [0]))) = Z.of_nat (length (b_strings b ++ name ++ [0]))) as Eu.
  { unfold u32, wrap. apply Z.mod_small. lia. }
  rewrite Eu.
  assert (u32 (Z.of_nat (length (b_strings b))) = Z.of_nat (length (b_strings b))) as -> by (unfold u32, wrap; apply Z.mod_small; lia).
  set (b' := {| b_hdr := _ |}).
  assert (bh_hdr_len (b_hdr b') = 24) as A1 by exact Hl.
  assert (bh_str_off (b_hdr b') = bh_str_off (b_hdr b)) as A2 by reflexivity.
  assert (bh_str_len (b_hdr b') = Z.of_nat (length (b_strings b'))) as A3 by reflexivity.
  assert (b_strings b' = b_strings b ++ name ++ [0]) as A4 by reflexivity.
  split; [|split; [reflexivity|split; [|split; [reflexivity|]]]].
  - unfold btf_ok, hdr_ok, word_ok. rewrite A1, A2, A3, A4, El. unfold b'.
    cbn [b_hdr b_types b_strings bh_magic bh_version bh_flags bh_hdr_len bh_type_off bh_type_len bh_str_off bh_str_len].
    repeat (split; [lia|]). exists ts. auto.
  - rewrite string_at_inside by (rewrite ?A1, ?A2, ?A3, ?A4; lia).
    rewrite A4, Nat2Z.id, skipn_app_exact by reflexivity. now rewrite until_nul_app.
  - intros o s Hob Hstr. rewrite string_at_inside in Hstr by lia.
    rewrite string_at_inside by (rewrite ?A1, ?A2, ?A3, ?A4; lia).
    destruct (until_nul _) as [s0|] eqn:Eu0 in Hstr; [|discriminate].
    rewrite A4, skipn_app. rewrite (until_nul_extend _ _ s0) by exact Eu0. exact Hstr.
Qed.
