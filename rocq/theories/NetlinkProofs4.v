(** Texts in replies. *)
From Verif Require Import Base Text NetlinkModel NetlinkSpec NetlinkProofs NetlinkProofs2 NetlinkProofs3.
Local Open Scope Z_scope.

Lemma cstr_none v : (forall s, ~ c_string v s) -> cstr v = None.
Proof.
  intro H. unfold cstr. destruct (rev v) as [| x r] eqn:E; [reflexivity |]. destruct x; try reflexivity.
  destruct (existsb (Z.eqb 0) r) eqn:X; [reflexivity |]. exfalso. apply (H (rev r)). split.
  - rewrite <- (rev_involutive v), E. reflexivity.
  - intro I'. apply in_rev in I'. assert (existsb (Z.eqb 0) r = true) by (apply existsb_exists; exists 0; split; [exact I' | reflexivity]). congruence.
Qed.

Lemma texts_ok l r : texts_of l r -> error_texts (map (fun a => Ok (as_attr a)) l) = r.
Proof.
  induction 1 as [| a l r N _ IH | t v s l r T [-> N] _ IH | t v l T B]; cbn [map error_texts as_attr at_type at_data fst snd];
    rewrite ?mask14; [reflexivity | | |].
  - replace (low14 (fst a) =? 1) with false by lia. exact IH.
  - rewrite T, Z.eqb_refl, cstr_ok, IH by exact N. destruct r; reflexivity.
  - rewrite T, Z.eqb_refl, cstr_none by exact B. reflexivity.
Qed.

Lemma error_delivered m l r rest : datagram_ok (m :: rest) -> Forall item_ok l -> error_msg m l -> texts_of l r ->
  recv_all [datagram (m :: rest)] = Err (match r with Ok ts => NOs (- err_code m) ts | Err e => e end).
Proof.
  intros D F (T & C & h & LH & E) X. change [datagram (m :: rest)] with (map datagram [m :: rest]).
  rewrite recv_delivers by (constructor; [exact D | constructor]). cbn [deliver deliver_one]. rewrite T, Z.eqb_refl.
  replace (err_code m =? 0) with false by lia. rewrite E, skipn_app_exact by (symmetry; exact LH).
  rewrite attrs_items, (texts_ok l r X) by exact F. destruct r; reflexivity.
Qed.

Lemma named_opts_bad name l : (exists a, In a l /\ low14 (fst a) = 7 /\ forall s, ~ c_string (snd a) s) -> forall found,
  named_opts name (map (fun a => Ok (as_attr a)) l) found = Err NCStr.
Proof.
  intros (a & I' & T & B). induction l as [| b l IH]; [contradiction |]. intro found. cbn [map named_opts as_attr at_type at_data].
  rewrite mask14. destruct I' as [-> | I'].
  - rewrite T. cbn [Z.eqb]. replace (7 =? 7) with true by reflexivity. rewrite (cstr_none _ B). reflexivity.
  - destruct (low14 (fst b) =? 7); [destruct (cstr (snd b)); [| reflexivity] |]; apply IH, I'.
Qed.

Lemma filter_of_bad name m : bad_named m -> filter_of name (got m) = Err NCStr.
Proof.
  intros (f & nested & T & D & F1 & F2 & F3 & N1 & LN & B).
  unfold filter_of, got. cbn [m_type m_data]. rewrite T. change (44 =? RTM_NEWTFILTER) with true. cbn [negb].
  rewrite D, filter_data_eq. rewrite app_length, tcm_length.
  replace (20 + _ <? 20)%nat with false by (symmetry; apply Nat.ltb_ge; lia).
  rewrite skipn_app_exact by (rewrite tcm_length; reflexivity).
  assert (F4 : Forall item_ok (filter_items nested f)).
  { unfold filter_items. apply Forall_app. split; [exact F1 |]. constructor; [| exact F3].
    split; cbn [fst snd]; [destruct nested; lia | exact LN]. }
  rewrite attrs_items by exact F4. unfold filter_items. rewrite map_app, named_filter_other by exact N1.
  cbn [map named_filter as_attr at_type at_data fst snd]. rewrite mask14.
  replace (low14 (if nested then 32770 else 2) =? 2) with true by (destruct nested; reflexivity).
  rewrite attrs_items by exact F2. rewrite named_opts_bad by exact B. reflexivity.
Qed.

Lemma find_bad name ds ms m ms' os : Forall datagram_ok ds -> deliver ds true = Ok (map got (ms ++ m :: ms')) -> Forall2 carries ms os -> bad_named m ->
  find_filters name (map datagram ds) = Err NCStr.
Proof.
  intros F D C B. unfold find_filters. rewrite recv_delivers, D by exact F. cbn [bind]. clear D.
  induction C as [| x o ms os X _ IH]; cbn [app map filters].
  - rewrite (filter_of_bad name m B). reflexivity.
  - destruct o as [f |].
    + rewrite (filter_of_ok name x f X), IH. reflexivity.
    + unfold filter_of at 1, got at 1. cbn [m_type]. cbn in X. replace (a_type x =? RTM_NEWTFILTER) with false by (unfold RTM_NEWTFILTER; lia).
      cbn [negb bind]. rewrite IH. reflexivity.
Qed.
