(** Proofs about typed externs and the resolution as a whole. *)
From Verif Require Import Base Text TextParse Insn PatchModel BtfTypes BtfModel CoreSpec ExternModel ExternSpec ExternProofs PatchProofs2.
Local Open Scope Z_scope.

Lemma find_name_kind_ok b k name : forall ts i id, 0 <= i -> find_name_kind b ts i name k = Ok id ->
  exists j t, id = i + Z.of_nat j /\ nth_error ts j = Some t /\ kind_of t = k /\ type_name b t = Ok name /\
    forall j' t', (j' < j)%nat -> nth_error ts j' = Some t' -> kind_of t' = k -> type_name b t' <> Ok name.
Proof.
  induction ts as [|t ts IH]; intros i id Hi H; cbn [find_name_kind] in H; [discriminate|].
  destruct (kind_eqb (kind_of t) k) eqn:Ek.
  - destruct (type_name b t) as [n|] eqn:En; cbn [bind] in H; [|discriminate].
    destruct (str_eqb n name) eqn:E.
    + apply str_eqb_eq in E. subst n. apply ok_inj in H. subst id. exists 0%nat, t. split; [lia|]. split; [reflexivity|].
      split; [now destruct (kind_of t), k|]. split; [exact En|]. intros j' t' Hj. lia.
    + apply str_eqb_neq in E. destruct (IH (i + 1) id ltac:(lia) H) as (j & u & -> & Hn & Hk & Hu & Hf).
      exists (S j), u. split; [lia|]. split; [exact Hn|]. split; [exact Hk|]. split; [exact Hu|].
      intros [|j'] t' Hj Ht' Hk'; cbn [nth_error] in Ht'; [apply some_inj in Ht'; subst; congruence|apply (Hf j' t'); [lia|exact Ht'|exact Hk']].
  - destruct (IH (i + 1) id ltac:(lia) H) as (j & u & -> & Hn & Hk & Hu & Hf).
    exists (S j), u. split; [lia|]. split; [exact Hn|]. split; [exact Hk|]. split; [exact Hu|].
    intros [|j'] t' Hj Ht' Hk'; cbn [nth_error] in Ht'.
    + apply some_inj in Ht'. subst t'. rewrite Hk' in Ek. now destruct k.
    + apply (Hf j' t'); [lia|exact Ht'|exact Hk'].
Qed.

Lemma resolve_one_some stack local kernel ln k e1 e2 x id : resolve_one stack local kernel ln k e1 e2 x = Ok (Some id) ->
  exists t lid kid, type_by_id (b_types kernel) id = Ok t /\ kind_of t = k /\ type_name kernel t = Ok ln /\ xd_type x = Some lid /\
    compat stack (b_types local) (b_types kernel) lid kid = CRes (Ok true) /\
    match t with TFunc h => k = KFunc /\ kid = h_third h | TVar h _ => k = KVar /\ kid = h_third h | _ => False end.
Proof.
  unfold resolve_one, id_by_type_name_kind. intros H.
  destruct (find_name_kind kernel (b_types kernel) 0 ln k) as [id'|] eqn:E; [|destruct (xd_weak x); discriminate].
  apply find_name_kind_ok in E; [|lia]. destruct E as (j & t & -> & Hn & Hk & Hname & _).
  rewrite Z.add_0_l in H.
  assert (type_by_id (b_types kernel) (Z.of_nat j) = Ok t) as Ht.
  { unfold type_by_id. rewrite Nat2Z.id, Hn. destruct (Z.leb_spec 0 (Z.of_nat j)); [reflexivity|lia]. }
  rewrite Ht in H.
  destruct (match t, k with TFunc h, KFunc => Some (h_third h) | TVar h _, KVar => Some (h_third h) | _, _ => None end) as [kid|] eqn:Ekid; [|discriminate].
  destruct (xd_type x) as [lid|] eqn:Ex; [|discriminate].
  destruct (compat stack (b_types local) (b_types kernel) lid kid) as [|[[|]|]] eqn:Ec; try discriminate.
  2:{ destruct (xd_weak x); discriminate. }
  apply ok_inj in H. apply some_inj in H. subst id.
  exists t, lid, kid. split; [exact Ht|]. split; [exact Hk|]. split; [exact Hname|]. split; [reflexivity|]. split; [exact Ec|].
  destruct t; try discriminate; destruct k; try discriminate; apply some_inj in Ekid; subst; auto.
Qed.

Lemma resolve_one_none stack local kernel ln k e1 e2 x : resolve_one stack local kernel ln k e1 e2 x = Ok None -> xd_weak x = true.
Proof.
  unfold resolve_one. intros H. destruct (id_by_type_name_kind kernel ln k) as [id|]; [|destruct (xd_weak x); [reflexivity|discriminate]].
  destruct (type_by_id (b_types kernel) id) as [t|]; [|discriminate].
  destruct (match t, k with TFunc h, KFunc => Some (h_third h) | TVar h _, KVar => Some (h_third h) | _, _ => None end); [|discriminate].
  destruct (xd_type x); [|discriminate]. destruct (compat _ _ _ _ _) as [|[[|]|]]; try discriminate. destruct (xd_weak x); [reflexivity|discriminate].
Qed.

Lemma typed_one_some stack local kernel n x id : typed_one stack local kernel n x = Ok (Some id) -> typed_match stack local kernel n x id.
Proof.
  unfold typed_one, typed_match. intros H. destruct (xd_type x) as [ty|] eqn:Ex; [|discriminate].
  destruct (type_by_id (b_types local) (xd_btf x)) as [t|] eqn:Et; [|discriminate].
  destruct t; try discriminate; apply resolve_one_some in H; destruct H as (t & lid & kid & Ht & Hk & Hn & Hl & Hc & Hm);
    rewrite Ex in Hl; apply some_inj in Hl; subst lid; exists ty, kid; rewrite Ht; (split; [reflexivity|]); (split; [exact Hc|]);
    destruct t; try contradiction; destruct Hm as [X ->]; try discriminate; auto.
Qed.

Lemma typed_one_none stack local kernel n x : typed_one stack local kernel n x = Ok None -> xd_type x = None \/ xd_weak x = true.
Proof.
  unfold typed_one. intros H. destruct (xd_type x); [|now left]. right.
  destruct (type_by_id (b_types local) (xd_btf x)) as [t|]; [|discriminate].
  destruct t; try discriminate; now apply resolve_one_none in H.
Qed.

(** The collected answers. *)
Lemma collect_spec stack local kernel m : forall rs, collect_typed stack local kernel m = Ok rs ->
  (forall n x, In (n, x) m -> exists r, typed_one stack local kernel n x = Ok r /\ forall id, r = Some id -> In (n, id) rs) /\
  (forall n id, In (n, id) rs -> exists x, In (n, x) m /\ typed_one stack local kernel n x = Ok (Some id)) /\
  incl (map fst rs) (map fst m) /\ (NoDup (map fst m) -> NoDup (map fst rs)).
Proof.
  induction m as [|[k y] m IH]; intros rs H; cbn [collect_typed] in H.
  - apply ok_inj in H. subst. repeat split; try (intros ? ? []); [intros ? []|auto].
  - destruct (typed_one stack local kernel k y) as [r|] eqn:E; cbn [bind] in H; [|discriminate].
    destruct (collect_typed stack local kernel m) as [rest|]; cbn [bind] in H; [|discriminate].
    apply ok_inj in H. destruct (IH rest eq_refl) as (A & B & C & D).
    assert (incl (map fst rs) (k :: map fst rest)) as I by (subst rs; destruct r; [apply incl_refl|apply incl_tl, incl_refl]).
    split; [|split; [|split]].
    + intros n x [X|X].
      * inversion X; subst. exists r. split; [exact E|]. intros id ->. now left.
      * destruct (A n x X) as (r' & E' & P). exists r'. split; [exact E'|]. intros id Hid. subst rs. destruct r; [right|]; now apply P.
    + intros n id Hin. subst rs. destruct r as [i|].
      * destruct Hin as [X|X]; [inversion X; subst; exists y; split; [now left|exact E]|].
        destruct (B n id X) as (x & P & Q). exists x. split; [now right|exact Q].
      * destruct (B n id Hin) as (x & P & Q). exists x. split; [now right|exact Q].
    + intros z Hz. apply I in Hz. destruct Hz as [<-|Hz]; [now left|right; now apply C].
    + cbn [map fst]. intros ND. apply NoDup_cons_iff in ND. destruct ND as [N1 N2]. subst rs. destruct r; [|now apply D]. cbn [map fst]. constructor; [|now apply D].
      intros X. apply N1. now apply C.
Qed.

Lemma xset_fst n f m : map fst (xset n f m) = map fst m.
Proof. unfold xset. rewrite map_map. apply map_ext. intros [k x]. cbn [fst]. now destruct (str_eqb k n). Qed.

Lemma sets_spec rs : forall m, NoDup (map fst rs) ->
  fold_left (fun m r => xset (fst r) (set_kernel_id (snd r)) m) rs m =
  map (fun kx => match find (fun r => str_eqb (fst r) (fst kx)) rs with
                 | Some r => (fst kx, set_kernel_id (snd r) (snd kx))
                 | None => kx
                 end) m.
Proof.
  induction rs as [|[n id] rs IH]; intros m ND; cbn [fold_left].
  - rewrite <- (map_id m) at 1. now apply map_ext.
  - cbn [map fst] in ND. inversion ND; subst. rewrite IH by assumption. unfold xset. rewrite map_map. apply map_ext. intros [k x].
    cbn [fst snd find]. destruct (str_eqb k n) eqn:E.
    + apply str_eqb_eq in E. subst k. rewrite str_eqb_refl. cbn [fst snd].
      destruct (find (fun r => str_eqb (fst r) n) rs) as [[n' id']|] eqn:Ef; [|reflexivity].
      apply find_some in Ef. destruct Ef as [Hin E]. cbn [fst] in E. apply str_eqb_eq in E. subst n'.
      exfalso. apply H1. apply (in_map fst) in Hin. exact Hin.
    + cbn [fst snd]. apply str_eqb_neq in E. destruct (str_eqb n k) eqn:E'; [apply str_eqb_eq in E'; congruence|reflexivity].
Qed.

(** What typed resolution leaves. *)
Theorem typed_spec stack local kernel m m' : NoDup (map fst m) -> resolve_typed stack local kernel m = Ok m' ->
  map fst m' = map fst m /\
  forall n x, In (n, x) m ->
    (exists id, typed_match stack local kernel n x id /\ In (n, set_kernel_id id x) m') \/
    (typed_one stack local kernel n x = Ok None /\ (xd_type x = None \/ xd_weak x = true) /\ In (n, x) m').
Proof.
  intros ND H. unfold resolve_typed in H. destruct (collect_typed stack local kernel m) as [rs|] eqn:E; cbn [bind] in H; [|discriminate].
  apply ok_inj in H. destruct (collect_spec _ _ _ _ _ E) as (A & B & C & D). rewrite sets_spec in H by now apply D. subst m'. split.
  - rewrite map_map. apply map_ext. intros [k x]. cbn [fst]. now destruct (find _ rs).
  - intros n x Hin. destruct (A n x Hin) as (r & Er & Hr). destruct r as [id|].
    + left. exists id. split; [now apply typed_one_some|]. apply in_map_iff. exists (n, x). split; [|exact Hin]. cbn [fst snd].
      specialize (Hr id eq_refl). destruct (find (fun r => str_eqb (fst r) n) rs) as [[n' id']|] eqn:Ef.
      * apply find_some in Ef. destruct Ef as [Hin' Ee]. cbn [fst] in Ee. apply str_eqb_eq in Ee. subst n'.
        destruct (B n id' Hin') as (x' & Hx' & Ex'). rewrite (nodup_assoc m n x' x ND Hx' Hin) in Ex'. cbn [snd]. congruence.
      * apply (find_none _ _ Ef) in Hr. cbn [fst] in Hr. now rewrite str_eqb_refl in Hr.
    + right. split; [exact Er|]. split; [now apply typed_one_none in Er|]. apply in_map_iff. exists (n, x). split; [|exact Hin]. cbn [fst snd].
      destruct (find (fun r => str_eqb (fst r) n) rs) as [[n' id']|] eqn:Ef; [|reflexivity].
      apply find_some in Ef. destruct Ef as [Hin' Ee]. cbn [fst] in Ee. apply str_eqb_eq in Ee. subst n'.
      destruct (B n id' Hin') as (x' & Hx' & Ex'). rewrite (nodup_assoc m n x' x ND Hx' Hin) in Ex'. congruence.
Qed.

Lemma typed_inv stack local kernel m m' n x' : NoDup (map fst m) -> resolve_typed stack local kernel m = Ok m' -> In (n, x') m' ->
  exists x, In (n, x) m /\ ((exists id, typed_match stack local kernel n x id /\ x' = set_kernel_id id x) \/
    (typed_one stack local kernel n x = Ok None /\ (xd_type x = None \/ xd_weak x = true) /\ x' = x)).
Proof.
  intros ND H Hin'. destruct (typed_spec _ _ _ _ _ ND H) as [F P].
  assert (In n (map fst m)) as Hn by (rewrite <- F; apply (in_map fst) in Hin'; exact Hin').
  apply in_map_iff in Hn. destruct Hn as ([k x] & Ek & Hin). cbn [fst] in Ek. subst k. exists x. split; [exact Hin|].
  assert (NoDup (map fst m')) as ND' by (now rewrite F).
  destruct (P n x Hin) as [(id & M & I)|(O & W & I)].
  - left. exists id. split; [exact M|]. exact (nodup_assoc m' n _ _ ND' Hin' I).
  - right. split; [exact O|]. split; [exact W|]. exact (nodup_assoc m' n _ _ ND' Hin' I).
Qed.

(** The first phase, whichever way it goes, leaves no strong typed extern open. *)
Lemma first_phase_done stack local kernel m m1 : NoDup (map fst m) ->
  (match kernel with Some k => resolve_typed stack local k m | None => if strong_typed m then Err KTypedNeedsKernelBtf else Ok m end) = Ok m1 ->
  NoDup (map fst m1) /\ typed_done m1.
Proof.
  intros ND H. destruct kernel as [k|].
  - destruct (typed_spec _ _ _ _ _ ND H) as [F _]. split; [now rewrite F|]. intros n x Hin Ht.
    destruct (typed_inv _ _ _ _ _ _ _ ND H Hin) as (y & Hy & [(id & M & ->)|(O & W & ->)]); [now left|].
    destruct W as [W|W]; [contradiction|now right].
  - destruct (strong_typed m) eqn:E; [discriminate|]. apply ok_inj in H. subst m1. split; [exact ND|].
    intros n x Hin Ht. destruct (xd_weak x) eqn:W; [now right|]. exfalso.
    assert (strong_typed m = true) as X; [|congruence]. unfold strong_typed. apply existsb_exists. exists (n, x). split; [exact Hin|].
    cbn [snd]. destruct (xd_type x); [now rewrite W|contradiction].
Qed.

(** After a successful resolution of fresh externs. *)
Definition settled (stack : nat) (local : btf) (kernel : option btf) (text : list Z) (n : list Z) (x x' : xdesc) : Prop :=
  xd_weak x' = xd_weak x /\
  match xd_type x with
  | Some _ =>
      (exists k id, kernel = Some k /\ typed_match stack local k n x id /\ xd_resolved x' = true /\ xd_kernel_id x' = Some id /\ xd_addr x' = None) \/
      (xd_weak x = true /\ xd_resolved x' = false /\ xd_kernel_id x' = None /\ xd_addr x' = Some 0 /\
       (forall k, kernel = Some k -> typed_one stack local k n x = Ok None))
  | None =>
      xd_kernel_id x' = None /\
      ((exists a, (forall b, listed text n b <-> b = a) /\ xd_resolved x' = true /\ xd_addr x' = Some a) \/
       ((forall b, ~ listed text n b) /\ xd_weak x = true /\ xd_resolved x' = false /\ xd_addr x' = Some 0))
  end.

Theorem resolve_spec stack local kernel text m m' : NoDup (map fst m) -> Forall fresh m ->
  resolve_externs stack local kernel text m = Ok m' ->
  map fst m' = map fst m /\ forall n x, In (n, x) m -> exists x', In (n, x') m' /\ settled stack local kernel text n x x'.
Proof.
  intros ND FR H. unfold resolve_externs in H.
  match type of H with bind ?q _ = _ => destruct q as [m1|] eqn:E1 end; cbn [bind] in H; [|discriminate].
  destruct (first_phase_done _ _ _ _ _ ND E1) as [ND1 TD1].
  destruct (typeless_keeps _ _ _ ND1 TD1 H) as [F2 K2].
  pose proof (typeless_spec text m1 ND1 TD1) as S. rewrite H in S. destruct S as [A2 Em'].
  assert (map fst m1 = map fst m) as F1.
  { destruct kernel as [k|]; [exact (proj1 (typed_spec _ _ _ _ _ ND E1))|]. destruct (strong_typed m); [discriminate|]. apply ok_inj in E1. now subst. }
  split; [now rewrite F2, F1|]. intros n x Hin.
  assert (fresh (n, x)) as FX by (rewrite Forall_forall in FR; now apply FR).
  destruct FX as (bid & w & ty & Ex). cbn [fst snd] in Ex.
  assert (forall y, In (n, y) m1 -> In (n, final text n y) m') as Fin.
  { intros y Hy. subst m'. apply in_map_iff. exists (n, y). auto. }
  assert ((exists k id, kernel = Some k /\ typed_match stack local k n x id /\ In (n, set_kernel_id id x) m1) \/
          ((forall k, kernel = Some k -> typed_one stack local k n x = Ok None) /\ (xd_type x = None \/ xd_weak x = true) /\ In (n, x) m1)) as P.
  { destruct kernel as [k|].
    - destruct (proj2 (typed_spec _ _ _ _ _ ND E1) n x Hin) as [(id & M & I)|(O & W & I)].
      + left. exists k, id. auto.
      + right. split; [|auto]. intros k' X. apply some_inj in X. now subst.
    - right. split; [discriminate|]. destruct (strong_typed m) eqn:Es; [discriminate|]. apply ok_inj in E1. subst m1. split; [|exact Hin].
      destruct (xd_type x) eqn:Et; [right|now left].
      destruct (TD1 n x Hin) as [R|W]; [congruence|rewrite Ex in R; discriminate|exact W]. }
  destruct P as [(k & id & -> & M & I)|(O & W & I)].
  - exists (final text n (set_kernel_id id x)). split; [now apply Fin|].
    assert (final text n (set_kernel_id id x) = set_kernel_id id x) as -> by reflexivity.
    split; [reflexivity|]. pose proof M as (lid & kid & Et & _). rewrite Et. left. exists k, id. subst x. cbn. auto.
  - exists (final text n x). split; [now apply Fin|]. subst x. cbn [new_desc xd_type xd_weak] in *.
    destruct ty as [t|].
    + destruct W as [W|W]; [discriminate|]. subst w. split; [reflexivity|]. right. cbn. auto 10.
    + destruct (typeless_assigns text m1 m' n _ ND1 TD1 H I ltac:(reflexivity)) as (x' & Hx' & Q).
      assert (x' = final text n (new_desc n bid w None)) as ->.
      { assert (NoDup (map fst m')) as ND' by (now rewrite F2). exact (nodup_assoc m' n _ _ ND' Hx' (Fin _ I)). }
      split.
      { unfold final. cbn [wanted new_desc xd_resolved xd_type negb andb]. destruct (hd_error _); [reflexivity|]. unfold null_weak. cbn [new_desc xd_resolved negb andb xd_weak]. now destruct w. }
      cbn [xd_type]. split; [|exact Q].
      unfold final. cbn [wanted new_desc xd_resolved xd_type negb andb]. destruct (hd_error _); [reflexivity|]. unfold null_weak. cbn [new_desc xd_resolved negb andb xd_weak]. now destruct w.
Qed.

(** * From the listing to the instruction *)

Lemma xget_nodup m n x : NoDup (map fst m) -> In (n, x) m -> xget n m = Some x.
Proof.
  induction m as [|[k y] m IH]; [intros _ []|]. cbn [map fst xget]. intros ND Hin. inversion ND; subst.
  destruct (str_eqb k n) eqn:E.
  - apply str_eqb_eq in E. subst k. destruct Hin as [X|X]; [now inversion X|]. exfalso. apply H1. apply (in_map fst) in X. exact X.
  - apply str_eqb_neq in E. destruct Hin as [X|X]; [inversion X; congruence|]. now apply IH.
Qed.

(** No relocation against a settled extern is left unresolvable. *)
Theorem settled_patches stack local kernel text m m' secoff syms r ins : NoDup (map fst m) -> Forall fresh m ->
  resolve_externs stack local kernel text m = Ok m' ->
  extern_step secoff (fun n => option_map to_extern (xget n m')) syms r ins <> Err UnresolvableSymbol.
Proof.
  intros ND FR H. destruct (resolve_spec _ _ _ _ _ _ ND FR H) as [F SP].
  assert (forall n x', xget n m' = Some x' -> xd_resolved x' = true \/ (xd_weak x' = true /\ xd_addr x' = Some 0)) as Q.
  { intros n x' G.
    assert (In (n, x') m') as I.
    { clear - G. induction m' as [|[k y] m' IH]; [discriminate|]. cbn [xget] in G. destruct (str_eqb k n) eqn:E; [|right; now apply IH].
      apply str_eqb_eq in E. apply some_inj in G. subst. now left. }
    assert (In n (map fst m)) as Hn by (rewrite <- F; apply (in_map fst) in I; exact I).
    apply in_map_iff in Hn. destruct Hn as ([k x] & Ek & Hin). cbn [fst] in Ek. subst k.
    destruct (SP n x Hin) as (x2 & I2 & W & T). assert (NoDup (map fst m')) as ND' by (now rewrite F).
    rewrite (nodup_assoc m' n x' x2 ND' I I2). rewrite W. destruct (xd_type x).
    - destruct T as [(k & id & _ & _ & R & _)|(X & _ & _ & A & _)]; auto.
    - destruct T as [_ [(a & _ & R & _)|(_ & X & _ & A)]]; auto. }
  assert (forall n x', xget n m' = Some x' -> xd_resolved x' = true -> xd_kernel_id x' = None -> xd_addr x' <> None) as Q2.
  { intros n x' G R K.
    assert (In (n, x') m') as I.
    { clear - G. induction m' as [|[k y] m' IH]; [discriminate|]. cbn [xget] in G. destruct (str_eqb k n) eqn:E; [|right; now apply IH].
      apply str_eqb_eq in E. apply some_inj in G. subst. now left. }
    assert (In n (map fst m)) as Hn by (rewrite <- F; apply (in_map fst) in I; exact I).
    apply in_map_iff in Hn. destruct Hn as ([k x] & Ek & Hin). cbn [fst] in Ek. subst k.
    destruct (SP n x Hin) as (x2 & I2 & W & T). assert (NoDup (map fst m')) as ND' by (now rewrite F).
    rewrite (nodup_assoc m' n x' x2 ND' I I2) in *. destruct (xd_type x).
    - destruct T as [(k & id & _ & _ & _ & K' & _)|(_ & R' & _)]; congruence.
    - destruct T as [_ [(a & _ & _ & A)|(_ & _ & _ & A)]]; congruence. }
  unfold extern_step. destruct (locate secoff (length ins) r); try discriminate.
  destruct (syms (r_sym r)) as [sym|]; [|discriminate]. destruct (is_extern sym); cbn [negb]; [|discriminate].
  destruct (s_name sym) as [n|]; [|discriminate]. destruct (xget n m') as [x|] eqn:G; cbn [option_map]; [|discriminate].
  destruct (nth_error ins i) as [y|]; [|discriminate]. specialize (Q n x G). specialize (Q2 n x G).
  cbn [to_extern x_resolved x_weak x_btf_id x_addr].
  destruct (code y =? CALL_CODE).
  - destruct (xd_resolved x); [destruct (xd_kernel_id x); discriminate|]. destruct Q as [Q|[-> _]]; discriminate.
  - destruct (code y =? LDDW_CODE); cbn [negb]; [|discriminate].
    destruct (xd_kernel_id x) as [id|]; [destruct (nth_error ins (S i)); discriminate|].
    destruct (xd_addr x) as [a|]; [destruct (nth_error ins (S i)); discriminate|].
    destruct Q as [R|[_ A]]; [exfalso; now apply Q2|discriminate].
Qed.

(** A 64-bit load of a typeless symbol receives the listed address. *)
Theorem settled_address stack local kernel text m m' secoff syms r ins ins' i n x a :
  NoDup (map fst m) -> Forall fresh m -> resolve_externs stack local kernel text m = Ok m' ->
  In (n, x) m -> xd_type x = None -> listed text n a -> 0 <= a < 2 ^ 64 ->
  locate secoff (length ins) r = At i ->
  (exists sym, syms (r_sym r) = Some sym /\ is_extern sym = true /\ s_name sym = Some n) ->
  (exists y, nth_error ins i = Some y /\ code y = LDDW_CODE) ->
  extern_step secoff (fun n => option_map to_extern (xget n m')) syms r ins = Ok ins' ->
  exists y z, nth_error ins' i = Some y /\ nth_error ins' (S i) = Some z /\ src y = 0 /\
    u32 (imm y) + 2 ^ 32 * u32 (imm z) = a.
Proof.
  intros ND FR H Hin Ht L Ha Hl (sym & Hs & He & Hn) (y & Hy & Hc) E.
  destruct (resolve_spec _ _ _ _ _ _ ND FR H) as [F SP]. destruct (SP n x Hin) as (x' & I & W & T). rewrite Ht in T.
  destruct T as [K T]. assert (NoDup (map fst m')) as ND' by (now rewrite F). rewrite <- F in ND.
  assert (xd_addr x' = Some a) as A.
  { destruct T as [(b & U & _ & A)|(N & _)]; [|exfalso; exact (N a L)]. rewrite A. f_equal. symmetry. now apply U. }
  unfold extern_step in E. rewrite Hl, Hs, He in E. cbn [negb] in E. rewrite Hn, (xget_nodup m' n x' ND' I) in E.
  cbn [option_map] in E. rewrite Hy, Hc in E. change (LDDW_CODE =? CALL_CODE) with false in E. cbn iota in E.
  rewrite Z.eqb_refl in E. cbn [negb to_extern x_btf_id x_addr x_weak] in E. rewrite K, A in E.
  destruct (nth_error ins (S i)) as [z|] eqn:Ez; [|discriminate]. apply ok_inj in E. subst ins'.
  exists (set_imm (i32 (Z.land a (2 ^ 32 - 1))) (set_src 0 y)), (set_imm (i32 (Z.shiftr a 32)) z).
  assert (i < length ins)%nat by (apply nth_error_Some; congruence).
  assert (S i < length ins)%nat by (apply nth_error_Some; congruence).
  split; [rewrite nth_error_upd_ne by lia; now apply nth_error_upd_eq|].
  split; [apply nth_error_upd_eq; now rewrite upd_length|]. split; [reflexivity|]. cbn [set_imm imm].
  change (2 ^ 32 - 1) with (Z.ones 32). rewrite Z.land_ones by lia. rewrite Z.shiftr_div_pow2 by lia.
  rewrite !u32_i32. unfold u32, wrap. change (2 ^ 64) with (2 ^ 32 * 2 ^ 32) in Ha.
  assert (0 < 2 ^ 32) as P by reflexivity. clear - Ha P. set (p := 2 ^ 32) in *. clearbody p.
  rewrite Z.mod_mod by lia. assert (0 <= a / p < p) by (split; [apply Z.div_pos; lia|apply Z.div_lt_upper_bound; lia]).
  rewrite (Z.mod_small (a / p)) by lia. pose proof (Z.div_mod a p ltac:(lia)). lia.
Qed.

Lemma find_name_kind_first b k name : forall ts i j t, nth_error ts j = Some t -> kind_of t = k -> type_name b t = Ok name ->
  (forall j' t', (j' < j)%nat -> nth_error ts j' = Some t' -> kind_of t' = k -> exists n', type_name b t' = Ok n' /\ n' <> name) ->
  find_name_kind b ts i name k = Ok (i + Z.of_nat j).
Proof.
  induction ts as [|u ts IH]; intros i j t Hn Hk Ht Hf; [now destruct j|]. cbn [find_name_kind]. destruct j as [|j].
  - cbn [nth_error] in Hn. apply some_inj in Hn. subst u.
    replace (kind_eqb (kind_of t) k) with true by (rewrite Hk; now destruct k).
    rewrite Ht. cbn [bind]. rewrite str_eqb_refl. f_equal. lia.
  - replace (i + Z.of_nat (S j)) with ((i + 1) + Z.of_nat j) by lia.
    assert (find_name_kind b ts (i + 1) name k = Ok (i + 1 + Z.of_nat j)) as R.
    { apply (IH (i + 1) j t Hn Hk Ht). intros j' t' Hj Ht' Hk'. apply (Hf (S j') t'); [lia|exact Ht'|exact Hk']. }
    destruct (kind_eqb (kind_of u) k) eqn:Ek; [|exact R].
    destruct (Hf 0%nat u ltac:(lia) eq_refl) as (n' & Hn' & Hne); [now destruct (kind_of u), k|].
    rewrite Hn'. cbn [bind]. apply str_eqb_neq in Hne. now rewrite Hne.
Qed.

(** A typed extern is found: the first kernel type of its kind and name, if
    compatible. *)
Theorem typed_finds stack local kernel n x lid lt j t kid :
  xd_type x = Some lid -> type_by_id (b_types local) (xd_btf x) = Ok lt ->
  match lt with TFunc _ => True | TVar _ _ => True | _ => False end ->
  nth_error (b_types kernel) j = Some t -> kind_of t = kind_of lt -> carried t = Some kid ->
  type_name kernel t = Ok (match lt with TFunc _ => lookup_name n x | _ => n end) ->
  (forall j' t', (j' < j)%nat -> nth_error (b_types kernel) j' = Some t' -> kind_of t' = kind_of lt ->
     exists n', type_name kernel t' = Ok n' /\ n' <> match lt with TFunc _ => lookup_name n x | _ => n end) ->
  compat stack (b_types local) (b_types kernel) lid kid = CRes (Ok true) ->
  typed_one stack local kernel n x = Ok (Some (Z.of_nat j)).
Proof.
  intros Hx Hl Hlt Hn Hk Hc Hname Hf Hcomp. unfold typed_one. rewrite Hx, Hl.
  assert (type_by_id (b_types kernel) (Z.of_nat j) = Ok t) as Ht.
  { unfold type_by_id. rewrite Nat2Z.id, Hn. destruct (Z.leb_spec 0 (Z.of_nat j)); [reflexivity|lia]. }
  destruct lt; try contradiction; unfold resolve_one, id_by_type_name_kind;
    pose proof (find_name_kind_first kernel _ _ (b_types kernel) 0 j t Hn Hk Hname Hf) as F; cbn [kind_of] in F; rewrite F, Z.add_0_l, Ht;
    destruct t; try discriminate Hk; cbn [carried] in Hc; apply some_inj in Hc; rewrite Hx, Hc, Hcomp; reflexivity.
Qed.

Theorem typed_succeeds stack local kernel m :
  (forall n x, In (n, x) m -> exists r, typed_one stack local kernel n x = Ok r) <-> exists m', resolve_typed stack local kernel m = Ok m'.
Proof.
  unfold resolve_typed. split.
  - intros H. assert (exists rs, collect_typed stack local kernel m = Ok rs) as (rs & E).
    { induction m as [|[k x] m IH]; [cbn; eauto|]. cbn [collect_typed]. destruct (H k x (or_introl eq_refl)) as (r & ->). cbn [bind].
      destruct IH as (rs & ->); [intros n y Hin; apply H; now right|]. cbn [bind]. eauto. }
    rewrite E. cbn [bind]. eauto.
  - intros (m' & H). destruct (collect_typed stack local kernel m) as [rs|] eqn:E; cbn [bind] in H; [|discriminate].
    destruct (collect_spec _ _ _ _ _ E) as (A & _). intros n x Hin. destruct (A n x Hin) as (r & P & _). eauto.
Qed.
