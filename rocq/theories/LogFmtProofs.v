(** Proofs about format strings (C31, C32). *)
From Coq Require Import String.
From Verif Require Import Base Text TextParse LogModel LogFmtModel LogSpec LogProofs.
Local Open Scope Z_scope.

(** * Doubled braces *)

Lemma list_ind2 {A} (P : list A -> Prop) : P [] -> (forall a, P [a]) -> (forall a b l, P l -> P (b :: l) -> P (a :: b :: l)) -> forall l, P l.
Proof.
  intros H0 H1 H2 l. assert (P l /\ forall a, P (a :: l)) as [H _]; [|exact H].
  induction l as [|b l [IH IH']]; split; auto.
Qed.

Lemma undouble_ne c a s : a <> c -> undouble c (a :: s) = a :: undouble c s.
Proof.
  intros N. cbn [undouble]. destruct s as [|b s]; [reflexivity|].
  destruct (Z.eqb_spec a c); [congruence|]. reflexivity.
Qed.
Lemma undouble_pair c s : undouble c (c :: c :: s) = c :: undouble c s.
Proof. cbn [undouble]. rewrite !Z.eqb_refl. reflexivity. Qed.

Lemma open_close : OPEN <> CLOSE.
Proof. discriminate. Qed.

Lemma esc_undouble raw : paired OPEN raw = true -> paired CLOSE raw = true ->
  esc (undouble CLOSE (undouble OPEN raw)) = raw.
Proof.
  pose proof open_close as OC.
  induction raw as [|a|a b raw IH IH'] using list_ind2; intros PO PC.
  - reflexivity.
  - cbn [paired] in *. destruct (Z.eqb_spec a OPEN); [discriminate|]. destruct (Z.eqb_spec a CLOSE); [discriminate|].
    rewrite (undouble_ne OPEN) by assumption. cbn [undouble]. unfold esc. cbn [flat_map].
    destruct (Z.eqb_spec a OPEN); [congruence|]. destruct (Z.eqb_spec a CLOSE); [congruence|]. reflexivity.
  - cbn [paired] in PO, PC. destruct (Z.eqb_spec a OPEN) as [->|NO].
    + destruct (Z.eqb_spec b OPEN) as [->|]; [|discriminate]. cbn [andb] in PO.
      destruct (Z.eqb_spec OPEN CLOSE); [congruence|].
      rewrite undouble_pair, undouble_ne by congruence.
      change (esc (OPEN :: undouble CLOSE (undouble OPEN raw))) with (OPEN :: OPEN :: esc (undouble CLOSE (undouble OPEN raw))).
      rewrite IH; [reflexivity|exact PO|exact PC].
    + destruct (Z.eqb_spec a CLOSE) as [->|NC].
      * destruct (Z.eqb_spec b CLOSE) as [->|]; [|discriminate]. cbn [andb] in PC.
        destruct (Z.eqb_spec CLOSE OPEN); [congruence|].
        rewrite !(undouble_ne OPEN) by congruence. rewrite undouble_pair.
        change (esc (CLOSE :: undouble CLOSE (undouble OPEN raw))) with (CLOSE :: CLOSE :: esc (undouble CLOSE (undouble OPEN raw))).
        rewrite IH; [reflexivity|exact PO|exact PC].
      * rewrite (undouble_ne OPEN) by assumption. rewrite (undouble_ne CLOSE) by assumption.
        unfold esc at 1. cbn [flat_map]. destruct (Z.eqb_spec a OPEN); [congruence|]. destruct (Z.eqb_spec a CLOSE); [congruence|].
        cbn [orb app]. f_equal. apply IH'; assumption.
Qed.

Lemma undouble_esc s : undouble CLOSE (undouble OPEN (esc s)) = s.
Proof.
  pose proof open_close as OC.
  induction s as [|c s IH]; [reflexivity|].
  destruct (Z.eqb_spec c OPEN) as [->|NO].
  - change (esc (OPEN :: s)) with (OPEN :: OPEN :: esc s). rewrite undouble_pair, undouble_ne by congruence. f_equal. exact IH.
  - destruct (Z.eqb_spec c CLOSE) as [->|NC].
    + change (esc (CLOSE :: s)) with (CLOSE :: CLOSE :: esc s). rewrite !(undouble_ne OPEN) by congruence.
      rewrite undouble_pair. f_equal. exact IH.
    + unfold esc. cbn [flat_map]. fold (esc s). destruct (Z.eqb_spec c OPEN); [congruence|]. destruct (Z.eqb_spec c CLOSE); [congruence|].
      cbn [orb app]. rewrite (undouble_ne OPEN), (undouble_ne CLOSE) by assumption. f_equal. exact IH.
Qed.

Lemma scan_esc s : scan false false (esc s) = Ok tt.
Proof.
  induction s as [|c s IH]; [reflexivity|].
  unfold esc. cbn [flat_map]. fold (esc s).
  destruct (Z.eqb_spec c OPEN) as [->|NO]; [exact IH|]. destruct (Z.eqb_spec c CLOSE) as [->|NC]; [exact IH|].
  cbn [orb app scan]. destruct (Z.eqb_spec c OPEN); [congruence|]. destruct (Z.eqb_spec c CLOSE); [congruence|]. exact IH.
Qed.

(** A lone brace does not pass the scan. *)
Lemma scan_pre pre : forall o c post, scan o c (pre ++ post) = Ok tt ->
  exists o' c', scan o' c' post = Ok tt /\ (forall p x, pre = p ++ [x] -> brace x = false -> o' = false /\ c' = false).
Proof.
  induction pre as [|a pre IH]; intros o c post H.
  - exists o, c. split; [exact H|]. intros [|] x E; discriminate.
  - cbn [app scan] in H. unfold brace.
    assert (D : forall o1 c1, scan o1 c1 (pre ++ post) = Ok tt ->
      ((a =? OPEN) || (a =? CLOSE) = true \/ o1 = false /\ c1 = false) ->
      exists o' c', scan o' c' post = Ok tt /\ (forall p x, a :: pre = p ++ [x] -> (x =? OPEN) || (x =? CLOSE) = false -> o' = false /\ c' = false)).
    { intros o1 c1 H1 C. destruct (IH _ _ _ H1) as (o' & c' & S1 & R). destruct pre as [|b pre].
      - exists o1, c1. split; [exact H1|]. intros p x E B. destruct p as [|? [|]]; try discriminate. cbn in E.
        assert (a = x) by congruence. subst x. destruct C as [C|C]; [congruence|exact C].
      - exists o', c'. split; [exact S1|]. intros p x E B. destruct p as [|y p]; [discriminate|].
        cbn in E. assert (b :: pre = p ++ [x]) by congruence. eapply R; eassumption. }
    destruct (a =? OPEN) eqn:EO; [eapply D; [exact H|left; reflexivity]|].
    destruct (a =? CLOSE) eqn:EC; [eapply D; [exact H|left; reflexivity]|].
    destruct o; [discriminate|]. destruct c; [discriminate|]. eapply D; [exact H|right; split; reflexivity].
Qed.
Lemma scan_no_lone s : scan false false s = Ok tt -> ~ lone s.
Proof.
  intros H (pre & c & post & E & B & P & Q). subst s.
  assert (X : scan false false (c :: post) = Ok tt).
  { destruct P as [->|(p & x & -> & Bx)]; [exact H|].
    destruct (scan_pre _ _ _ _ H) as (o & c' & S1 & R). destruct (R p x eq_refl Bx) as [-> ->]. exact S1. }
  cbn [scan] in X. unfold brace in B.
  assert (Y : forall o c0, (o = true \/ c0 = true) -> scan o c0 post <> Ok tt).
  { intros o c0 T Z. destruct Q as [->|(x & p & -> & Bx)]; cbn [scan] in Z.
    - destruct o, c0; try discriminate. destruct T; discriminate.
    - unfold brace in Bx. destruct (x =? OPEN); [discriminate|]. destruct (x =? CLOSE); [discriminate|].
      destruct o, c0; try discriminate. destruct T; discriminate. }
  destruct (c =? OPEN); [exact (Y _ _ (or_introl eq_refl) X)|].
  destruct (c =? CLOSE); [exact (Y _ _ (or_intror eq_refl) X)|discriminate].
Qed.

Lemma literal_piece raw f : raw <> [] -> paired OPEN raw = true -> literal raw = Ok f -> piece f raw.
Proof.
  intros N P H. unfold literal in H. destruct (scan false false raw) as [[]|] eqn:E; [|discriminate].
  cbn [bind] in H. apply ok_inj in H. subst f. cbn [piece].
  split; [exact N|]. split; [apply scan_no_lone; exact E|]. split; [exact P|].
  intros C. symmetry. apply esc_undouble; assumption.
Qed.
Lemma literal_esc s : literal (esc s) = Ok (FLit s).
Proof. unfold literal. rewrite scan_esc. cbn [bind]. rewrite undouble_esc. reflexivity. Qed.

(** * Parameters *)

Lemma str_eqb_true a b : str_eqb a b = true -> a = b.
Proof. apply str_eqb_eq. Qed.

Lemma parse_param_ok s f : parse_param s = Ok f -> exists h, f = FParam h /\ s = hint_text h.
Proof.
  unfold parse_param. destruct s as [|c r]; intros H.
  - apply ok_inj in H. subst. exists HDefault. split; reflexivity.
  - destruct (Z.eqb_spec c 58) as [->|]; [|discriminate]. destruct r as [|d r]; [discriminate|].
    destruct (str_eqb (d :: r) (txt "x")) eqn:E; [apply str_eqb_true in E; apply ok_inj in H; subst f; exists HLowerHex; rewrite E; split; reflexivity|].
    clear E. destruct (str_eqb (d :: r) (txt "X")) eqn:E; [apply str_eqb_true in E; apply ok_inj in H; subst f; exists HUpperHex; rewrite E; split; reflexivity|].
    clear E. destruct (str_eqb (d :: r) (txt "i")) eqn:E; [apply str_eqb_true in E; apply ok_inj in H; subst f; exists HIp; rewrite E; split; reflexivity|].
    clear E. destruct (str_eqb (d :: r) (txt "mac")) eqn:E; [apply str_eqb_true in E; apply ok_inj in H; subst f; exists HLowerMac; rewrite E; split; reflexivity|].
    clear E. destruct (str_eqb (d :: r) (txt "MAC")) eqn:E; [apply str_eqb_true in E; apply ok_inj in H; subst f; exists HUpperMac; rewrite E; split; reflexivity|].
    clear E. destruct (str_eqb (d :: r) (txt "p")) eqn:E; [apply str_eqb_true in E; apply ok_inj in H; subst f; exists HPointer; rewrite E; split; reflexivity|].
    discriminate.
Qed.
Lemma parse_param_text h : parse_param (hint_text h) = Ok (FParam h).
Proof. destruct h; reflexivity. Qed.
Lemma hint_no_brace h : forallb (fun c => negb (brace c)) (hint_text h) = true.
Proof. destruct h; reflexivity. Qed.

Lemma find_close_spec s : forall n, find_close s = Some n -> exists a b, s = a ++ CLOSE :: b /\ length a = n.
Proof.
  induction s as [|c s IH]; intros n H; [discriminate|]. cbn [find_close] in H.
  destruct (Z.eqb_spec c CLOSE) as [->|].
  - apply some_inj in H. subst n. exists [], s. split; reflexivity.
  - destruct (find_close s) as [m|]; [|discriminate]. cbn in H. apply some_inj in H. subst n.
    destruct (IH m eq_refl) as (a & b & -> & L). exists (c :: a), b. split; [reflexivity|]. cbn. lia.
Qed.
Lemma find_close_hint h rest : find_close (hint_text h ++ CLOSE :: rest) = Some (length (hint_text h)).
Proof. destruct h; reflexivity. Qed.

(** * The walk over the string, structurally *)

Definition flush_lit (cur : list Z) (acc : list fragment) : res perror (list fragment) :=
  match cur with [] => Ok acc | _ => bind (literal cur) (fun f => Ok (acc ++ [f])) end.
Fixpoint sp (fuel : nat) (cur todo : list Z) (acc : list fragment) : res perror (list fragment) :=
  match fuel with
  | O => Err PUnexpected
  | S fuel =>
      let param rest :=
        bind (flush_lit cur acc) (fun acc =>
        match find_close rest with
        | None => Err PMissingClose
        | Some len => bind (parse_param (firstn len rest)) (fun f => sp fuel [] (skipn (len + 1) rest) (acc ++ [f]))
        end) in
      match todo with
      | [] => flush_lit cur acc
      | c :: rest =>
          if negb (c =? OPEN) then sp fuel (cur ++ [c]) rest acc
          else match rest with
               | b :: rest' => if b =? OPEN then sp fuel (cur ++ [c; b]) rest' acc else param rest
               | [] => param rest
               end
      end
  end.

Lemma skipn_len_app {A} (a b : list A) : skipn (length a) (a ++ b) = b.
Proof. apply skipn_app_exact. reflexivity. Qed.

(** Walking over the contents of a parameter changes nothing. *)
Lemma walk_over mid : forall fuel pre todo e acc,
  forallb (fun c => negb (c =? OPEN)) mid = true ->
  parse_loop (length mid + fuel) (pre ++ mid ++ todo) (length pre) e acc =
  parse_loop fuel (pre ++ mid ++ todo) (length (pre ++ mid)) e acc.
Proof.
  induction mid as [|c mid IH]; intros fuel pre todo e acc H.
  - cbn [length plus app]. rewrite app_nil_r. reflexivity.
  - cbn [forallb] in H. apply andb_prop in H as [Hc H].
    cbn [length plus]. cbn [parse_loop]. rewrite skipn_len_app. cbn [app]. rewrite Hc.
    specialize (IH fuel (pre ++ [c]) todo e acc H).
    replace ((pre ++ [c]) ++ mid ++ todo) with (pre ++ c :: mid ++ todo) in IH by (rewrite <- app_assoc; reflexivity).
    replace (length (pre ++ [c])) with (S (length pre)) in IH by (rewrite app_length; cbn; lia).
    replace ((pre ++ [c]) ++ mid) with (pre ++ c :: mid) in IH by (rewrite <- app_assoc; reflexivity).
    exact IH.
Qed.

Lemma flush_lit_idx {pre cur todo : list Z} acc :
  (if (length pre <? length (pre ++ cur))%nat
   then bind (literal (slice (length pre) (length (pre ++ cur) - length pre) (pre ++ cur ++ todo))) (fun f => Ok (acc ++ [f]))
   else Ok acc) = flush_lit cur acc.
Proof.
  rewrite app_length. destruct cur as [|c cur].
  - cbn [length]. rewrite Nat.add_0_r, Nat.ltb_irrefl. reflexivity.
  - destruct (Nat.ltb_spec (length pre) (length pre + length (c :: cur))) as [L|L]; [|cbn in L; lia].
    replace (length pre + length (c :: cur) - length pre)%nat with (length (c :: cur)) by lia.
    rewrite slice_app_exact. reflexivity.
Qed.

Lemma parse_loop_sp f : forall F pre cur todo acc, (length todo < f)%nat -> (2 * length todo + 1 <= F)%nat ->
  parse_loop F (pre ++ cur ++ todo) (length (pre ++ cur)) (length pre) acc = sp f cur todo acc.
Proof.
  induction f as [|f IH]; intros F pre cur todo acc Lf LF; [lia|].
  destruct F as [|F]; [lia|]. cbn [parse_loop]. cbn [sp].
  replace (skipn (length (pre ++ cur)) (pre ++ cur ++ todo)) with todo
    by (rewrite app_assoc; symmetry; apply skipn_len_app).
  destruct todo as [|c rest].
  { rewrite app_nil_r. destruct cur as [|c cur].
    - rewrite app_nil_r, Nat.eqb_refl. reflexivity.
    - rewrite app_length. destruct (Nat.eqb_spec (length pre) (length pre + length (c :: cur))) as [E|_]; [cbn in E; lia|].
      rewrite skipn_len_app. reflexivity. }
  assert (P : forall rest0, rest0 = rest -> c = OPEN ->
    param_at F (pre ++ cur ++ c :: rest) (length (pre ++ cur)) (length pre) acc rest0 =
    bind (flush_lit cur acc) (fun acc => match find_close rest0 with
      | None => Err PMissingClose
      | Some len => bind (parse_param (firstn len rest0)) (fun f0 => sp f [] (skipn (len + 1) rest0) (acc ++ [f0]))
      end)).
  { intros ? -> ->. cbn [length] in LF. destruct F as [|F]; [lia|]. cbn [param_at].
    rewrite flush_lit_idx. destruct (flush_lit cur acc) as [acc'|]; cbn [bind]; [|reflexivity].
    destruct (find_close rest) as [len|] eqn:FC; [|reflexivity].
    destruct (find_close_spec _ _ FC) as (a & b & -> & La).
    rewrite firstn_app_exact by (symmetry; exact La).
    destruct (parse_param a) as [fr|] eqn:PP; [|reflexivity]. cbn [bind].
    destruct (parse_param_ok _ _ PP) as (h & _ & Ha).
    replace (skipn (len + 1) (a ++ CLOSE :: b)) with b
      by (replace (a ++ CLOSE :: b) with ((a ++ [CLOSE]) ++ b) by (rewrite <- app_assoc; reflexivity);
          symmetry; apply skipn_app_exact; rewrite app_length; cbn; lia).
    assert (NB : forallb (fun c => negb (c =? OPEN)) (a ++ [CLOSE]) = true).
    { rewrite forallb_app. subst a. destruct h; reflexivity. }
    rewrite app_length in LF. cbn [length] in LF.
    assert (LM : length (a ++ [CLOSE]) = (len + 1)%nat) by (rewrite app_length; cbn; lia).
    replace F with (length (a ++ [CLOSE]) + (F - length (a ++ [CLOSE])))%nat by lia.
    replace (pre ++ cur ++ OPEN :: a ++ CLOSE :: b) with ((pre ++ cur ++ [OPEN]) ++ (a ++ [CLOSE]) ++ b)
      by (rewrite <- !app_assoc; reflexivity).
    replace (S (length (pre ++ cur))) with (length (pre ++ cur ++ [OPEN])) by (rewrite !app_length; cbn; lia).
    rewrite walk_over by exact NB.
    replace (length (pre ++ cur) + 1 + len + 1)%nat with (length ((pre ++ cur ++ [OPEN]) ++ a ++ [CLOSE]))
      by (rewrite !app_length in *; cbn [length] in *; lia).
    specialize (IH (F - length (a ++ [CLOSE]))%nat ((pre ++ cur ++ [OPEN]) ++ a ++ [CLOSE]) [] b (acc' ++ [fr])).
    rewrite !app_nil_r in IH. cbn [app] in IH. rewrite <- IH.
    - f_equal. rewrite <- !app_assoc. reflexivity.
    - cbn [length] in Lf. rewrite app_length in Lf. cbn [length] in Lf. lia.
    - lia. }
  destruct (Z.eqb_spec c OPEN) as [->|NO]; cbn [negb].
  - destruct rest as [|b rest]; [apply P; reflexivity|].
    destruct (Z.eqb_spec b OPEN) as [->|NB]; [|apply P; reflexivity].
    cbn [length] in *.
    replace (pre ++ cur ++ OPEN :: OPEN :: rest) with (pre ++ (cur ++ [OPEN; OPEN]) ++ rest) by (rewrite <- !app_assoc; reflexivity).
    replace (S (S (length (pre ++ cur)))) with (length (pre ++ cur ++ [OPEN; OPEN])) by (rewrite !app_length; cbn; lia).
    apply IH; lia.
  - cbn [length] in *.
    replace (pre ++ cur ++ c :: rest) with (pre ++ (cur ++ [c]) ++ rest) by (rewrite <- !app_assoc; reflexivity).
    replace (S (length (pre ++ cur))) with (length (pre ++ cur ++ [c])) by (rewrite !app_length; cbn; lia).
    apply IH; lia.
Qed.

Lemma parse_sp s : parse s = sp (S (length s)) [] s [].
Proof. unfold parse. apply (parse_loop_sp (S (length s)) _ [] [] s []); lia. Qed.

(** * Soundness *)

Lemma paired_app c a : forall b, paired c a = true -> paired c b = true -> paired c (a ++ b) = true.
Proof.
  induction a as [|x|x y a IH IH'] using list_ind2; intros b Pa Pb.
  - exact Pb.
  - cbn [paired app] in *. destruct (x =? c); [discriminate|exact Pb].
  - cbn [paired app] in *. destruct (x =? c).
    + apply andb_prop in Pa as [Ey Pa]. rewrite Ey. cbn [andb]. apply IH; assumption.
    + specialize (IH' b). cbn [paired app] in IH'. apply IH'; assumption.
Qed.

Lemma flush_piece cur acc acc' : paired OPEN cur = true -> flush_lit cur acc = Ok acc' ->
  exists frs raws, acc' = acc ++ frs /\ concat raws = cur /\ Forall2 piece frs raws.
Proof.
  intros P H. destruct cur as [|c cur].
  - apply ok_inj in H. subst. exists [], []. rewrite app_nil_r. split; [|split]; [reflexivity..|constructor].
  - cbn [flush_lit] in H. destruct (literal (c :: cur)) as [f|] eqn:L; [|discriminate]. cbn [bind] in H. apply ok_inj in H. subst.
    exists [f], [c :: cur]. split; [reflexivity|]. split; [cbn [concat]; apply app_nil_r|].
    constructor; [|constructor]. apply literal_piece; [discriminate|exact P|exact L].
Qed.

Lemma sp_sound fuel : forall cur todo acc frs, paired OPEN cur = true -> sp fuel cur todo acc = Ok frs ->
  exists frs' raws, frs = acc ++ frs' /\ concat raws = cur ++ todo /\ Forall2 piece frs' raws.
Proof.
  induction fuel as [|fuel IH]; intros cur todo acc frs P H; [discriminate|].
  cbn [sp] in H.
  destruct todo as [|c rest].
  { destruct (flush_piece _ _ _ P H) as (f & r & -> & C & F). exists f, r. rewrite app_nil_r. auto. }
  assert (Q : c = OPEN -> bind (flush_lit cur acc) (fun acc => match find_close rest with
      | None => Err PMissingClose
      | Some len => bind (parse_param (firstn len rest)) (fun f0 => sp fuel [] (skipn (len + 1) rest) (acc ++ [f0]))
      end) = Ok frs -> exists frs' raws, frs = acc ++ frs' /\ concat raws = cur ++ c :: rest /\ Forall2 piece frs' raws).
  { intros -> B. destruct (flush_lit cur acc) as [acc'|] eqn:FL; [|discriminate]. cbn [bind] in B.
    destruct (find_close rest) as [len|] eqn:FC; [|discriminate].
    destruct (find_close_spec _ _ FC) as (a & b & -> & La).
    rewrite firstn_app_exact in B by (symmetry; exact La).
    replace (skipn (len + 1) (a ++ CLOSE :: b)) with b in B
      by (replace (a ++ CLOSE :: b) with ((a ++ [CLOSE]) ++ b) by (rewrite <- app_assoc; reflexivity);
          symmetry; apply skipn_app_exact; rewrite app_length; cbn; lia).
    destruct (parse_param a) as [fr|] eqn:PP; [|discriminate]. cbn [bind] in B.
    destruct (parse_param_ok _ _ PP) as (h & -> & Ha).
    destruct (flush_piece _ _ _ P FL) as (f1 & r1 & -> & C1 & F1).
    destruct (IH [] b _ _ eq_refl B) as (f2 & r2 & -> & C2 & F2).
    exists (f1 ++ FParam h :: f2), (r1 ++ (OPEN :: a ++ [CLOSE]) :: r2). split; [|split].
    - rewrite <- !app_assoc. reflexivity.
    - rewrite concat_app. cbn [concat]. rewrite C1, C2. cbn [app]. rewrite <- !app_assoc. reflexivity.
    - apply Forall2_app; [exact F1|]. constructor; [|exact F2]. cbn [piece]. subst a. reflexivity. }
  destruct (Z.eqb_spec c OPEN) as [->|NO]; cbn [negb] in H.
  - destruct rest as [|b rest]; [apply Q; [reflexivity|exact H]|].
    destruct (Z.eqb_spec b OPEN) as [->|]; [|apply Q; [reflexivity|exact H]].
    apply IH in H as (f & r & -> & C & F); [|apply paired_app; [exact P|reflexivity]].
    exists f, r. split; [reflexivity|]. split; [|exact F]. rewrite C, <- app_assoc. reflexivity.
  - apply IH in H as (f & r & -> & C & F).
    + exists f, r. split; [reflexivity|]. split; [|exact F]. rewrite C, <- app_assoc. reflexivity.
    + apply paired_app; [exact P|]. cbn [paired]. destruct (Z.eqb_spec c OPEN); [congruence|reflexivity].
Qed.

Theorem parse_sound s frs : parse s = Ok frs -> exists raws, concat raws = s /\ Forall2 piece frs raws.
Proof.
  rewrite parse_sp. intros H. destruct (sp_sound _ [] _ _ _ eq_refl H) as (f & r & -> & C & F).
  exists r. split; [exact C|exact F].
Qed.

Theorem parse_unparse_back s frs raws : Forall2 piece frs raws -> concat raws = s ->
  Forall (fun r => paired CLOSE r = true) raws \/ Forall2 (fun f r => match f with FLit _ => paired CLOSE r = true | _ => True end) frs raws ->
  unparse frs = s.
Proof.
  intros F <- H.
  assert (K : Forall2 (fun f r => match f with FLit _ => paired CLOSE r = true | _ => True end) frs raws).
  { destruct H as [H|H]; [|exact H]. clear - F H. induction F as [|f r frs raws P F IH]; constructor.
    - destruct f; [exact (Forall_inv H)|exact I].
    - apply IH. exact (Forall_inv_tail H). }
  clear H. induction F as [|f r frs raws P F IH]; [reflexivity|].
  assert (Kf : match f with FLit _ => paired CLOSE r = true | _ => True end) by (inversion K; assumption).
  assert (K' : Forall2 (fun f r => match f with FLit _ => paired CLOSE r = true | _ => True end) frs raws) by (inversion K; assumption).
  clear K. rename K' into K. unfold unparse. cbn [flat_map concat]. fold (unparse frs). rewrite IH by exact K.
  f_equal. destruct f as [l|h]; cbn [piece unparse_one] in *.
  - destruct P as (_ & _ & _ & E). symmetry. apply E. exact Kf.
  - symmetry. exact P.
Qed.

(** * Completeness *)

Definition starts_param (rest : list Z) : Prop := rest = [] \/ exists r, rest = OPEN :: r /\ (forall x y, r = x :: y -> x <> OPEN).

Lemma sp_esc l : forall fuel cur rest acc, (length (esc l) < fuel)%nat ->
  exists fuel', (fuel - length (esc l) <= fuel')%nat /\ sp fuel cur (esc l ++ rest) acc = sp fuel' (cur ++ esc l) rest acc.
Proof.
  induction l as [|c l IH]; intros fuel cur rest acc L.
  - exists fuel. split; [lia|]. cbn [esc flat_map app]. rewrite app_nil_r. reflexivity.
  - unfold esc in L |- *. cbn [flat_map] in L |- *. fold (esc l) in *.
    destruct (Z.eqb_spec c OPEN) as [->|NO].
    + cbn [orb app length] in *. destruct fuel as [|fuel]; [lia|]. cbn [sp]. rewrite Z.eqb_refl. cbn [negb].
      destruct (IH fuel (cur ++ [OPEN; OPEN]) rest acc) as (fu & Lf & E); [lia|].
      exists fu. split; [lia|]. rewrite E, <- app_assoc. reflexivity.
    + destruct (Z.eqb_spec c CLOSE) as [->|NC].
      * cbn [orb app length] in *. destruct fuel as [|[|fuel]]; try lia. cbn [sp].
        change (CLOSE =? OPEN) with false. cbn [negb].
        destruct (IH fuel ((cur ++ [CLOSE]) ++ [CLOSE]) rest acc) as (fu & Lf & E); [lia|].
        exists fu. split; [lia|]. rewrite E. rewrite <- !app_assoc. reflexivity.
      * cbn [orb app length] in *. destruct fuel as [|fuel]; [lia|]. cbn [sp].
        destruct (Z.eqb_spec c OPEN); [congruence|]. cbn [negb].
        destruct (IH fuel (cur ++ [c]) rest acc) as (fu & Lf & E); [lia|].
        exists fu. split; [lia|]. rewrite E, <- app_assoc. reflexivity.
Qed.

Lemma esc_nil l : esc l = [] -> l = [].
Proof.
  destruct l as [|c l]; [reflexivity|]. unfold esc. cbn [flat_map]. destruct ((c =? OPEN) || (c =? CLOSE)); discriminate.
Qed.

Lemma sp_param fuel cur h rest acc : (0 < fuel)%nat ->
  sp fuel cur (OPEN :: hint_text h ++ CLOSE :: rest) acc =
  bind (flush_lit cur acc) (fun acc => sp (pred fuel) [] rest (acc ++ [FParam h])).
Proof.
  intros L. destruct fuel as [|fuel]; [lia|]. cbn [pred].
  assert (X : sp (S fuel) cur (OPEN :: hint_text h ++ CLOSE :: rest) acc =
    bind (flush_lit cur acc) (fun acc => match find_close (hint_text h ++ CLOSE :: rest) with
      | None => Err PMissingClose
      | Some len => bind (parse_param (firstn len (hint_text h ++ CLOSE :: rest))) (fun f0 => sp fuel [] (skipn (len + 1) (hint_text h ++ CLOSE :: rest)) (acc ++ [f0]))
      end)) by (destruct h; reflexivity).
  rewrite X. rewrite find_close_hint. rewrite firstn_app_exact by reflexivity. rewrite parse_param_text. cbn [bind].
  replace (skipn (length (hint_text h) + 1) (hint_text h ++ CLOSE :: rest)) with rest; [reflexivity|].
  destruct h; reflexivity.
Qed.

Lemma flush_esc l acc : l <> [] -> flush_lit (esc l) acc = Ok (acc ++ [FLit l]).
Proof.
  intros N. assert (Nl : esc l <> []) by (intros E; apply esc_nil in E; congruence).
  pose proof (literal_esc l) as LE. destruct (esc l) as [|x y]; [congruence|]. unfold flush_lit. rewrite LE. reflexivity.
Qed.
Lemma unparse_param h frs : unparse (FParam h :: frs) = OPEN :: hint_text h ++ CLOSE :: unparse frs.
Proof. unfold unparse. cbn [flat_map unparse_one]. cbn [app]. rewrite <- app_assoc. reflexivity. Qed.
Lemma unparse_lit l frs : unparse (FLit l :: frs) = esc l ++ unparse frs.
Proof. reflexivity. Qed.

Lemma sp_complete frs : canonical frs = true -> forall fuel acc, (length (unparse frs) < fuel)%nat ->
  sp fuel [] (unparse frs) acc = Ok (acc ++ frs).
Proof.
  induction frs as [|f|f g frs IH IH'] using list_ind2; intros C fuel acc L.
  - destruct fuel; [cbn in L; lia|]. cbn. rewrite app_nil_r. reflexivity.
  - destruct f as [l|h].
    + rewrite unparse_lit in *. rewrite app_length in L.
      destruct (sp_esc l fuel [] (unparse []) acc) as (fu & Lf & E); [lia|]. rewrite E. cbn [app].
      destruct fu as [|fu]; [cbn in L; lia|]. cbn [unparse flat_map sp]. apply flush_esc. destruct l; [discriminate|congruence].
    + rewrite unparse_param in *. rewrite sp_param by lia. cbn [flush_lit bind].
      cbn [length] in L. destruct fuel as [|[|fuel]]; try lia. reflexivity.
  - destruct f as [l|h].
    + destruct g as [l'|h]; [destruct l; discriminate|].
      assert (N : l <> []) by (destruct l; [discriminate|congruence]).
      assert (C' : canonical frs = true) by (destruct l; [discriminate|exact C]).
      rewrite unparse_lit in *. rewrite app_length in L.
      destruct (sp_esc l fuel [] (unparse (FParam h :: frs)) acc) as (fu & Lf & E); [lia|]. rewrite E. cbn [app].
      rewrite unparse_param in *. cbn [length] in L. rewrite app_length in L. cbn [length] in L.
      rewrite sp_param by lia. rewrite (flush_esc _ _ N). cbn [bind].
      rewrite IH by (try exact C'; lia). rewrite <- !app_assoc. reflexivity.
    + rewrite unparse_param in *. cbn [length] in L. rewrite app_length in L. cbn [length] in L.
      rewrite sp_param by lia. cbn [flush_lit bind]. rewrite IH' by (try exact C; lia). rewrite <- app_assoc. reflexivity.
Qed.

Theorem parse_complete frs : canonical frs = true -> parse (unparse frs) = Ok frs.
Proof. intros C. rewrite parse_sp. rewrite sp_complete; [reflexivity|exact C|lia]. Qed.

(** * Pieces of valid UTF-8 are valid *)

Definition ascii_next (b : list Z) : Prop := b = [] \/ exists c r, b = c :: r /\ 0 <= c < 128.

Lemma cont_range lo hi c : cont lo hi c = true <-> lo <= c <= hi.
Proof. unfold cont. rewrite andb_true_iff, !Z.leb_le. reflexivity. Qed.

Lemma utf8_split n : forall a b, (length a <= n)%nat -> utf8 (a ++ b) = true -> ascii_next b -> utf8 a = true /\ utf8 b = true.
Proof.
  induction n as [|n IH]; intros a b L H B.
  - destruct a; [|cbn in L; lia]. split; [reflexivity|exact H].
  - destruct a as [|a0 a]; [split; [reflexivity|exact H]|].
    assert (NA : forall lo hi x y, 128 <= lo -> b = x :: y -> cont lo hi x = true -> False).
    { intros lo hi x y Lo Eb K. destruct B as [->|(c & r & -> & R)]; [discriminate|].
      assert (c = x) by congruence. subst x. apply cont_range in K. lia. }
    cbn [app utf8] in H |- *. cbn [length] in L.
    destruct (cont 0 127 a0) eqn:E0; [apply IH; try assumption; lia|].
    destruct a as [|a1 a].
    { exfalso. cbn [app] in H. destruct b as [|b0 b]; [discriminate|].
      assert (X : forall lo hi, 128 <= lo -> cont lo hi b0 = false).
      { intros lo hi Lo. destruct (cont lo hi b0) eqn:K; [|reflexivity]. destruct (NA lo hi b0 b Lo eq_refl K). }
      rewrite !X in H by lia. rewrite !andb_false_r in H. cbn [orb andb] in H.
      destruct b as [|? [|]]; discriminate. }
    cbn [app length] in *.
    destruct (cont 194 223 a0 && cont 128 191 a1) eqn:E1; [apply IH; try assumption; lia|].
    destruct a as [|a2 a].
    { exfalso. cbn [app] in H. destruct b as [|b0 b]; [discriminate|].
      assert (X : cont 128 191 b0 = false).
      { destruct (cont 128 191 b0) eqn:K; [|reflexivity]. destruct (NA 128 191 b0 b ltac:(lia) eq_refl K). }
      rewrite !X in H. rewrite !andb_false_r in H. destruct b; discriminate. }
    cbn [app length] in *.
    match type of H with (if ?c then _ else _) = true => destruct c eqn:E2 end; [apply IH; try assumption; lia|].
    destruct a as [|a3 a].
    { exfalso. cbn [app] in H. destruct b as [|b0 b]; [discriminate|].
      assert (X : cont 128 191 b0 = false).
      { destruct (cont 128 191 b0) eqn:K; [|reflexivity]. destruct (NA 128 191 b0 b ltac:(lia) eq_refl K). }
      rewrite !X in H. rewrite !andb_false_r in H. discriminate. }
    cbn [app length] in *.
    match type of H with (if ?c then _ else _) = true => destruct c eqn:E3 end; [apply IH; try assumption; lia|discriminate].
Qed.

Lemma utf8_ascii c s : cont 0 127 c = true -> utf8 (c :: s) = utf8 s.
Proof. intros K. cbn [utf8]. rewrite K. reflexivity. Qed.
Lemma utf8_undouble c n : 0 <= c < 128 -> forall s, (length s <= n)%nat -> utf8 s = true -> utf8 (undouble c s) = true.
Proof.
  intros R. induction n as [|n IH]; intros s L H.
  - destruct s; [reflexivity|cbn in L; lia].
  - destruct s as [|a s]; [reflexivity|]. cbn [length] in L.
    assert (HI : forall lo hi x, 128 <= lo -> cont lo hi x = true -> x <> c) by (intros lo hi x Lo K; apply cont_range in K; lia).
    destruct (Z.eq_dec a c) as [->|N].
    + assert (K : cont 0 127 c = true) by (apply cont_range; lia).
      cbn [utf8] in H. rewrite K in H. destruct s as [|b s]; [cbn [undouble utf8]; rewrite K; reflexivity|].
      destruct (Z.eq_dec b c) as [->|Nb].
      * rewrite undouble_pair. cbn [utf8]. rewrite K. apply IH; [cbn in L; lia|].
        cbn [utf8] in H. rewrite K in H. exact H.
      * assert (E : undouble c (c :: b :: s) = c :: undouble c (b :: s)).
        { cbn [undouble]. rewrite Z.eqb_refl. destruct (Z.eqb_spec b c); [congruence|]. reflexivity. }
        rewrite E. rewrite utf8_ascii by exact K. apply IH; [lia|exact H].
    + rewrite undouble_ne by exact N. cbn [utf8] in H |- *.
      destruct (cont 0 127 a); [apply IH; [lia|exact H]|].
      destruct s as [|b s]; [discriminate|]. cbn [length] in L.
      destruct (cont 194 223 a && cont 128 191 b) eqn:E1.
      { apply andb_prop in E1 as E1'. destruct E1' as [E1a E1b].
        rewrite undouble_ne by (eapply HI; [|exact E1b]; lia). rewrite E1. apply IH; [lia|exact H]. }
      destruct s as [|d s]; [discriminate|]. cbn [length] in L.
      match type of H with (if ?q then _ else _) = true => destruct q eqn:E2 end.
      { apply andb_prop in E2 as E2'. destruct E2' as [E2a E2b].
        assert (Nb : b <> c).
        { rewrite !orb_true_iff, !andb_true_iff, !cont_range in E2a. lia. }
        rewrite undouble_ne by exact Nb. rewrite undouble_ne by (eapply HI; [|exact E2b]; lia).
        rewrite E1, E2. apply IH; [lia|exact H]. }
      destruct s as [|e s]; [discriminate|]. cbn [length] in L.
      match type of H with (if ?q then _ else _) = true => destruct q eqn:E3 end; [|discriminate].
      apply andb_prop in E3 as E3'. destruct E3' as [E3a E3c]. apply andb_prop in E3a as [E3a E3b].
      assert (Nb : b <> c).
      { rewrite !orb_true_iff, !andb_true_iff, !cont_range in E3a. lia. }
      rewrite undouble_ne by exact Nb. rewrite undouble_ne by (eapply HI; [|exact E3b]; lia).
      rewrite undouble_ne by (eapply HI; [|exact E3c]; lia).
      rewrite E1, E2, E3. apply IH; [lia|exact H].
Qed.

Definition lit_utf8 (f : fragment) : Prop := match f with FLit s => utf8 s = true | FParam _ => True end.

Lemma literal_utf8 raw f : literal raw = Ok f -> utf8 raw = true -> lit_utf8 f.
Proof.
  unfold literal. destruct (scan false false raw); intros H U; [|discriminate]. cbn [bind] in H. apply ok_inj in H. subst f.
  cbn [lit_utf8]. eapply utf8_undouble; [unfold CLOSE; lia|apply Nat.le_refl|].
  eapply utf8_undouble; [unfold OPEN; lia|apply Nat.le_refl|exact U].
Qed.

Lemma sp_utf8 fuel : forall cur todo acc frs, utf8 (cur ++ todo) = true -> Forall lit_utf8 acc -> sp fuel cur todo acc = Ok frs ->
  Forall lit_utf8 frs.
Proof.
  assert (FL : forall cur acc acc', utf8 cur = true -> Forall lit_utf8 acc -> flush_lit cur acc = Ok acc' -> Forall lit_utf8 acc').
  { intros cur acc acc' U A H. destruct cur as [|c cur]; [apply ok_inj in H; subst; exact A|].
    cbn [flush_lit] in H. destruct (literal (c :: cur)) as [f|] eqn:Li; [|discriminate]. cbn [bind] in H. apply ok_inj in H. subst.
    apply Forall_app. split; [exact A|]. constructor; [|constructor]. eapply literal_utf8; eassumption. }
  induction fuel as [|fuel IH]; intros cur todo acc frs U A H; [discriminate|].
  cbn [sp] in H. destruct todo as [|c rest].
  { rewrite app_nil_r in U. eapply FL; eassumption. }
  assert (Q : c = OPEN -> bind (flush_lit cur acc) (fun acc => match find_close rest with
      | None => Err PMissingClose
      | Some len => bind (parse_param (firstn len rest)) (fun f0 => sp fuel [] (skipn (len + 1) rest) (acc ++ [f0]))
      end) = Ok frs -> Forall lit_utf8 frs).
  { intros -> B.
    destruct (utf8_split (length cur) cur (OPEN :: rest) (Nat.le_refl _) U) as [U1 U2].
    { right. exists OPEN, rest. split; [reflexivity|unfold OPEN; lia]. }
    destruct (flush_lit cur acc) as [acc'|] eqn:E; [|discriminate]. cbn [bind] in B.
    destruct (find_close rest) as [len|] eqn:FC; [|discriminate].
    destruct (find_close_spec _ _ FC) as (a & b & -> & La).
    replace (skipn (len + 1) (a ++ CLOSE :: b)) with b in B
      by (replace (a ++ CLOSE :: b) with ((a ++ [CLOSE]) ++ b) by (rewrite <- app_assoc; reflexivity);
          symmetry; apply skipn_app_exact; rewrite app_length; cbn; lia).
    destruct (parse_param _) as [fr|] eqn:PP in B; [|discriminate]. cbn [bind] in B.
    destruct (parse_param_ok _ _ PP) as (h & -> & _).
    change (OPEN :: a ++ CLOSE :: b) with ((OPEN :: a) ++ CLOSE :: b) in U2.
    destruct (utf8_split (length (OPEN :: a)) (OPEN :: a) (CLOSE :: b) (Nat.le_refl _) U2) as [_ U3].
    { right. exists CLOSE, b. split; [reflexivity|unfold CLOSE; lia]. }
    eapply IH; [| |exact B].
    - cbn [app]. exact U3.
    - apply Forall_app. split; [exact (FL _ _ _ U1 A E)|]. constructor; [exact I|constructor]. }
  destruct (Z.eqb_spec c OPEN) as [->|NO]; cbn [negb] in H.
  - destruct rest as [|b rest]; [apply Q; [reflexivity|exact H]|].
    destruct (Z.eqb_spec b OPEN) as [->|]; [|apply Q; [reflexivity|exact H]].
    eapply IH; [|exact A|exact H]. rewrite <- app_assoc. exact U.
  - eapply IH; [|exact A|exact H]. rewrite <- app_assoc. exact U.
Qed.
Lemma parse_utf8 s frs : utf8 s = true -> parse s = Ok frs -> Forall lit_utf8 frs.
Proof. rewrite parse_sp. intros U H. eapply (sp_utf8 _ []); [exact U|constructor|exact H]. Qed.

(** * From the format string to the message (C31) *)

Lemma accepted_shown ff h a : accepts h a = true -> clashing a = false -> exists s, shown ff (Some h) a = Some s.
Proof.
  intros A C.
  destruct a as [w v|v|w v|v|b|b|b|b|b|b|b|b|k|v]; destruct h; try discriminate;
    try (eexists; reflexivity); try (destruct w; try discriminate; eexists; reflexivity);
    cbn [accepts shown clashing] in *; unfold show_array;
    destruct (length b =? 4)%nat eqn:E4; destruct (length b =? 6)%nat eqn:E6; destruct (length b =? 16)%nat eqn:E16;
    cbn [orb] in *; try discriminate; try (eexists; reflexivity).
  all: exfalso; repeat match goal with H : (_ =? _)%nat = true |- _ => apply Nat.eqb_eq in H end; lia.
Qed.

Lemma expand_message ff frs : forall args vs, expand_frags frs args = Ok vs ->
  forall last, message ff last vs = filled ff frs (match args with Some l => l | None => [] end).
Proof.
  induction frs as [|[s|h] frs IH]; intros args vs H last; cbn [expand_frags] in H.
  - apply ok_inj in H. subst. reflexivity.
  - destruct (expand_frags frs args) as [r|] eqn:E; [|discriminate]. cbn [bind] in H. apply ok_inj in H. subst vs.
    cbn [message shown filled]. rewrite (IH _ _ E). destruct (filled ff frs _); reflexivity.
  - destruct args as [[|a args]|]; try discriminate. destruct (accepts h a) eqn:A; [|discriminate].
    destruct (expand_frags frs (Some args)) as [r|] eqn:E; [|discriminate]. cbn [bind] in H. apply ok_inj in H. subst vs.
    cbn [message shown filled]. cbn [app]. rewrite (IH _ _ E).
    destruct (shown ff (Some h) a) as [s|]; [|reflexivity]. destruct (filled ff frs args); reflexivity.
Qed.

Lemma expand_wf frs : forall args vs, expand_frags frs args = Ok vs -> Forall lit_utf8 frs ->
  Forall wf_arg (match args with Some l => l | None => [] end) -> Forall wf_arg vs.
Proof.
  induction frs as [|[s|h] frs IH]; intros args vs H L W; cbn [expand_frags] in H.
  - apply ok_inj in H. subst. constructor.
  - destruct (expand_frags frs args) as [r|] eqn:E; [|discriminate]. cbn [bind] in H. apply ok_inj in H. subst vs.
    constructor; [exact (Forall_inv L)|]. eapply IH; [exact E|exact (Forall_inv_tail L)|exact W].
  - destruct args as [[|a args]|]; try discriminate. destruct (accepts h a) eqn:A; [|discriminate].
    destruct (expand_frags frs (Some args)) as [r|] eqn:E; [|discriminate]. cbn [bind] in H. apply ok_inj in H. subst vs.
    constructor; [exact I|]. constructor; [exact (Forall_inv W)|]. eapply IH; [exact E|exact (Forall_inv_tail L)|exact (Forall_inv_tail W)].
Qed.

Lemma expand_filled ff frs : forall args vs, expand_frags frs args = Ok vs ->
  Forall (fun a => clashing a = false) (match args with Some l => l | None => [] end) ->
  exists m, filled ff frs (match args with Some l => l | None => [] end) = Some m.
Proof.
  induction frs as [|[s|h] frs IH]; intros args vs H C; cbn [expand_frags] in H.
  - eexists. reflexivity.
  - destruct (expand_frags frs args) as [r|] eqn:E; [|discriminate]. destruct (IH _ _ E C) as [m M]. cbn [filled]. rewrite M. eauto.
  - destruct args as [[|a args]|]; try discriminate. destruct (accepts h a) eqn:A; [|discriminate].
    destruct (expand_frags frs (Some args)) as [r|] eqn:E; [|discriminate].
    destruct (IH _ _ E (Forall_inv_tail C)) as [m M]. destruct (accepted_shown ff h a A (Forall_inv C)) as [t T].
    cbn [filled]. rewrite T, M. eauto.
Qed.

Definition given (args : option (list larg)) : list larg := match args with Some l => l | None => [] end.

Theorem log_end_to_end ff room fs args vs h buf :
  granting room -> wf_header h -> utf8 fs = true -> Forall wf_arg (given args) ->
  Forall (fun a => clashing a = false) (given args) ->
  expand fs args = Ok vs -> emit room h vs = LogSubmitted buf ->
  exists frs m, parse fs = Ok frs /\ filled ff frs (given args) = Some m /\ log_buf 8 ff buf = Ok (h, m).
Proof.
  intros G WH U WA C X E. unfold expand in X. destruct (parse fs) as [frs|] eqn:P; [|discriminate].
  destruct (expand_filled ff _ _ _ X C) as [m M].
  exists frs, m. split; [reflexivity|]. split; [exact M|].
  destruct (emit_spec room h vs G) as [(FF & SZ & cap & b & GC & R & EE)|(EE & _)]; [|congruence].
  assert (buf = record h vs ++ skipn (length (record h vs)) b) by congruence. subst buf.
  rewrite log_buf_record; [|exact WH| |exact FF|lia].
  - rewrite (expand_message ff _ _ _ X). fold (given args) in M |- *. rewrite M. reflexivity.
  - eapply expand_wf; [exact X|eapply parse_utf8; eassumption|exact WA].
Qed.
