(** Every honest operation keeps the invariant. *)
From Coq Require Import Permutation.
From Verif Require Import Base AttachModel AttachSpec AttachProofs.
Local Open Scope Z_scope.

(** * New attachments *)

Lemma log_counts l s u : s_log u = s_log s ++ l -> forall b,
  asked b u = (asked b s + tally (fun e => match e with Asked x => (x =? b)%Z | _ => false end) l)%nat /\
  gone b u = (gone b s + tally (fun e => match e with Gone x => (x =? b)%Z | _ => false end) l)%nat /\
  made_call b u = (made_call b s + tally (fun e => match e with MadeCall _ x => (x =? b)%Z | _ => false end) l)%nat /\
  made_link b u = (made_link b s + tally (fun e => match e with MadeLink x => (x =? b)%Z | _ => false end) l)%nat.
Proof. intros E b. unfold asked, gone, made_call, made_link. rewrite E, !tally_app. auto. Qed.

Lemma inv_make_call H s u m place g c :
  Inv H s -> s_fds u = s_fds s -> s_pins u = s_pins s -> s_lost u = s_lost s -> s_next s < s_next u ->
  s_slots u = s_slots s ++ [own_slot c] -> s_log u = s_log s ++ [MadeCall m (s_next s)] ->
  c_mode c = m -> c_place c = place -> c_prog c = g -> c_att c = s_next s -> key_ok (s_next u) c ->
  (forall e, In e (s_slots s) -> sl_mode e = m -> m <> MSingle -> sl_place e = place -> (m = MMulti -> sl_prog e = g) -> False) ->
  Inv (BCall c :: H) u.
Proof.
  intros X U1 U2 U3 U4 U5 U6 C1 C2 C3 C4 KO New. destruct X as [A B C D E F G I J L M N O PN]. set (a := s_next s) in *.
  destruct (C a ltac:(unfold a; lia)) as [Fa Fb].
  assert (forall b, asked b u = asked b s /\ gone b u = gone b s /\ made_link b u = made_link b s /\ made_call b u = (made_call b s + if Z.eq_dec a b then 1 else 0)%nat /\ referred b u = referred b s) as P.
  { intros b. destruct (log_counts _ s u U6 b) as (-> & -> & -> & ->). unfold tally, referred. rewrite U1, U2. cbn [filter]. destruct (Z.eqb_spec a b), (Z.eq_dec a b); try contradiction; cbn [length]; repeat split; lia. }
  constructor; rewrite ?U1, ?U2, ?U3, ?U5; try assumption.
  - intros b. destruct (P b) as (-> & _ & _ & -> & _). cbn [flat_map call_att app]. rewrite cnt_cons, C4. pose proof (A b). lia.
  - intros b. destruct (P b) as (_ & _ & -> & -> & _). pose proof (B b). destruct (Z.eq_dec a b) as [<-|]; [rewrite Fa, Fb|]; lia.
  - intros b Hb. destruct (P b) as (_ & _ & -> & -> & _). destruct (Z.eq_dec a b) as [<-|]; [lia|]. destruct (C b); [unfold a in *; lia|]. lia.
  - intros b. destruct (P b) as (_ & -> & -> & -> & ->). rewrite map_app, cnt_app. cbn [map own_slot sl_att]. rewrite C4, cnt_cons. pose proof (D b). change (cnt b []) with 0%nat. lia.
  - intros e Ie. rewrite U6. apply in_or_app. apply in_app_or in Ie as [Ie|[<-|[]]]; [left; now apply E|right]. cbn [own_slot sl_mode sl_att]. rewrite C1, C4. now left.
  - intros b. destruct (P b) as (_ & _ & -> & _ & ->). apply F.
  - eapply Forall_impl; [|exact J]. cbn beta. intros; lia.
  - intros e f Ie If Q1 Q2 Q3 Q4. apply in_app_or in Ie as [Ie|[<-|[]]]; apply in_app_or in If as [If|[<-|[]]]; cbn [own_slot sl_mode sl_place sl_prog] in *.
    + now apply L.
    + exfalso. apply (New e Ie); try congruence. intros Qm. rewrite <- C3. apply Q4. congruence.
    + exfalso. apply (New f If); try congruence. intros Qm. rewrite <- C3. symmetry. apply Q4. congruence.
    + reflexivity.
  - intros c' [Ic|Ic] Mc; [assert (c' = c) as -> by congruence; apply in_or_app; right; now left|apply in_or_app; left; now apply M].
  - intros m' b Hb Mm Zb. destruct (P b) as (Pb & _). rewrite Pb in Zb. rewrite U6 in Hb. rewrite map_app. apply in_or_app. apply in_app_or in Hb as [Hb|[Hb|[]]]; [left; now apply N with m'|right].
    cbn [map own_slot sl_att]. left. congruence.
  - intros c' [Ic|Ic]; [assert (c' = c) as -> by congruence; exact KO|]. destruct (O c' Ic) as [K R]. split; [|exact R]. destruct (c_key c'); [exact K| |exact K]. split; [lia|apply K].
Qed.

Lemma referred_add fd a b s u : s_fds u = s_fds s ++ [(fd, a)] -> s_pins u = s_pins s -> referred b u = referred b s || (a =? b).
Proof. intros U1 U2. unfold referred. rewrite U1, U2, existsb_app. cbn [existsb snd]. rewrite orb_false_r. destruct (existsb _ (s_fds s)), (existsb _ (s_pins s)), (a =? b); reflexivity. Qed.
Lemma fds_fresh H s fd : Inv H s -> s_next s <= fd -> ~ In fd (map fst (s_fds s)).
Proof. intros I L J. apply in_map_iff in J as (p & <- & J). pose proof (i_fdsn _ _ I) as F. rewrite Forall_forall in F. specialize (F p J). cbn beta in F. lia. Qed.
Lemma nodup_snoc (x : Z) l : NoDup l -> ~ In x l -> NoDup (l ++ [x]).
Proof. intros N I. apply (Permutation_NoDup (l := x :: l)); [apply Permutation_cons_append|]. now constructor. Qed.

Lemma inv_make_link H s u fd :
  Inv H s -> s_fds u = s_fds s ++ [(fd, s_next s)] -> s_pins u = s_pins s -> s_lost u = s_lost s -> s_next s <= fd -> fd < s_next u -> s_next s < s_next u ->
  s_slots u = s_slots s -> s_log u = s_log s ++ [MadeLink (s_next s)] -> Inv (BFd fd :: H) u.
Proof.
  intros X U1 U2 U3 U4 U4' U4'' U5 U6. pose proof (fds_fresh H s fd X U4) as FF. destruct X as [A B C D E F G I J L M N O PN]. set (a := s_next s) in *.
  destruct (C a ltac:(unfold a; lia)) as [Fa Fb].
  assert (referred a s = false) as Ra by (destruct (referred a s) eqn:Q; [apply F in Q; lia|reflexivity]).
  assert (forall b, asked b u = asked b s /\ gone b u = gone b s /\ made_call b u = made_call b s /\ made_link b u = (made_link b s + if Z.eq_dec a b then 1 else 0)%nat) as P.
  { intros b. destruct (log_counts _ s u U6 b) as (-> & -> & -> & ->). unfold tally. cbn [filter]. destruct (Z.eqb_spec a b), (Z.eq_dec a b); try contradiction; cbn [length]; repeat split; lia. }
  constructor; rewrite ?U2, ?U3, ?U5; try assumption.
  - intros b. destruct (P b) as (-> & _ & -> & _). apply A.
  - intros b. destruct (P b) as (_ & _ & -> & ->). pose proof (B b). destruct (Z.eq_dec a b) as [<-|]; [rewrite Fa, Fb|]; lia.
  - intros b Hb. destruct (P b) as (_ & _ & -> & ->). destruct (Z.eq_dec a b) as [<-|]; [lia|]. destruct (C b); [unfold a in *; lia|]. lia.
  - intros b. destruct (P b) as (_ & -> & -> & ->). rewrite (referred_add fd a b s u U1 U2). pose proof (D b) as Db. destruct (Z.eq_dec a b) as [<-|X]; [rewrite Z.eqb_refl, Ra in *; cbn [orb]; lia|]. apply Z.eqb_neq in X. rewrite X, orb_false_r. lia.
  - intros e Ie. rewrite U6. apply in_or_app. left. now apply E.
  - intros b Rb. destruct (P b) as (_ & _ & _ & ->). rewrite (referred_add fd a b s u U1 U2) in Rb. destruct (Z.eqb_spec a b), (Z.eq_dec a b); try contradiction; [lia|]. rewrite orb_false_r in Rb. pose proof (F b Rb). lia.
  - intros x. rewrite U1, map_app, cnt_app. cbn [flat_map fd_of app map fst]. rewrite !cnt_cons, (G x). change (cnt x []) with 0%nat. lia.
  - rewrite U1, map_app. now apply nodup_snoc.
  - rewrite U1. apply Forall_app. split; [eapply Forall_impl; [|exact J]; cbn beta; intros; lia|]. constructor; [exact U4'|constructor].
  - intros c [Ic|Ic]; [discriminate|]. now apply M.
  - intros m b Hb Mm Zb. destruct (P b) as (Pb & _). rewrite Pb in Zb. rewrite U6 in Hb. apply in_app_or in Hb as [Hb|[Hb|[]]]; [now apply N with m|discriminate].
  - intros c [Ic|Ic]; [discriminate|]. destruct (O c Ic) as [K R]. split; [|exact R]. destruct (c_key c); [exact K| |exact K]. split; [lia|apply K].
Qed.

(** The same log, the same attachments referred to. *)
Lemma inv_refs H K s u : Inv H s ->
  s_slots u = s_slots s -> s_lost u = s_lost s -> s_log u = s_log s -> s_next s <= s_next u -> (forall b, referred b u = referred b s) ->
  (forall x, cnt x (flat_map fd_of K) = cnt x (map fst (s_fds u))) -> NoDup (map fst (s_fds u)) -> Forall (fun p => fst p < s_next u) (s_fds u) -> NoDup (map fst (s_pins u)) ->
  (forall x, cnt x (flat_map call_att K) = cnt x (flat_map call_att H)) -> (forall c, In (BCall c) K -> In (BCall c) H) -> Inv K u.
Proof.
  intros [A B C D E F G I J L M N O PN] T1 T2 T3 T4 R K1 K2 K3 Kp K4 K5.
  assert (forall b, asked b u = asked b s /\ gone b u = gone b s /\ made_call b u = made_call b s /\ made_link b u = made_link b s) as Q by (intros b; unfold asked, gone, made_call, made_link; now rewrite T3).
  constructor; rewrite ?T1, ?T2, ?T3; try assumption.
  - intros b. destruct (Q b) as (-> & _ & -> & _). rewrite K4. apply A.
  - intros b. destruct (Q b) as (_ & _ & -> & ->). apply B.
  - intros b Hb. destruct (Q b) as (_ & _ & -> & ->). apply C. lia.
  - intros b. destruct (Q b) as (_ & -> & -> & ->). rewrite R. apply D.
  - intros b. destruct (Q b) as (_ & _ & _ & ->). rewrite R. apply F.
  - intros c Ic. apply M. now apply K5.
  - intros m b. destruct (Q b) as (-> & _). apply N.
  - intros c Ic. destruct (O c (K5 c Ic)) as [Y Z]. split; [|exact Z]. destruct (c_key c); [exact Y| |exact Y]. split; [lia|apply Y].
Qed.
Lemma inv_dup H s u fd a : Inv H s -> referred a s = true -> s_fds u = s_fds s ++ [(fd, a)] -> s_pins u = s_pins s -> s_slots u = s_slots s -> s_lost u = s_lost s -> s_log u = s_log s ->
  s_next s <= fd -> fd < s_next u -> Inv (BFd fd :: H) u.
Proof.
  intros X Ra U1 U2 U3 U4 U5 L1 L2. apply (inv_refs H (BFd fd :: H) s u X U3 U4 U5); try rewrite U2; try (apply X); try lia.
  - intros b. rewrite (referred_add fd a b s u U1 U2). destruct (Z.eqb_spec a b) as [<-|]; [rewrite Ra; reflexivity|apply orb_false_r].
  - intros x. rewrite U1, map_app, cnt_app. cbn [flat_map fd_of app map fst]. rewrite !cnt_cons, (i_fds _ _ X x). change (cnt x []) with 0%nat. lia.
  - rewrite U1, map_app. apply nodup_snoc; [apply X|now apply (fds_fresh H s)].
  - rewrite U1. apply Forall_app. split; [eapply Forall_impl; [|apply X]; cbn beta; intros; lia|]. constructor; [exact L2|constructor].
  - reflexivity.
  - intros c [Ic|Ic]; [discriminate|exact Ic].
Qed.
Lemma inv_pin H s a path : Inv H s -> referred a s = true -> ~ In path (map fst (s_pins s)) -> Inv H (set_pins (s_pins s ++ [(path, a)]) s).
Proof.
  intros X Ra F. apply (inv_refs H H s _ X); cbn [set_pins s_fds s_slots s_lost s_log s_next s_pins]; try reflexivity; try (apply X); try lia; try tauto.
  - intros b. unfold referred. cbn [set_pins s_fds s_pins]. rewrite existsb_app. cbn [existsb snd]. rewrite orb_false_r, orb_assoc. fold (referred b s). destruct (Z.eqb_spec a b) as [<-|]; [now rewrite Ra|apply orb_false_r].
  - rewrite map_app. cbn [map fst]. apply nodup_snoc; [apply X|exact F].
Qed.
Lemma inv_unpin H s u path : Inv H s -> remove_pin path s = Some u -> Inv H u /\ frame s u.
Proof.
  intros X. unfold remove_pin. destruct (find _ (s_pins s)) as [[q a]|] eqn:E; [|discriminate]. intros Q. apply some_inj in Q. subst u. apply find_some in E as [E1 E2]. cbn [fst] in E2. apply Z.eqb_eq in E2. subst q. pose proof (i_pins _ _ X) as N.
  split; [|eapply frame_trans; [|apply frame_collect]; repeat split].
  apply (inv_collect H s _ a X); try reflexivity; cbn [set_pins s_fds s_next s_pins]; try (apply X).
  - unfold referred. apply orb_true_iff. right. apply existsb_exists. exists (path, a). split; [exact E1|apply Z.eqb_refl].
  - intros b D. unfold referred. cbn [set_pins s_fds s_pins]. f_equal. apply eq_iff_eq_true. rewrite !existsb_exists. split; intros ([x y] & J & Q); cbn [snd] in Q; apply Z.eqb_eq in Q; subst y.
    + apply filter_In in J as [J _]. exists (x, b). split; [exact J|apply Z.eqb_refl].
    + exists (x, b). split; [|apply Z.eqb_refl]. apply filter_In. split; [exact J|]. cbn [fst]. apply negb_true_iff. destruct (Z.eqb_spec x path) as [->|]; [|reflexivity]. exfalso. apply D. now apply (fd_unique path b a (s_pins s)).
  - now apply nodup_filter.
  - auto.
Qed.

(** * Attaching *)

Lemma slot_none m place g s (f : slot -> bool) : (forall e, f e = mode_eqb (sl_mode e) m && (sl_place e =? place) && match m with MMulti => sl_prog e =? g | _ => true end) -> m <> MSingle ->
  existsb f (s_slots s) = false ->
  forall e, In e (s_slots s) -> sl_mode e = m -> m <> MSingle -> sl_place e = place -> (m = MMulti -> sl_prog e = g) -> False.
Proof.
  intros Ef Mm X e Ie Q1 _ Q3 Q4. rewrite <- not_true_iff_false in X. apply X. apply existsb_exists. exists e. split; [exact Ie|]. rewrite Ef, Q1, mode_eqb_refl, Q3, Z.eqb_refl. destruct m; try reflexivity. cbn [andb]. apply Z.eqb_eq. now apply Q4.
Qed.
(** What the kernel did, however it did it. *)
Lemma kernel_attach_spec H m place g s a u : Inv H s -> kernel_attach m place g s = Some (a, u) ->
  exists v, Inv H v /\ frame s v /\ s_next v = s_next s /\ a = s_next v /\ frame s u /\ s_fds u = s_fds v /\ s_pins u = s_pins v /\ s_lost u = s_lost v /\ s_next u = s_next v + 1 /\
    s_slots u = s_slots v ++ [{| sl_mode := m; sl_place := place; sl_prog := g; sl_att := a |}] /\ s_log u = s_log v ++ [MadeCall m a] /\
    (forall e, In e (s_slots v) -> sl_mode e = m -> m <> MSingle -> sl_place e = place -> (m = MMulti -> sl_prog e = g) -> False).
Proof.
  intros X. unfold kernel_attach, take_next. destruct m.
  - destruct (existsb _ (s_slots s)) eqn:E; [discriminate|]. intros Q. apply some_inj in Q. apply pair_equal_spec in Q as [<- <-]. exists s. split; [exact X|]. do 10 (split; [repeat split|]). eapply (slot_none MExclusive place g s); [|discriminate|exact E]. intros e. cbn beta. now rewrite andb_true_r.
  - destruct (existsb _ (s_slots s)) eqn:E; [discriminate|]. intros Q. apply some_inj in Q. apply pair_equal_spec in Q as [<- <-]. exists s. split; [exact X|]. do 10 (split; [repeat split|]). eapply (slot_none MMulti place g s); [|discriminate|exact E]. intros e. reflexivity.
  - intros Q. apply some_inj in Q. apply pair_equal_spec in Q as [<- <-]. eexists. split; [apply (inv_slots H s (fun e => mode_eqb (sl_mode e) MSingle && (sl_place e =? place)) X)|].
    + intros e _ Q. apply andb_true_iff in Q as [Q _]. apply mode_eqb_eq in Q. now left.
    + do 10 (split; [repeat split|]). intros. congruence.
Qed.

Lemma good_attach i h s : (i < length (s_progs s))%nat -> real h -> Good s -> Good (snd (attach i h s)).
Proof.
  intros L R G. unfold attach. destruct (p_fd (prog_at i s)) as [g|]; [|exact G]. destruct (ask s) as [f t] eqn:Ea. pose proof (core_ask _ _ _ Ea) as Ct. pose proof (frame_ask _ _ _ Ea) as Ft.
  assert (Good t) as Gt by (unfold Good; rewrite (frame_bases s t Ft); apply (inv_core _ s t Ct G)). assert (i < length (s_progs t))%nat as Lt by (destruct Ft as (-> & _); exact L). clear Ea Ct Ft G L.
  destruct f; [exact Gt|]. destruct h as [|m place dup raw drops].
  - cbn [take_next fst snd]. apply good_insert; [exact Lt|]. cbn [l_base]. apply (inv_make_link (bases_of t) t); try reflexivity; cbn [note set_fds set_next s_next]; try lia. exact Gt.
  - destruct (kernel_attach m place g t) as [[a u]|] eqn:K; [|exact Gt]. destruct (kernel_attach_spec _ _ _ _ _ _ _ Gt K) as (v & Iv & Fv & N1 & -> & Fu & U1 & U2 & U3 & U4 & U5 & U6 & New).
    cbn [take_next fst snd]. destruct R as (R1 & R2 & _). apply good_insert; [cbn [set_next s_progs]; destruct Fu as (-> & _); exact Lt|]. cbn [l_base].
    change (bases_of (set_next (s_next u + 1) u)) with (bases_of u). rewrite (frame_bases t u Fu).
    apply (inv_make_call (bases_of t) v _ m place g); cbn [set_next s_fds s_pins s_lost s_next s_slots s_log c_mode c_place c_prog c_att own_slot]; try assumption; try reflexivity; try lia.
    split; cbn [c_key c_mode c_raw c_place]; [|exact R2]. destruct dup.
    + split; [lia|]. now apply R1.
    + repeat split. all: destruct m; try reflexivity; exfalso; assert (false = true) as Q by (apply R1; discriminate); discriminate.
Qed.

Lemma call_once H s c c' : Inv (BCall c :: H) s -> In (BCall c') H -> c_att c <> c_att c'.
Proof.
  intros X I Q. pose proof (i_asked _ _ X (c_att c)) as A. cbn [flat_map call_att app] in A. rewrite cnt_cons in A. destruct (Z.eq_dec (c_att c) (c_att c)) as [_|]; [|contradiction].
  assert (In (c_att c) (flat_map call_att H)) as J by (rewrite Q; apply in_flat_map; exists (BCall c'); split; [exact I|now left]). apply cnt_in in J. pose proof (i_made _ _ X (c_att c)). lia.
Qed.

Lemma inv_replace H s c g o : Inv (BCall c :: H) s -> c_mode c = MExclusive ->
  Inv (BCall {| c_key := c_key c; c_mode := c_mode c; c_place := c_place c; c_prog := g; c_owner := o; c_raw := false; c_att := c_att c |} :: H) (replace_prog c g s).
Proof.
  intros X Mc. assert (c_mode c <> MSingle) as Ms by congruence. pose proof (fun e => matches_own H s c e X Ms) as MO. pose proof (fun c' => call_once H s c c' X) as Once.
  set (f := fun e : slot => if matches c e then {| sl_mode := sl_mode e; sl_place := sl_place e; sl_prog := g; sl_att := sl_att e |} else e).
  assert (forall e, sl_mode (f e) = sl_mode e /\ sl_place (f e) = sl_place e /\ sl_att (f e) = sl_att e /\ (sl_mode e <> MExclusive -> sl_prog (f e) = sl_prog e)) as Pf.
  { intros e. unfold f. destruct (matches c e) eqn:Q; [|repeat split]. repeat split. cbn [sl_prog]. intros Y. exfalso. apply Y. unfold matches in Q. apply andb_true_iff in Q as [Q _]. apply andb_true_iff in Q as [Q _]. apply mode_eqb_eq in Q. congruence. }
  assert (map sl_att (map f (s_slots s)) = map sl_att (s_slots s)) as Atts by (rewrite map_map; apply map_ext; intros e; apply Pf).
  assert (forall c', In (BCall c') H -> c_mode c' <> MSingle -> In (own_slot c') (map f (s_slots s))) as Others.
  { intros c' Ic Mc'. pose proof (i_own _ _ X c' ltac:(now right) Mc') as Q. apply in_map_iff. exists (own_slot c'). split; [|exact Q]. unfold f. destruct (matches c (own_slot c')) eqn:Y; [|reflexivity]. exfalso. apply MO in Y; [|exact Q]. apply (Once c' Ic). apply (f_equal sl_att) in Y. cbn [own_slot sl_att] in Y. congruence. }
  assert (In (own_slot c) (s_slots s)) as Own by (apply (i_own _ _ X); [now left|exact Ms]).
  destruct X as [A B C D E F G I J L M N O PN]. constructor; cbn [replace_prog set_slots s_slots s_fds s_pins s_lost s_log s_next]; fold f; try assumption.
  - intros a. rewrite Atts. apply D.
  - intros e Ie. apply in_map_iff in Ie as (e' & <- & Ie). destruct (Pf e') as (-> & _ & -> & _). now apply E.
  - intros e e' Ie Ie' Q1 Q2 Q3 Q4. apply in_map_iff in Ie as (x & <- & Ix). apply in_map_iff in Ie' as (y & <- & Iy). destruct (Pf x) as (x1 & x2 & x3 & x4). destruct (Pf y) as (y1 & y2 & y3 & y4). f_equal. apply L; try assumption; try congruence. intros Qm. rewrite <- x4, <- y4 by congruence. apply Q4. congruence.
  - intros c' [Ic|Ic] Mc'; [|now apply Others]. assert (c' = {| c_key := c_key c; c_mode := c_mode c; c_place := c_place c; c_prog := g; c_owner := o; c_raw := false; c_att := c_att c |}) as -> by congruence.
    apply in_map_iff. exists (if c_raw c then own_slot c else own_slot c). split; [|destruct (c_raw c); exact Own]. unfold f. assert (matches c (own_slot c) = true) as Q.
    { unfold matches. cbn [own_slot sl_mode sl_place sl_prog]. rewrite mode_eqb_refl, !Z.eqb_refl. destruct (c_raw c), (c_mode c); reflexivity. }
    destruct (c_raw c); rewrite Q; reflexivity.
  - intros m a Ha Mm Za. rewrite Atts. now apply N with m.
  - intros c' [Ic|Ic]; [|apply O; now right]. assert (c' = {| c_key := c_key c; c_mode := c_mode c; c_place := c_place c; c_prog := g; c_owner := o; c_raw := false; c_att := c_att c |}) as -> by congruence.
    destruct (O c ltac:(now left)) as [K _]. split; [exact K|discriminate].
Qed.

Lemma good_to_link i l s : (i < length (s_progs s))%nat -> can_replace l = true -> Inv (l_base l :: bases_of s) s -> Good (snd (attach_to_link i l s)).
Proof.
  intros L R G. unfold attach_to_link. destruct (p_fd (prog_at i s)) as [g|].
  2:{ cbn [snd]. unfold Good. rewrite (frame_bases s _ (frame_dropl l s)). now apply inv_dropl. }
  destruct (ask s) as [f t] eqn:Ea. pose proof (core_ask _ _ _ Ea) as Ct. pose proof (frame_ask _ _ _ Ea) as Ft.
  assert (Inv (l_base l :: bases_of t) t) as Gt by (rewrite (frame_bases s t Ft); apply (inv_core _ s t Ct G)). assert (i < length (s_progs t))%nat as Lt by (destruct Ft as (-> & _); exact L). clear Ea Ct Ft G L.
  unfold can_replace in R. destruct (l_base l) as [fd|c] eqn:Lb.
  - destruct f; [|now apply good_insert]. cbn [snd]. unfold Good. rewrite (frame_bases t _ (frame_close fd t)). now apply inv_close.
  - apply mode_eqb_eq in R. destruct (f || c_raw c || _).
    + cbn [snd]. unfold Good. rewrite (frame_bases t _ (frame_dropb Leaked (BCall c) t)). now apply inv_dropb.
    + apply good_insert; [exact Lt|]. change (bases_of (replace_prog c g t)) with (bases_of t). now apply inv_replace.
Qed.

(** * Operations *)

Lemma take_nth_perm {A} n (l : list A) x r : take_nth n l = Some (x, r) -> Permutation l (x :: r).
Proof.
  unfold take_nth. destruct (nth_error l n) as [y|] eqn:E; [|discriminate]. intros Q. apply some_inj in Q. apply pair_equal_spec in Q as [<- <-]. apply nth_error_split in E as (a & b & -> & <-).
  replace (S (length a)) with (length (a ++ [y])) by (rewrite app_length; cbn [length]; lia). rewrite firstn_app_exact by reflexivity.
  assert (a ++ y :: b = (a ++ [y]) ++ b) as -> by (rewrite <- app_assoc; reflexivity). rewrite skipn_app_exact by reflexivity. rewrite <- app_assoc. apply Permutation_sym. apply Permutation_middle.
Qed.
Lemma bases_owned x r s : Permutation (s_owned s) (x :: r) -> Permutation (bases_of s) (l_base x :: bases_of (set_owned r s)).
Proof.
  intros P. unfold bases_of, tracked, set_owned. cbn [s_progs s_owned s_bases s_pinned]. apply (Permutation_map l_base) in P. cbn [map] in P. rewrite P. apply Permutation_sym. apply (Permutation_middle (map l_base (flat_map p_links (s_progs s)))).
Qed.
Lemma bases_bases x r s : Permutation (s_bases s) (x :: r) -> Permutation (bases_of s) (x :: bases_of (set_bases r s)).
Proof.
  intros P. unfold bases_of, tracked, set_bases. cbn [s_progs s_owned s_bases s_pinned]. rewrite P. rewrite !app_assoc. apply Permutation_sym. apply (Permutation_middle (map l_base (flat_map p_links (s_progs s)) ++ map l_base (s_owned s))) || idtac.
  rewrite <- !app_assoc. cbn [app]. rewrite !app_assoc. rewrite <- !app_assoc. etransitivity; [apply (Permutation_middle (map l_base (flat_map p_links (s_progs s))))|]. apply Permutation_app_head. apply (Permutation_middle (map l_base (s_owned s))).
Qed.
Lemma bases_pinned q fd r s : Permutation (s_pinned s) ((q, fd) :: r) -> Permutation (bases_of s) (BFd fd :: bases_of (set_pinned r s)).
Proof.
  intros P. unfold bases_of, tracked, set_pinned. cbn [s_progs s_owned s_bases s_pinned]. apply (Permutation_map (fun p => BFd (snd p))) in P. cbn [map snd] in P. rewrite P. apply Permutation_sym.
  etransitivity; [apply (Permutation_middle (map l_base (flat_map p_links (s_progs s))))|]. apply Permutation_app_head. etransitivity; [apply (Permutation_middle (map l_base (s_owned s)))|]. apply Permutation_app_head. apply Permutation_middle.
Qed.
Lemma core_set_owned l s : same_core s (set_owned l s). Proof. repeat split. cbn. lia. Qed.
Lemma core_set_bases l s : same_core s (set_bases l s). Proof. repeat split. cbn. lia. Qed.
Lemma core_set_pinned l s : same_core s (set_pinned l s). Proof. repeat split. cbn. lia. Qed.
Lemma take_owned n s x r : Good s -> take_nth n (s_owned s) = Some (x, r) -> Inv (l_base x :: bases_of (set_owned r s)) (set_owned r s).
Proof. intros G E. apply take_nth_perm in E. apply (inv_core _ s); [apply core_set_owned|]. eapply inv_perm; [|exact G]. now apply bases_owned. Qed.
Lemma take_bases n s x r : Good s -> take_nth n (s_bases s) = Some (x, r) -> Inv (x :: bases_of (set_bases r s)) (set_bases r s).
Proof. intros G E. apply take_nth_perm in E. apply (inv_core _ s); [apply core_set_bases|]. eapply inv_perm; [|exact G]. now apply bases_bases. Qed.
Lemma take_pinned n s q fd r : Good s -> take_nth n (s_pinned s) = Some ((q, fd), r) -> Inv (BFd fd :: bases_of (set_pinned r s)) (set_pinned r s).
Proof. intros G E. apply take_nth_perm in E. apply (inv_core _ s); [apply core_set_pinned|]. eapply inv_perm; [|exact G]. now apply (bases_pinned q). Qed.
Lemma give_owned x s : Inv (l_base x :: bases_of s) s -> Good (set_owned (s_owned s ++ [x]) s).
Proof.
  intros G. apply (inv_core _ s); [apply core_set_owned|]. eapply inv_perm; [|exact G]. apply Permutation_sym. etransitivity; [apply (bases_owned x (s_owned s) (set_owned (s_owned s ++ [x]) s))|destruct s; reflexivity]. cbn [set_owned s_owned]. apply Permutation_sym. apply Permutation_cons_append.
Qed.
Lemma give_bases x s : Inv (x :: bases_of s) s -> Good (set_bases (s_bases s ++ [x]) s).
Proof.
  intros G. apply (inv_core _ s); [apply core_set_bases|]. eapply inv_perm; [|exact G]. apply Permutation_sym. etransitivity; [apply (bases_bases x (s_bases s) (set_bases (s_bases s ++ [x]) s))|destruct s; reflexivity]. cbn [set_bases s_bases]. apply Permutation_sym. apply Permutation_cons_append.
Qed.
Lemma give_pinned q fd s : Inv (BFd fd :: bases_of s) s -> Good (set_pinned (s_pinned s ++ [(q, fd)]) s).
Proof.
  intros G. apply (inv_core _ s); [apply core_set_pinned|]. eapply inv_perm; [|exact G]. apply Permutation_sym. etransitivity; [apply (bases_pinned q fd (s_pinned s) (set_pinned (s_pinned s ++ [(q, fd)]) s))|destruct s; reflexivity]. cbn [set_pinned s_pinned]. apply Permutation_sym. apply Permutation_cons_append.
Qed.
Lemma drop_good s t H : frame s t -> H = bases_of s -> Inv H t -> Good t. Proof. intros F -> I. unfold Good. now rewrite (frame_bases s t F). Qed.

Lemma good_load i s : Good s -> Good (snd (load i s)).
Proof.
  intros G. unfold load. destruct (p_fd (prog_at i s)); [exact G|]. destruct (negb _); [exact G|]. destruct (ask s) as [f t] eqn:E. pose proof (core_ask _ _ _ E) as C. pose proof (frame_ask _ _ _ E) as F.
  assert (Good t) as Gt by (apply (drop_good s t (bases_of s) F eq_refl); now apply (inv_core _ s t C)). destruct f; [exact Gt|]. cbn [take_next snd].
  assert (prog_at i s = prog_at i t) as -> by (unfold prog_at; destruct F as (-> & _); reflexivity).
  assert (Good (put_prog i (with_fd (Some (s_next t)) (prog_at i t)) t)) as X by now apply good_put_fd.
  set (u := note _ _). assert (bases_of u = bases_of (put_prog i (with_fd (Some (s_next t)) (prog_at i t)) t)) as Eb by reflexivity. unfold Good. rewrite Eb.
  destruct X as [A B C' D E' F' G' I J L M N O PN].
  assert (forall b, asked b u = asked b t /\ gone b u = gone b t /\ made_call b u = made_call b t /\ made_link b u = made_link b t) as P.
  { intros b. assert (s_log u = s_log t ++ [Loaded i]) as Q by reflexivity. destruct (log_counts _ t u Q b) as (-> & -> & -> & ->). unfold tally. cbn [filter length]. lia. }
  constructor; try assumption.
  - intros b. destruct (P b) as (-> & _ & -> & _). apply A.
  - intros b. destruct (P b) as (_ & _ & -> & ->). apply B.
  - intros b Hb. destruct (P b) as (_ & _ & -> & ->). apply C'. cbn in Hb |- *. lia.
  - intros b. destruct (P b) as (_ & -> & -> & ->). apply D.
  - intros e Ie. apply in_or_app. left. now apply E'.
  - intros b. destruct (P b) as (_ & _ & _ & ->). apply F'.
  - eapply Forall_impl; [|exact J]. cbn. intros; lia.
  - intros m b Hb Mm Zb. destruct (P b) as (Pb & _). rewrite Pb in Zb. apply in_app_or in Hb as [Hb|[Hb|[]]]; [now apply N with m|discriminate].
  - intros c Ic. destruct (O c Ic) as [K R]. split; [|exact R]. cbn in K |- *. destruct (c_key c); [exact K| |exact K]. split; [lia|apply K].
Qed.
Lemma inv_closed H s i : Inv H s -> Inv H (note [Closed i] s).
Proof.
  intros [A B C D E F G I J L M N O PN].
  assert (forall b, asked b (note [Closed i] s) = asked b s /\ gone b (note [Closed i] s) = gone b s /\ made_call b (note [Closed i] s) = made_call b s /\ made_link b (note [Closed i] s) = made_link b s) as P.
  { intros b. destruct (log_counts [Closed i] s (note [Closed i] s) eq_refl b) as (-> & -> & -> & ->). unfold tally. cbn [filter length]. lia. }
  constructor; try assumption.
  - intros b. destruct (P b) as (-> & _ & -> & _). apply A.
  - intros b. destruct (P b) as (_ & _ & -> & ->). apply B.
  - intros b Hb. destruct (P b) as (_ & _ & -> & ->). now apply C.
  - intros b. destruct (P b) as (_ & -> & -> & ->). apply D.
  - intros e Ie. apply in_or_app. left. now apply E.
  - intros b. destruct (P b) as (_ & _ & _ & ->). apply F.
  - intros m b Hb Mm Zb. destruct (P b) as (Pb & _). rewrite Pb in Zb. apply in_app_or in Hb as [Hb|[Hb|[]]]; [now apply N with m|discriminate].
Qed.
Lemma good_unload i s : (i < length (s_progs s))%nat -> Good s -> Good (snd (unload i s)).
Proof.
  intros L G. unfold unload. pose proof (good_remove_all i s L G) as G1. destruct (remove_all i s) as [ok t]. cbn [snd] in G1. destruct ok; cbn [negb]; [|exact G1]. destruct (p_fd (prog_at i t)); [|exact G1]. cbn [snd].
  apply (good_put_fd i None) in G1. apply inv_closed. exact G1.
Qed.
Lemma len_remove i s : length (s_progs (snd (remove_all i s))) = length (s_progs s).
Proof. unfold remove_all. destruct (frame_all (p_links (prog_at i s)) (put_prog i (with_links [] (prog_at i s)) s)) as (-> & _). unfold put_prog, set_progs. cbn [s_progs]. apply len_put. Qed.
Lemma good_drop i s : (i < length (s_progs s))%nat -> Good s -> Good (drop_prog i s).
Proof.
  intros L G. unfold drop_prog. apply good_put_dead. apply (good_unload i s L) in G. destruct (p_fd (prog_at i (snd (unload i s)))); [|exact G]. apply (good_put_fd i None) in G. apply inv_closed. exact G.
Qed.

Lemma outcome_snd {A} (r : res lerr A * st) : snd (outcome r) = snd r. Proof. destruct r as [[x|x] t]; reflexivity. Qed.
Lemma good_alive i s r : Good s -> ((i < length (s_progs s))%nat -> Good (snd r)) -> Good (snd (alive i s r)).
Proof. intros G H. unfold alive. destruct (p_alive (prog_at i s)) eqn:E; [|exact G]. apply H. now apply alive_len. Qed.
Lemma good_ask s f t : Good s -> ask s = (f, t) -> Good t.
Proof. intros G E. apply (drop_good s t (bases_of s) (frame_ask _ _ _ E) eq_refl). now apply (inv_core _ s t (core_ask _ _ _ E)). Qed.
Lemma inv_ask x s f t : Inv (x :: bases_of s) s -> ask s = (f, t) -> Inv (x :: bases_of t) t.
Proof. intros G E. rewrite (frame_bases s t (frame_ask _ _ _ E)). now apply (inv_core _ s t (core_ask _ _ _ E)). Qed.
Lemma good_close fd s : Inv (BFd fd :: bases_of s) s -> Good (close_fd fd s). Proof. intros G. apply (drop_good s _ (bases_of s) (frame_close fd s) eq_refl). now apply inv_close. Qed.
Lemma good_detach b s : Inv (b :: bases_of s) s -> Good (snd (detach_base b s)). Proof. intros G. apply (drop_good s _ (bases_of s) (frame_detach b s) eq_refl). now apply inv_detach. Qed.
Lemma good_dropl l s : Inv (l_base l :: bases_of s) s -> Good (drop_link l s). Proof. intros G. apply (drop_good s _ (bases_of s) (frame_dropl l s) eq_refl). now apply inv_dropl. Qed.
Lemma good_dropb r b s : Inv (b :: bases_of s) s -> Good (drop_base r b s). Proof. intros G. apply (drop_good s _ (bases_of s) (frame_dropb r b s) eq_refl). now apply inv_dropb. Qed.

Lemma good_step o s : honest o -> Good s -> Good (snd (step o s)).
Proof.
  intros H G. destruct o; cbn [step honest] in *.
  - apply good_alive; [exact G|]. intros _. now apply good_load.
  - apply good_alive; [exact G|]. intros L. now apply good_unload.
  - apply good_alive; [exact G|]. intros L. cbn [snd]. now apply good_drop.
  - apply good_alive; [exact G|]. intros L. rewrite outcome_snd. now apply good_attach.
  - apply good_alive; [exact G|]. intros L. destruct (take_key k i s) as [[l t]|] eqn:E; [|exact G]. destruct (inv_take k i s l t L G E) as [I _]. pose proof (good_detach _ _ I) as Q. destruct (detach_base (l_base l) t). exact Q.
  - apply good_alive; [exact G|]. intros L. destruct (take_key k i s) as [[l t]|] eqn:E; [|exact G]. destruct (inv_take k i s l t L G E) as [I _]. cbn [snd]. now apply give_owned.
  - destruct (take_nth n (s_owned s)) as [[l r]|] eqn:E; [|exact G]. cbn [snd]. apply good_dropl. now apply (take_owned n).
  - destruct (take_nth n (s_owned s)) as [[l r]|] eqn:E; [|exact G]. pose proof (good_detach _ _ (take_owned n s l r G E)) as Q. destruct (detach_base (l_base l) (set_owned r s)). exact Q.
  - destruct (take_nth n (s_owned s)) as [[l r]|] eqn:E; [|exact G]. cbn [snd]. apply (give_bases (l_base l) (set_owned r s)). now apply (take_owned n).
  - destruct (take_nth n (s_owned s)) as [[l r]|] eqn:E; [|exact G]. pose proof (take_owned n s l r G E) as I. destruct (l_base l) as [fd|c]; cbn [snd]; [now apply (give_bases (BFd fd) (set_owned r s))|]. now apply (good_dropb Leaked (BCall c)).
  - destruct (take_nth n (s_bases s)) as [[b r]|] eqn:E; [|exact G]. cbn [snd]. apply (give_owned {| l_base := b; l_drop := true |} (set_bases r s)). now apply (take_bases n).
  - destruct (take_nth n (s_bases s)) as [[b r]|] eqn:E; [|exact G]. cbn [snd]. apply good_dropb. now apply (take_bases n).
  - destruct (take_nth n (s_bases s)) as [[[fd|c] r]|] eqn:E; [|exact G|exact G]. pose proof (take_bases n s (BFd fd) r G E) as I. destruct (ask (set_bases r s)) as [f t] eqn:Ea. pose proof (inv_ask _ _ _ _ I Ea) as It. destruct (fd_held _ t fd It) as (a & Ia & Aa). rewrite Aa.
    destruct (f || existsb _ (s_pins t)) eqn:Q; cbn [snd]; [now apply good_close|]. apply orb_false_iff in Q as [_ Q].
    apply (give_pinned path fd (set_pins (s_pins t ++ [(path, a)]) t)). change (bases_of (set_pins (s_pins t ++ [(path, a)]) t)) with (bases_of t). apply inv_pin; [exact It| |].
    + unfold referred. apply orb_true_iff. left. apply existsb_exists. exists (fd, a). split; [exact Ia|apply Z.eqb_refl].
    + intros J. apply in_map_iff in J as ([x y] & Ex & J). cbn [fst] in Ex. subst x. rewrite <- not_true_iff_false in Q. apply Q. apply existsb_exists. exists (path, y). split; [exact J|apply Z.eqb_refl].
  - destruct (find _ (s_pins s)) as [[q a]|] eqn:E; [|exact G]. apply find_some in E as [E1 E2]. destruct (ask s) as [f t] eqn:Ea. pose proof (good_ask _ _ _ G Ea) as Gt. destruct (core_ask _ _ _ Ea) as (_ & Cp & _). destruct f; [exact Gt|]. cbn [take_next snd].
    apply (give_pinned path (s_next t) (set_fds (s_fds t ++ [(s_next t, a)]) (set_next (s_next t + 1) t))). change (bases_of (set_fds _ _)) with (bases_of t). apply (inv_dup (bases_of t) t _ (s_next t) a); try reflexivity; try lia; [exact Gt| |cbn [set_fds set_next s_next]; lia].
    unfold referred. apply orb_true_iff. right. rewrite Cp. apply existsb_exists. exists (q, a). split; [exact E1|apply Z.eqb_refl].
  - destruct (take_nth n (s_pinned s)) as [[[q fd] r]|] eqn:E; [|exact G]. pose proof (take_pinned n s q fd r G E) as I. destruct (ask (set_pinned r s)) as [f t] eqn:Ea. pose proof (inv_ask _ _ _ _ I Ea) as It. destruct f; cbn [snd]; [now apply good_close|].
    destruct (remove_pin q t) as [u|] eqn:Ep; cbn [snd]; [|now apply good_close]. destruct (inv_unpin _ _ _ _ It Ep) as [Iu Fu]. apply give_bases. now rewrite (frame_bases t u Fu).
  - destruct (take_nth n (s_pinned s)) as [[[q fd] r]|] eqn:E; [|exact G]. cbn [snd]. apply (give_bases (BFd fd) (set_pinned r s)). now apply (take_pinned n s q).
  - destruct (take_nth n (s_pinned s)) as [[[q fd] r]|] eqn:E; [|exact G]. cbn [snd]. apply good_close. now apply (take_pinned n s q).
  - destruct (remove_pin path s) as [u|] eqn:Ep; cbn [snd]; [|exact G]. destruct (inv_unpin _ _ _ _ G Ep) as [Iu Fu]. unfold Good. now rewrite (frame_bases s u Fu).
  - apply good_alive; [exact G|]. intros L. destruct (take_nth n (s_owned s)) as [[l r]|] eqn:E; [|exact G]. destruct (can_replace l) eqn:R; [|exact G]. rewrite outcome_snd. apply good_to_link; [exact L|exact R|]. now apply (take_owned n).
  - contradiction.
Qed.

Lemma good_run l : forall s, Forall honest l -> Good s -> Good (run l s).
Proof. induction l as [|o l IH]; intros s F G; cbn [run]; [exact G|]. apply IH; [exact (Forall_inv_tail F)|]. apply good_step; [exact (Forall_inv F)|exact G]. Qed.
Lemma good_start s : start s -> Good s.
Proof.
  intros (fails & progs & -> & F). unfold Good. assert (bases_of (initial fails progs) = []) as ->.
  { unfold bases_of, tracked. cbn [initial s_progs s_owned s_bases s_pinned map]. rewrite !app_nil_r. induction F as [|p progs [->|(g & _ & ->)] _ IH]; [reflexivity|exact IH|exact IH]. }
  constructor; cbn [initial s_next s_fds s_pins s_slots s_lost s_log flat_map map]; try reflexivity; try (now constructor); try contradiction; try (intros; reflexivity); try (unfold made_call, made_link, tally; cbn; lia).
Qed.
