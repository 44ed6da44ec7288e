(** What the invariant gives, and more about single operations. *)
From Coq Require Import Permutation.
From Verif Require Import Base AttachModel AttachSpec AttachProofs AttachProofs2.
Local Open Scope Z_scope.

Lemma reached_good l t : reached l t -> Good t. Proof. intros (F & s & S & ->). apply good_run; [exact F|now apply good_start]. Qed.

(** * C33 *)

Lemma once l t a : reached l t -> (asked a t + cnt a (held t) + cnt a (map fst (s_lost t)) = made_call a t /\ made_call a t <= 1)%nat.
Proof. intros R. apply reached_good in R. split; [apply (i_asked _ _ R)|]. pose proof (i_made _ _ R a). lia. Qed.
Lemma stays l t m a : reached l t -> In (MadeCall m a) (s_log t) -> m <> MSingle -> asked a t = 0%nat -> In a (map sl_att (s_slots t)) /\ gone a t = 0%nat.
Proof.
  intros R I M Z0. apply reached_good in R. pose proof (i_owed _ _ R m a I M Z0) as J. split; [exact J|]. apply cnt_in in J. pose proof (i_gone _ _ R a). pose proof (i_made _ _ R a). lia.
Qed.
Lemma gone_once l t a : reached l t -> (gone a t <= 1)%nat.
Proof. intros R. apply reached_good in R. pose proof (i_gone _ _ R a). pose proof (i_made _ _ R a). lia. Qed.
Lemma link_refs l t a : reached l t -> made_link a t = 1%nat -> (gone a t = 1%nat <-> ~ (exists fd, In (fd, a) (s_fds t)) /\ ~ (exists p, In (p, a) (s_pins t))).
Proof.
  intros R M. apply reached_good in R. pose proof (i_gone _ _ R a) as G. pose proof (i_made _ _ R a) as Q. assert (cnt a (map sl_att (s_slots t)) = 0%nat) as Z0.
  { destruct (cnt a (map sl_att (s_slots t))) eqn:E; [reflexivity|]. assert (In a (map sl_att (s_slots t))) as J by (apply cnt_in; lia). apply in_map_iff in J as (e & <- & J). apply (i_slots _ _ R) in J. apply made_call_in in J. lia. }
  assert (referred a t = true <-> (exists fd, In (fd, a) (s_fds t)) \/ (exists p, In (p, a) (s_pins t))) as Rf.
  { unfold referred. rewrite orb_true_iff, !existsb_exists. split; (intros [H|H]; [left|right]).
    - destruct H as ([x y] & J & E). cbn [snd] in E. apply Z.eqb_eq in E. subst y. now exists x.
    - destruct H as ([x y] & J & E). cbn [snd] in E. apply Z.eqb_eq in E. subst y. now exists x.
    - destruct H as [x J]. exists (x, a). split; [exact J|apply Z.eqb_refl].
    - destruct H as [x J]. exists (x, a). split; [exact J|apply Z.eqb_refl]. }
  destruct (referred a t).
  - split; [lia|]. intros [A B]. destruct Rf as [Rf _]. destruct (Rf eq_refl); contradiction.
  - split; [|lia]. intros _. split; intros H; assert (false = true) by (apply Rf; auto); discriminate.
Qed.
Lemma fd_one_holder l t fd : reached l t -> (cnt fd (held_fds t) <= 1)%nat /\ (In fd (held_fds t) <-> In fd (map fst (s_fds t))).
Proof.
  intros R. apply reached_good in R. unfold held_fds. split; [rewrite (i_fds _ _ R); unfold cnt; apply NoDup_count_occ; apply R|]. rewrite !cnt_in. now rewrite (i_fds _ _ R).
Qed.

(** A request for a link that is held, and what it does if the kernel does not
    fail by itself. *)
Lemma detach_works H s c : Inv (BCall c :: H) s -> c_mode c <> MSingle -> fst (ask s) = false -> c_raw c = false \/ fd_good c s = true ->
  fst (kernel_detach c s) = true /\ gone (c_att c) (snd (kernel_detach c s)) = 1%nat /\
  (forall b, b <> c_att c -> gone b (snd (kernel_detach c s)) = gone b s) /\
  s_slots (snd (kernel_detach c s)) = filter (fun e => negb (sl_att e =? c_att c)) (s_slots s).
Proof.
  intros X M F G. assert (In (own_slot c) (s_slots s)) as Own by (apply (i_own _ _ X); [now left|exact M]). pose proof (fun e => matches_own H s c e X M) as MO.
  assert (forall e, In e (s_slots s) -> matches c e = (sl_att e =? c_att c)) as Eq.
  { intros e Ie. destruct (matches c e) eqn:Q; [apply MO in Q; [subst e; symmetry; apply Z.eqb_refl|exact Ie]|]. symmetry. apply Z.eqb_neq. intros Ea.
    assert (matches c (own_slot c) = true) as Q1 by (unfold matches; cbn [own_slot sl_mode sl_place sl_prog]; rewrite mode_eqb_refl, !Z.eqb_refl; destruct (c_raw c), (c_mode c); reflexivity).
    assert (e = own_slot c) as ->; [|congruence].
    assert (cnt (c_att c) (map sl_att (s_slots s)) <= 1)%nat as C1 by (pose proof (i_gone _ _ X (c_att c)); pose proof (i_made _ _ X (c_att c)); lia).
    apply in_split in Own as (u & v & Ev). rewrite Ev in Ie, C1. rewrite map_app, cnt_app in C1. cbn [map own_slot sl_att] in C1. rewrite cnt_cons in C1. destruct (Z.eq_dec (c_att c) (c_att c)) as [_|]; [|contradiction].
    apply in_app_or in Ie as [Ie|[Ie|Ie]]; [|now symmetry|]; exfalso; apply (in_map sl_att) in Ie; rewrite Ea in Ie; apply cnt_in in Ie; lia. }
  pose proof (inv_kdetach H s c X) as After.
  unfold kernel_detach in *. destruct (ask (note [Asked (c_att c)] s)) as [f t] eqn:E. assert (f = false) as -> by (unfold ask in F, E; cbn [note s_fail] in E; destruct (s_fail s); cbn [fst] in F; apply pair_equal_spec in E as [<- _]; exact F).
  destruct (core_ask _ _ _ E) as (_ & _ & C3 & _ & C5 & _). destruct (frame_ask _ _ _ E) as (Fp & _). cbn [note s_slots s_log s_progs] in C3, C5, Fp.
  assert (fd_good c t = fd_good c s) as Fg by (unfold fd_good, prog_at; now rewrite Fp). rewrite Fg. assert (false || c_raw c && negb (fd_good c s) = false) as -> by (destruct G as [-> | ->]; [reflexivity|now rewrite andb_false_r]). rewrite C3.
  assert (filter (matches c) (s_slots s) = filter (fun e => sl_att e =? c_att c) (s_slots s)) as Fm by (apply filter_ext_in; exact Eq).
  cbn [fst snd]. split; [|split; [|split]].
  - apply existsb_exists. exists (own_slot c). split; [exact Own|]. rewrite (Eq _ Own). apply Z.eqb_refl.
  - set (u := note _ _). assert (gone (c_att c) u = gone (c_att c) s + cnt (c_att c) (map sl_att (filter (matches c) (s_slots s))))%nat as ->.
    { unfold u. rewrite gone_note, gone_map. f_equal. unfold gone. cbn [set_slots s_log]. rewrite C5, tally_app. unfold tally at 2. cbn [filter length]. lia. }
    rewrite Fm. assert (cnt (c_att c) (map sl_att (filter (fun e => sl_att e =? c_att c) (s_slots s))) = cnt (c_att c) (map sl_att (s_slots s))) as ->.
    { clear. induction (s_slots s) as [|e l IH]; [reflexivity|]. cbn [filter map]. rewrite cnt_cons. destruct (Z.eqb_spec (sl_att e) (c_att c)) as [Q|Q]; [cbn [map]; rewrite cnt_cons, IH; reflexivity|]. destruct (Z.eq_dec (sl_att e) (c_att c)); [contradiction|exact IH]. }
    pose proof (i_gone _ _ X (c_att c)) as D. pose proof (i_made _ _ X (c_att c)). pose proof (i_asked _ _ X (c_att c)) as A. cbn [flat_map call_att app] in A. rewrite cnt_cons in A. destruct (Z.eq_dec (c_att c) (c_att c)) as [_|]; [|contradiction].
    assert (In (c_att c) (map sl_att (s_slots s))) as J by (apply (in_map sl_att) in Own; exact Own). apply cnt_in in J. destruct (referred (c_att c) s) eqn:Rf; [apply (i_refs _ _ X) in Rf; lia|lia].
  - intros b Hb. rewrite gone_note, gone_map. unfold gone. cbn [set_slots s_log]. rewrite C5, tally_app. unfold tally at 2. cbn [filter length]. rewrite Fm.
    assert (cnt b (map sl_att (filter (fun e => sl_att e =? c_att c) (s_slots s))) = 0%nat) as ->; [|lia]. clear -Hb. induction (s_slots s) as [|e l IH]; [reflexivity|]. cbn [filter]. destruct (Z.eqb_spec (sl_att e) (c_att c)) as [Q|Q]; [|exact IH]. cbn [map]. rewrite cnt_cons, IH, Q. destruct (Z.eq_dec (c_att c) b); [congruence|reflexivity].
  - cbn [note set_slots s_slots]. apply filter_ext_in. intros e Ie. now rewrite (Eq e Ie).
Qed.
Lemma detach_link_works l t n x r c : reached l t -> take_nth n (s_owned t) = Some (x, r) -> l_base x = BCall c -> c_mode c <> MSingle -> fst (ask t) = false -> c_raw c = false \/ fd_good c t = true ->
  let q := step (ODetachLink n) t in fst q = Ok tt /\ gone (c_att c) (snd q) = 1%nat /\ (forall b, b <> c_att c -> gone b (snd q) = gone b t) /\
  s_slots (snd q) = filter (fun e => negb (sl_att e =? c_att c)) (s_slots t).
Proof.
  intros R E B M F G. apply reached_good in R. pose proof (take_owned n t x r R E) as I. rewrite B in I. cbn [step]. rewrite E, B. cbn [detach_base].
  assert (fst (ask (set_owned r t)) = false) as F1 by (unfold ask in *; cbn [set_owned s_fail]; destruct (s_fail t); exact F).
  destruct (detach_works _ _ c I M F1 G) as (A1 & A2 & A3 & A4). destruct (kernel_detach c (set_owned r t)) as [ok u]. cbn [fst snd] in *. subst ok. cbn [fst snd]. auto.
Qed.

(** * Nothing leaks for careful callers *)

Definition tidy (s : st) : Prop := Forall (fun x => l_drop x = true) (tracked s ++ s_owned s) /\ Forall (fun p => snd p = Released) (s_lost s).
Lemma lost_ask s f t : ask s = (f, t) -> s_lost t = s_lost s. Proof. intros E. apply core_ask in E. apply E. Qed.
Lemma lost_collect a s : s_lost (collect a s) = s_lost s. Proof. unfold collect. now destruct (referred a s). Qed.
Lemma lost_close fd s : s_lost (close_fd fd s) = s_lost s. Proof. unfold close_fd. destruct (att_of fd s); [|reflexivity]. now rewrite lost_collect. Qed.
Lemma lost_kdetach c s : s_lost (snd (kernel_detach c s)) = s_lost s.
Proof. unfold kernel_detach. destruct (ask _) as [f t] eqn:E. apply lost_ask in E. destruct (f || _); exact E. Qed.
Lemma lost_detach b s : s_lost (snd (detach_base b s)) = s_lost s. Proof. destruct b; [apply lost_close|apply lost_kdetach]. Qed.
Lemma lost_dropl l s : l_drop l = true -> s_lost (drop_link l s) = s_lost s. Proof. intros D. unfold drop_link. rewrite D. apply lost_detach. Qed.
Lemma lost_drops l : forall s, Forall (fun x => l_drop x = true) l -> s_lost (fold_left (fun s x => drop_link x s) l s) = s_lost s.
Proof. induction l as [|x l IH]; intros s F; cbn [fold_left]; [reflexivity|]. rewrite IH by exact (Forall_inv_tail F). apply lost_dropl. exact (Forall_inv F). Qed.
Lemma lost_all l : forall s, Forall (fun x => l_drop x = true) l -> s_lost (snd (detach_all l s)) = s_lost s.
Proof.
  induction l as [|x l IH]; intros s F; cbn [detach_all]; [reflexivity|]. pose proof (lost_detach (l_base x) s) as Q. destruct (detach_base (l_base x) s) as [ok t]. cbn [snd] in Q. destruct ok; [rewrite IH by exact (Forall_inv_tail F); exact Q|]. cbn [snd]. rewrite lost_drops by exact (Forall_inv_tail F). exact Q.
Qed.
Lemma tracked_in i s x : In x (p_links (prog_at i s)) -> In x (tracked s).
Proof.
  intros I. destruct (Nat.lt_ge_cases i (length (s_progs s))) as [L|L]; [|unfold prog_at in I; rewrite nth_overflow in I by exact L; contradiction]. apply in_flat_map. exists (prog_at i s). split; [apply nth_In; exact L|exact I].
Qed.
Lemma tracked_put i p s x : In x (tracked (put_prog i p s)) -> In x (p_links p) \/ In x (tracked s).
Proof.
  unfold tracked, put_prog, set_progs, put. cbn [s_progs]. rewrite flat_map_app. intros I. apply in_app_or in I as [I|I].
  - right. apply in_flat_map in I as (q & Iq & Ix). apply in_flat_map. exists q. split; [|exact Ix]. rewrite <- (firstn_skipn i (s_progs s)). apply in_or_app. now left.
  - destruct (skipn i (s_progs s)) as [|y r] eqn:E; [contradiction|]. cbn [flat_map] in I. apply in_app_or in I as [I|I]; [now left|right]. apply in_flat_map in I as (q & Iq & Ix). apply in_flat_map. exists q. split; [|exact Ix]. rewrite <- (firstn_skipn i (s_progs s)), E. apply in_or_app. right. now right.
Qed.
Lemma tidy_frame s t : frame s t -> s_lost t = s_lost s -> tidy s -> tidy t.
Proof. intros (A & B & _) L [T1 T2]. unfold tidy, tracked. now rewrite A, B, L. Qed.
Lemma tidy_links i s : tidy s -> Forall (fun x => l_drop x = true) (p_links (prog_at i s)).
Proof. intros [T _]. apply Forall_forall. intros x Ix. rewrite Forall_forall in T. apply T. apply in_or_app. left. now apply tracked_in with i. Qed.
Lemma tidy_put i p s : tidy s -> Forall (fun x => l_drop x = true) (p_links p) -> tidy (put_prog i p s).
Proof.
  intros [T1 T2] P. split; [|exact T2]. apply Forall_forall. rewrite Forall_forall in T1, P. intros x Ix. apply in_app_or in Ix as [Ix|Ix]; [|apply T1; apply in_or_app; now right]. apply tracked_put in Ix as [Ix|Ix]; [now apply P|apply T1; apply in_or_app; now left].
Qed.
Lemma tidy_insert i l s : tidy s -> l_drop l = true -> tidy (snd (insert i l s)).
Proof.
  intros T D. unfold insert. destruct (existsb _ _); cbn [snd]; [apply (tidy_frame s); [apply frame_dropl|now apply lost_dropl|exact T]|]. apply tidy_put; [exact T|]. cbn [with_links p_links]. apply Forall_app. split; [now apply tidy_links|]. now constructor.
Qed.
Lemma tidy_same s t : s_progs t = s_progs s -> s_owned t = s_owned s -> s_lost t = s_lost s -> tidy s -> tidy t.
Proof. intros A B L [T1 T2]. unfold tidy, tracked. now rewrite A, B, L. Qed.
Lemma tidy_remove i s : tidy s -> tidy (snd (remove_all i s)).
Proof. intros T. unfold remove_all. eapply tidy_frame; [apply frame_all|apply lost_all; now apply tidy_links|]. apply tidy_put; [exact T|constructor]. Qed.
Lemma tidy_unload i s : tidy s -> tidy (snd (unload i s)).
Proof.
  intros T. unfold unload. apply (tidy_remove i) in T. destruct (remove_all i s) as [ok t]. cbn [snd] in T. destruct (negb ok); [exact T|]. destruct (p_fd (prog_at i t)); [|exact T]. cbn [snd].
  apply (tidy_same (put_prog i (with_fd None (prog_at i t)) t)); try reflexivity. apply tidy_put; [exact T|]. cbn [with_fd p_links]. now apply tidy_links.
Qed.
Lemma kattach_frame m place g s a u : kernel_attach m place g s = Some (a, u) -> frame s u /\ s_lost u = s_lost s.
Proof. unfold kernel_attach. destruct m; try (destruct (existsb _ _); [discriminate|]); intros Q; apply some_inj in Q; apply pair_equal_spec in Q as [_ <-]; repeat split. Qed.
Lemma tidy_attach i h s : tidy s -> match h with AsCall _ _ _ _ drops => drops = true | AsLink => True end -> tidy (snd (attach i h s)).
Proof.
  intros T D. unfold attach. destruct (p_fd (prog_at i s)) as [g|]; [|exact T]. destruct (ask s) as [f t] eqn:E. assert (tidy t) as Tt by (apply (tidy_frame s); [now apply frame_ask with f|now apply lost_ask with f|exact T]). destruct f; [exact Tt|]. destruct h as [|m place dup raw drops].
  - cbn [take_next]. apply tidy_insert; [|reflexivity]. apply (tidy_same t); try reflexivity. exact Tt.
  - destruct (kernel_attach m place g t) as [[a u]|] eqn:K; [|exact Tt]. apply kattach_frame in K as [F L]. cbn [take_next]. apply tidy_insert; [|exact D]. apply (tidy_same u); try reflexivity. now apply (tidy_frame t).
Qed.
Lemma take_nth_sub {A} n (l : list A) x r : take_nth n l = Some (x, r) -> In x l /\ incl r l.
Proof. intros E. apply take_nth_perm in E. split; [|intros y Iy]; apply Permutation_in with (x :: r); try (now apply Permutation_sym); [now left|now right]. Qed.
Lemma tidy_take n s l r : tidy s -> take_nth n (s_owned s) = Some (l, r) -> tidy (set_owned r s) /\ l_drop l = true.
Proof.
  intros [T1 T2] E. apply take_nth_sub in E as [E1 E2]. rewrite Forall_forall in T1. split; [split; [|exact T2]|apply T1; apply in_or_app; now right]. apply Forall_forall. intros x Ix. apply T1. apply in_or_app. apply in_app_or in Ix as [Ix|Ix]; [now left|right; now apply E2].
Qed.
Lemma tidy_give l s : tidy s -> l_drop l = true -> tidy (set_owned (s_owned s ++ [l]) s).
Proof. intros [T1 T2] D. split; [|exact T2]. cbn [set_owned s_owned]. change (tracked (set_owned (s_owned s ++ [l]) s)) with (tracked s). rewrite app_assoc. apply Forall_app. split; [exact T1|now constructor]. Qed.
Lemma tidy_key k i s l t : tidy s -> take_key k i s = Some (l, t) -> tidy t /\ l_drop l = true.
Proof.
  intros T. unfold take_key. destruct (pick k (p_links (prog_at i s))) as [[x r]|] eqn:P; [|discriminate]. intros Q. apply some_inj in Q. apply pair_equal_spec in Q as [<- <-]. apply pick_perm in P as [P _]. pose proof (tidy_links i s T) as F. rewrite Forall_forall in F. split.
  - apply tidy_put; [exact T|]. cbn [with_links p_links]. apply Forall_forall. intros y Iy. apply F. apply Permutation_in with (x :: r); [now apply Permutation_sym|now right].
  - apply F. apply Permutation_in with (x :: r); [now apply Permutation_sym|now left].
Qed.
Lemma tidy_alive i s r : tidy s -> tidy (snd r) -> tidy (snd (alive i s r)). Proof. intros A B. unfold alive. now destruct (p_alive _). Qed.
Lemma tidy_ask s f t : ask s = (f, t) -> tidy s -> tidy t. Proof. intros E. apply tidy_frame; [now apply frame_ask with f|now apply lost_ask with f]. Qed.
Lemma tidy_close fd s : tidy s -> tidy (close_fd fd s). Proof. apply tidy_frame; [apply frame_close|apply lost_close]. Qed.
Lemma tidy_pin q s u : remove_pin q s = Some u -> tidy s -> tidy u.
Proof. unfold remove_pin. destruct (find _ _) as [[x y]|]; [|discriminate]. intros E. apply some_inj in E. subst u. intros T. apply (tidy_frame (set_pins (filter (fun p => negb (fst p =? q)) (s_pins s)) s)); [apply frame_collect|apply lost_collect|]. now apply (tidy_same s). Qed.
Lemma tidy_step o s : careful o -> tidy s -> tidy (snd (step o s)).
Proof.
  intros H T. destruct o; cbn [step careful] in *; try contradiction.
  - apply tidy_alive; [exact T|]. unfold load. destruct (p_fd (prog_at i s)); [exact T|]. destruct (negb _); [exact T|]. destruct (ask s) as [f t] eqn:E. pose proof (tidy_ask _ _ _ E T) as Tt. destruct f; [exact Tt|]. cbn [take_next snd].
    assert (prog_at i s = prog_at i t) as -> by (unfold prog_at; destruct (frame_ask _ _ _ E) as (-> & _); reflexivity).
    apply (tidy_same (put_prog i (with_fd (Some (s_next t)) (prog_at i t)) t)); try reflexivity. apply tidy_put; [exact Tt|]. now apply tidy_links.
  - apply tidy_alive; [exact T|]. now apply tidy_unload.
  - apply tidy_alive; [exact T|]. cbn [snd]. unfold drop_prog. apply (tidy_unload i) in T. set (t := snd (unload i s)) in *. clearbody t.
    destruct (p_fd (prog_at i t)); apply tidy_put; try (cbn [dead p_links]; apply tidy_links); try exact T; (eapply (tidy_same (put_prog i (with_fd None (prog_at i t)) t)); try reflexivity; apply tidy_put; [exact T|now apply tidy_links]).
  - apply tidy_alive; [exact T|]. rewrite outcome_snd. apply tidy_attach; [exact T|]. destruct h; [exact I|exact H].
  - apply tidy_alive; [exact T|]. destruct (take_key k i s) as [[l t]|] eqn:E; [|exact T]. destruct (tidy_key _ _ _ _ _ T E) as [Tt _]. pose proof (tidy_frame _ _ (frame_detach (l_base l) t) (lost_detach (l_base l) t) Tt) as Q. destruct (detach_base (l_base l) t). exact Q.
  - apply tidy_alive; [exact T|]. destruct (take_key k i s) as [[l t]|] eqn:E; [|exact T]. destruct (tidy_key _ _ _ _ _ T E) as [Tt D]. cbn [snd]. now apply tidy_give.
  - destruct (take_nth n (s_owned s)) as [[l r]|] eqn:E; [|exact T]. destruct (tidy_take _ _ _ _ T E) as [Tt D]. cbn [snd]. eapply tidy_frame; [apply frame_dropl|now apply lost_dropl|exact Tt].
  - destruct (take_nth n (s_owned s)) as [[l r]|] eqn:E; [|exact T]. destruct (tidy_take _ _ _ _ T E) as [Tt _]. pose proof (tidy_frame _ _ (frame_detach (l_base l) _) (lost_detach (l_base l) _) Tt) as Q. destruct (detach_base (l_base l) (set_owned r s)). exact Q.
  - destruct (take_nth n (s_owned s)) as [[l r]|] eqn:E; [|exact T]. destruct (tidy_take _ _ _ _ T E) as [Tt _]. cbn [snd]. now apply (tidy_same (set_owned r s)).
  - destruct (take_nth n (s_bases s)) as [[b r]|] eqn:E; [|exact T]. cbn [snd]. apply (tidy_give {| l_base := b; l_drop := true |} (set_bases r s)); [now apply (tidy_same s)|reflexivity].
  - destruct (take_nth n (s_bases s)) as [[b r]|] eqn:E; [|exact T]. cbn [snd]. assert (tidy (set_bases r s)) as Tt by now apply (tidy_same s). destruct b as [fd|c]; cbn [drop_base]; [now apply tidy_close|]. destruct Tt as [T1 T2]. split; [exact T1|]. cbn [lose s_lost]. apply Forall_app. split; [exact T2|now constructor].
  - destruct (take_nth n (s_bases s)) as [[[fd|c] r]|] eqn:E; [|exact T|exact T]. assert (tidy (set_bases r s)) as Tt by now apply (tidy_same s). destruct (ask (set_bases r s)) as [f t] eqn:Ea. pose proof (tidy_ask _ _ _ Ea Tt) as Tu. destruct (att_of fd t); [|exact Tu]. destruct (f || _); cbn [snd]; [now apply tidy_close|now apply (tidy_same t)].
  - destruct (find _ (s_pins s)) as [[q a]|]; [|exact T]. destruct (ask s) as [f t] eqn:Ea. pose proof (tidy_ask _ _ _ Ea T) as Tu. destruct f; [exact Tu|]. cbn [take_next snd]. now apply (tidy_same t).
  - destruct (take_nth n (s_pinned s)) as [[[q fd] r]|]; [|exact T]. assert (tidy (set_pinned r s)) as Tt by now apply (tidy_same s). destruct (ask (set_pinned r s)) as [f t] eqn:Ea. pose proof (tidy_ask _ _ _ Ea Tt) as Tu. destruct f; cbn [snd]; [now apply tidy_close|]. destruct (remove_pin q t) as [u|] eqn:Ep; cbn [snd]; [|now apply tidy_close]. apply (tidy_same u); try reflexivity. now apply (tidy_pin q t).
  - destruct (take_nth n (s_pinned s)) as [[[q fd] r]|]; [|exact T]. cbn [snd]. now apply (tidy_same s).
  - destruct (take_nth n (s_pinned s)) as [[[q fd] r]|]; [|exact T]. cbn [snd]. apply tidy_close. now apply (tidy_same s).
  - destruct (remove_pin path s) as [u|] eqn:Ep; [|exact T]. cbn [snd]. now apply (tidy_pin path s).
Qed.
Lemma tidy_run l : forall s, Forall careful l -> tidy s -> tidy (run l s).
Proof. induction l as [|o l IH]; intros s F T; cbn [run]; [exact T|]. apply IH; [exact (Forall_inv_tail F)|]. apply tidy_step; [exact (Forall_inv F)|exact T]. Qed.
Lemma tidy_start s : start s -> tidy s.
Proof. intros (fails & progs & -> & F). split; [|constructor]. unfold tracked. cbn [initial s_progs s_owned]. rewrite app_nil_r. induction F as [|p progs [->|(g & _ & ->)] _ IH]; [constructor|exact IH|exact IH]. Qed.
Lemma no_leak l t a r : reached l t -> Forall careful l -> In (a, r) (s_lost t) -> r = Released.
Proof. intros (_ & s & S & ->) F I. apply tidy_start in S. destruct (tidy_run l s F S) as [_ Q]. rewrite Forall_forall in Q. exact (Q _ I). Qed.

(** * C34 *)

Lemma same_refl s : same_state s s. Proof. repeat split. Qed.
Lemma same_ask s f t : ask s = (f, t) -> same_state s t.
Proof. unfold ask. destruct (s_fail s); intros E; apply pair_equal_spec in E as [_ <-]; repeat split. Qed.
Lemma key_eqb_eq a b : key_eqb a b = true -> a = b.
Proof. destruct a, b; cbn [key_eqb]; try discriminate; intros H; [apply Z.eqb_eq in H; congruence|apply Z.eqb_eq in H; congruence|]. apply andb_true_iff in H as [A B]. apply mode_eqb_eq in A. apply Z.eqb_eq in B. congruence. Qed.
Lemma in_bases i s x : In x (p_links (prog_at i s)) -> In (l_base x) (bases_of s).
Proof. intros I. apply in_or_app. left. apply in_map. now apply tracked_in with i. Qed.
Lemma attach_error i h s x u : (i < length (s_progs s))%nat -> real h -> Good s -> attach i h s = (Err x, u) -> same_state s u.
Proof.
  intros L R G. unfold attach. destruct (p_fd (prog_at i s)) as [g|]; [|intros E; apply pair_equal_spec in E as [_ <-]; apply same_refl]. destruct (ask s) as [f t] eqn:Ea. pose proof (same_ask _ _ _ Ea) as St. pose proof (good_ask _ _ _ G Ea) as Gt.
  destruct f; [intros E; apply pair_equal_spec in E as [_ <-]; exact St|]. assert (forall l v, (forall y, In y (p_links (prog_at i v)) -> key_eqb (base_key (l_base y)) (base_key (l_base l)) = false) -> insert i l v = (Err x, u) -> same_state s u) as NoIns.
  { intros l v N. unfold insert. destruct (existsb _ _) eqn:Q; [|discriminate]. apply existsb_exists in Q as (y & Iy & Q). rewrite (N y Iy) in Q. discriminate. }
  destruct h as [|m place dup raw drops].
  - cbn [take_next]. apply NoIns. intros y Iy. change (p_links (prog_at i _)) with (p_links (prog_at i t)) in Iy. apply in_bases in Iy. destruct (l_base y) as [fd|c]; cbn [base_key l_base set_next s_next].
    + cbn [key_eqb]. apply Z.eqb_neq. intros ->. assert (In (s_next t + 1) (flat_map fd_of (bases_of t))) as J by (apply in_flat_map; eexists; split; [exact Iy|now left]). apply cnt_in in J. rewrite (i_fds _ _ Gt) in J. apply cnt_in in J. revert J. apply (fds_fresh _ _ _ Gt). lia.
    + pose proof (i_keys _ _ Gt c Iy) as [K _]. destruct (c_key c); [contradiction|reflexivity|reflexivity].
  - destruct (kernel_attach m place g t) as [[a v]|] eqn:K; [|intros E; apply pair_equal_spec in E as [_ <-]; exact St].
    destruct (kernel_attach_spec _ _ _ _ _ _ _ Gt K) as (w & Iw & Fw & N1 & -> & Fv & U1 & U2 & U3 & U4 & U5 & U6 & New). cbn [take_next]. apply NoIns. intros y Iy.
    assert (In (l_base y) (bases_of t)) as J by (apply in_bases with i; unfold prog_at in *; cbn [set_next s_progs] in Iy; destruct Fv as (Fv & _); rewrite Fv in Iy; exact Iy). cbn [l_base base_key c_key].
    destruct R as (R1 & _). destruct (l_base y) as [fd|c]; cbn [base_key]; [now destruct dup|]. pose proof (i_keys _ _ Iw c J) as [Kc _]. destruct (c_key c) as [|n|m' p] eqn:Ek; [contradiction| |].
    + destruct dup; [|reflexivity]. cbn [key_eqb]. apply Z.eqb_neq. lia.
    + destruct dup; [reflexivity|]. assert (m = MExclusive) as Em by (destruct m; try reflexivity; exfalso; assert (false = true) as Q by (apply R1; discriminate); discriminate). subst m. cbn [key_eqb]. apply andb_false_iff. right. apply Z.eqb_neq. intros Ep. destruct Kc as (_ & Mc & Pc).
      assert (c_mode c <> MSingle) as Ms by congruence. apply (New (own_slot c)); cbn [own_slot sl_mode sl_place]; try congruence; try discriminate. now apply (i_own _ _ Iw).
Qed.

(** * C47 *)

Lemma load_again i s : p_fd (prog_at i s) <> None \/ p_obj (prog_at i s) = false -> load i s = (Err EAlreadyLoaded, s).
Proof. unfold load. intros [H|H]; destruct (p_fd (prog_at i s)); try reflexivity; [contradiction|]. now rewrite H. Qed.
Lemma attach_needs i h s : p_fd (prog_at i s) = None -> attach i h s = (Err ENotLoaded, s). Proof. intros H. unfold attach. now rewrite H. Qed.

(** Links come and go without touching programs. *)
Definition quiet (s t : st) : Prop := (forall i, loads i t = loads i s /\ closes i t = closes i s) /\ map p_fd (s_progs t) = map p_fd (s_progs s) /\ map p_alive (s_progs t) = map p_alive (s_progs s).
Lemma quiet_refl s : quiet s s. Proof. repeat split. Qed.
Lemma quiet_trans a b c : quiet a b -> quiet b c -> quiet a c.
Proof. intros (A & B & C) (D & E & F). split; [|split; congruence]. intros i. destruct (A i) as [A1 A2]. destruct (D i) as [D1 D2]. split; congruence. Qed.
Lemma quiet_log l s t : s_log t = s_log s ++ l -> program_events l = [] -> map p_fd (s_progs t) = map p_fd (s_progs s) -> map p_alive (s_progs t) = map p_alive (s_progs s) -> quiet s t.
Proof.
  intros E P F G. split; [|split; assumption]. intros i. unfold loads, closes. rewrite E, !tally_app. assert (forall f : event -> bool, (forall e, f e = true -> match e with Loaded _ | Closed _ => true | _ => false end = true) -> tally f l = 0%nat) as Q.
  { intros f Hf. unfold tally. clear E. induction l as [|e l IH]; [reflexivity|]. unfold program_events in P. cbn [filter] in P |- *. destruct (match e with Loaded _ | Closed _ => true | _ => false end) eqn:D; [discriminate|]. destruct (f e) eqn:Ef; [apply Hf in Ef; congruence|]. now apply IH. }
  rewrite !Q; [lia| |]; intros e; destruct e; intros; congruence.
Qed.
Lemma gone_quiet l : program_events (map (fun e => Gone (sl_att e)) l) = []. Proof. induction l as [|e l IH]; [reflexivity|exact IH]. Qed.
Lemma quiet_same s t : s_log t = s_log s -> s_progs t = s_progs s -> quiet s t.
Proof. intros A B. apply (quiet_log []); [now rewrite app_nil_r|reflexivity|now rewrite B|now rewrite B]. Qed.
Lemma quiet_ask s f t : ask s = (f, t) -> quiet s t. Proof. intros E. apply quiet_same; [apply (core_ask _ _ _ E)|apply (frame_ask _ _ _ E)]. Qed.
Lemma quiet_collect a s : quiet s (collect a s). Proof. unfold collect. destruct (referred a s); [apply quiet_refl|now apply (quiet_log [Gone a])]. Qed.
Lemma quiet_close fd s : quiet s (close_fd fd s). Proof. unfold close_fd. destruct (att_of fd s); [|apply quiet_refl]. eapply quiet_trans; [|apply quiet_collect]. now apply quiet_same. Qed.
Lemma quiet_kdetach c s : quiet s (snd (kernel_detach c s)).
Proof.
  unfold kernel_detach. destruct (ask (note [Asked (c_att c)] s)) as [f t] eqn:E. apply quiet_ask in E. assert (quiet s t) as Q by (eapply quiet_trans; [|exact E]; now apply (quiet_log [Asked (c_att c)])). destruct (f || _); cbn [snd]; [exact Q|]. eapply quiet_trans; [exact Q|].
  now apply (quiet_log (map (fun e => Gone (sl_att e)) (filter (matches c) (s_slots t)))); try reflexivity; apply gone_quiet.
Qed.
Lemma quiet_detach b s : quiet s (snd (detach_base b s)). Proof. destruct b; [apply quiet_close|apply quiet_kdetach]. Qed.
Lemma quiet_dropb r b s : quiet s (drop_base r b s). Proof. destruct b; [apply quiet_close|now apply quiet_same]. Qed.
Lemma quiet_dropl l s : quiet s (drop_link l s). Proof. unfold drop_link. destruct (l_drop l); [apply quiet_detach|apply quiet_dropb]. Qed.
Lemma quiet_drops l : forall s, quiet s (fold_left (fun s x => drop_link x s) l s).
Proof. induction l as [|x l IH]; intros s; cbn [fold_left]; [apply quiet_refl|]. eapply quiet_trans; [apply quiet_dropl|apply IH]. Qed.
Lemma quiet_all l : forall s, quiet s (snd (detach_all l s)).
Proof.
  induction l as [|x l IH]; intros s; cbn [detach_all]; [apply quiet_refl|]. pose proof (quiet_detach (l_base x) s) as F. destruct (detach_base (l_base x) s) as [ok t]. cbn [snd] in F.
  destruct ok; [eapply quiet_trans; [exact F|apply IH]|cbn [snd]; eapply quiet_trans; [exact F|apply quiet_drops]].
Qed.
Lemma map_put {A B} (f : A -> B) i v l d : f v = f (nth i l d) -> map f (put i v l) = map f l.
Proof.
  intros H. destruct (Nat.lt_ge_cases i (length l)) as [L|L].
  - destruct (put_split d i l L) as (a & b & E & _ & P). rewrite P. rewrite E at 1. rewrite !map_app. cbn [map]. now rewrite H.
  - unfold put. now rewrite skipn_all2, firstn_all2, app_nil_r by lia.
Qed.
Lemma quiet_links i l s : quiet s (put_prog i (with_links l (prog_at i s)) s).
Proof. apply (quiet_log []); cbn [put_prog set_progs s_progs s_log]; [now rewrite app_nil_r|reflexivity| |]; now apply map_put with no_prog. Qed.
Lemma quiet_remove i s : quiet s (snd (remove_all i s)). Proof. unfold remove_all. eapply quiet_trans; [apply quiet_links|apply quiet_all]. Qed.
Lemma quiet_insert i l s : quiet s (snd (insert i l s)). Proof. unfold insert. destruct (existsb _ _); cbn [snd]; [apply quiet_dropl|apply quiet_links]. Qed.
Lemma quiet_attach i h s : quiet s (snd (attach i h s)).
Proof.
  unfold attach. destruct (p_fd (prog_at i s)) as [g|]; [|apply quiet_refl]. destruct (ask s) as [f t] eqn:E. apply quiet_ask in E. destruct f; [exact E|]. destruct h as [|m place dup raw drops].
  - cbn [take_next]. eapply quiet_trans; [exact E|]. eapply quiet_trans; [|apply quiet_insert]. now apply (quiet_log [MadeLink (s_next t)]).
  - destruct (kernel_attach m place g t) as [[a u]|] eqn:K; [|exact E]. cbn [take_next]. eapply quiet_trans; [exact E|]. eapply quiet_trans; [|apply quiet_insert]. apply quiet_trans with u; [|now apply quiet_same].
    unfold kernel_attach in K. destruct m; try (destruct (existsb _ _); [discriminate|]); apply some_inj in K; cbn [take_next] in K; apply pair_equal_spec in K as [_ <-]; [now apply (quiet_log [MadeCall MExclusive (s_next t)])|now apply (quiet_log [MadeCall MMulti (s_next t)])|].
    match goal with |- quiet t (note ?x (set_slots _ (set_next _ (note ?y _)))) => apply (quiet_log (y ++ x)) end; try reflexivity; [cbn [note set_slots set_next s_log]; now rewrite app_assoc|]. unfold program_events. rewrite filter_app. fold (program_events (map (fun e => Gone (sl_att e)) (filter (fun e => mode_eqb (sl_mode e) MSingle && (sl_place e =? place)) (s_slots t)))). now rewrite gone_quiet.
Qed.
Lemma quiet_to_link i l s : quiet s (snd (attach_to_link i l s)).
Proof.
  unfold attach_to_link. destruct (p_fd (prog_at i s)) as [g|]; [|apply quiet_dropl]. destruct (ask s) as [f t] eqn:E. apply quiet_ask in E. destruct (l_base l) as [fd|c].
  - destruct f; [cbn [snd]; eapply quiet_trans; [exact E|apply quiet_close]|eapply quiet_trans; [exact E|apply quiet_insert]].
  - destruct (f || _ || _); [cbn [snd]; eapply quiet_trans; [exact E|apply (quiet_dropb Leaked (BCall c))]|]. eapply quiet_trans; [exact E|]. eapply quiet_trans; [|apply quiet_insert]. now apply quiet_same.
Qed.
Lemma quiet_pin q s u : remove_pin q s = Some u -> quiet s u.
Proof. unfold remove_pin. destruct (find _ _) as [[x y]|]; [|discriminate]. intros E. apply some_inj in E. subst u. eapply quiet_trans; [|apply quiet_collect]. now apply quiet_same. Qed.
Lemma quiet_key k i s l t : take_key k i s = Some (l, t) -> quiet s t.
Proof. unfold take_key. destruct (pick _ _) as [[x r]|]; [|discriminate]. intros Q. apply some_inj in Q. apply pair_equal_spec in Q as [<- <-]. apply quiet_links. Qed.
Lemma quiet_alive i s r : quiet s (snd r) -> quiet s (snd (alive i s r)). Proof. intros H. unfold alive. destruct (p_alive _); [exact H|apply quiet_refl]. Qed.
Lemma quiet_step o s : match o with OLoad _ | OUnload _ | ODropProg _ => False | _ => True end -> quiet s (snd (step o s)).
Proof.
  intros H. destruct o; cbn [step]; try contradiction; try (apply quiet_alive).
  - rewrite outcome_snd. apply quiet_attach.
  - destruct (take_key k i s) as [[l t]|] eqn:E; [|apply quiet_refl]. apply quiet_key in E. pose proof (quiet_detach (l_base l) t) as Q. destruct (detach_base (l_base l) t). cbn [snd] in *. eapply quiet_trans; [exact E|exact Q].
  - destruct (take_key k i s) as [[l t]|] eqn:E; [|apply quiet_refl]. apply quiet_key in E. cbn [snd]. eapply quiet_trans; [exact E|now apply quiet_same].
  - destruct (take_nth n (s_owned s)) as [[l r]|]; [|apply quiet_refl]. cbn [snd]. eapply quiet_trans; [|apply quiet_dropl]. now apply quiet_same.
  - destruct (take_nth n (s_owned s)) as [[l r]|]; [|apply quiet_refl]. pose proof (quiet_detach (l_base l) (set_owned r s)) as Q. destruct (detach_base (l_base l) (set_owned r s)). cbn [snd] in *. eapply quiet_trans; [|exact Q]. now apply quiet_same.
  - destruct (take_nth n (s_owned s)) as [[l r]|]; [|apply quiet_refl]. now apply quiet_same.
  - destruct (take_nth n (s_owned s)) as [[l r]|]; [|apply quiet_refl]. destruct (l_base l); now apply quiet_same.
  - destruct (take_nth n (s_bases s)) as [[b r]|]; [|apply quiet_refl]. now apply quiet_same.
  - destruct (take_nth n (s_bases s)) as [[b r]|]; [|apply quiet_refl]. cbn [snd]. eapply quiet_trans; [|apply quiet_dropb]. now apply quiet_same.
  - destruct (take_nth n (s_bases s)) as [[[fd|c] r]|]; try apply quiet_refl. destruct (ask (set_bases r s)) as [f t] eqn:E. apply quiet_ask in E. assert (quiet s t) as Q by (eapply quiet_trans; [|exact E]; now apply quiet_same). destruct (att_of fd t); [|exact Q]. destruct (f || _); cbn [snd]; (eapply quiet_trans; [exact Q|]); [apply quiet_close|now apply quiet_same].
  - destruct (find _ _) as [[q a]|]; [|apply quiet_refl]. destruct (ask s) as [f t] eqn:E. apply quiet_ask in E. destruct f; [exact E|]. cbn [take_next snd]. eapply quiet_trans; [exact E|now apply quiet_same].
  - destruct (take_nth n (s_pinned s)) as [[[q fd] r]|]; [|apply quiet_refl]. destruct (ask (set_pinned r s)) as [f t] eqn:E. apply quiet_ask in E. assert (quiet s t) as Q by (eapply quiet_trans; [|exact E]; now apply quiet_same). destruct f; cbn [snd]; [eapply quiet_trans; [exact Q|apply quiet_close]|]. destruct (remove_pin q t) as [u|] eqn:Ep; cbn [snd]; (eapply quiet_trans; [exact Q|]); [|apply quiet_close]. eapply quiet_trans; [apply (quiet_pin _ _ _ Ep)|now apply quiet_same].
  - destruct (take_nth n (s_pinned s)) as [[[q fd] r]|]; [|apply quiet_refl]. now apply quiet_same.
  - destruct (take_nth n (s_pinned s)) as [[[q fd] r]|]; [|apply quiet_refl]. cbn [snd]. eapply quiet_trans; [|apply quiet_close]. now apply quiet_same.
  - destruct (remove_pin path s) as [u|] eqn:Ep; [|apply quiet_refl]. now apply quiet_pin with path.
  - destruct (take_nth n (s_owned s)) as [[l r]|]; [|apply quiet_refl]. destruct (can_replace l); [|apply quiet_refl]. rewrite outcome_snd. eapply quiet_trans; [|apply quiet_to_link]. now apply quiet_same.
  - now apply quiet_same.
Qed.
Lemma quiet_prog s t i : quiet s t -> p_fd (prog_at i t) = p_fd (prog_at i s) /\ p_alive (prog_at i t) = p_alive (prog_at i s).
Proof. intros (_ & A & B). unfold prog_at. split; [rewrite <- (map_nth p_fd (s_progs t)), <- (map_nth p_fd (s_progs s)), A|rewrite <- (map_nth p_alive (s_progs t)), <- (map_nth p_alive (s_progs s)), B]; reflexivity. Qed.

(** Loads and closes balance: [b] of them were there at the start. *)
Definition balanced (b : nat -> nat) (s : st) : Prop := forall i, (loads i s + b i = closes i s + match p_fd (prog_at i s) with Some _ => 1 | None => 0 end)%nat.
Definition sealed (s : st) : Prop := forall i, p_alive (prog_at i s) = false -> p_fd (prog_at i s) = None.
Lemma balanced_quiet b s t : quiet s t -> balanced b s -> balanced b t.
Proof. intros Q B i. destruct (quiet_prog s t i Q) as [-> _]. destruct Q as (Q & _). destruct (Q i) as [-> ->]. apply B. Qed.
Lemma sealed_quiet s t : quiet s t -> sealed s -> sealed t.
Proof. intros Q B i. destruct (quiet_prog s t i Q) as [-> ->]. apply B. Qed.
Lemma prog_put_other i j p s : i <> j -> prog_at j (put_prog i p s) = prog_at j s.
Proof.
  intros D. unfold prog_at, put_prog, set_progs, put. cbn [s_progs]. destruct (Nat.lt_ge_cases i (length (s_progs s))) as [L|L].
  - destruct (put_split no_prog i (s_progs s) L) as (a & b & E & La & P). unfold put in P. rewrite P. rewrite E at 1. destruct (Nat.lt_ge_cases j (length a)) as [K|K]; [now rewrite !app_nth1 by exact K|]. rewrite !app_nth2 by exact K. destruct (j - length a)%nat eqn:Q; [lia|reflexivity].
  - now rewrite skipn_all2, firstn_all2, app_nil_r by lia.
Qed.
Lemma counts_note i l s : loads i (note l s) = (loads i s + tally (fun e => match e with Loaded j => Nat.eqb j i | _ => false end) l)%nat /\
  closes i (note l s) = (closes i s + tally (fun e => match e with Closed j => Nat.eqb j i | _ => false end) l)%nat.
Proof. unfold loads, closes. cbn [note s_log]. now rewrite !tally_app. Qed.
Lemma balanced_close b i s : (i < length (s_progs s))%nat -> balanced b s -> p_fd (prog_at i s) <> None -> balanced b (note [Closed i] (put_prog i (with_fd None (prog_at i s)) s)).
Proof.
  intros L B N j. destruct (counts_note j [Closed i] (put_prog i (with_fd None (prog_at i s)) s)) as [-> ->]. change (prog_at j (note _ ?x)) with (prog_at j x). change (loads j (put_prog _ _ s)) with (loads j s). change (closes j (put_prog _ _ s)) with (closes j s). pose proof (B j) as Bj. unfold tally. cbn [filter].
  destruct (Nat.eq_dec i j) as [<-|D].
  - rewrite prog_at_put by exact L. rewrite Nat.eqb_refl. cbn [with_fd p_fd length]. destruct (p_fd (prog_at i s)); [lia|contradiction].
  - rewrite prog_put_other by exact D. apply Nat.eqb_neq in D. rewrite D. cbn [length]. lia.
Qed.
Lemma balanced_load b i s : (i < length (s_progs s))%nat -> balanced b s -> balanced b (snd (load i s)).
Proof.
  intros L B. unfold load. destruct (p_fd (prog_at i s)) eqn:N; [exact B|]. destruct (negb _); [exact B|]. destruct (ask s) as [f t] eqn:E. pose proof (quiet_ask _ _ _ E) as Q. pose proof (balanced_quiet b _ _ Q B) as Bt. destruct (frame_ask _ _ _ E) as (F & _). destruct f; [exact Bt|]. cbn [take_next snd].
  assert (prog_at i s = prog_at i t) as Ep by (unfold prog_at; now rewrite F). rewrite Ep in *. rewrite <- F in L. intros j. destruct (counts_note j [Loaded i] (put_prog i (with_fd (Some (s_next t)) (prog_at i t)) (set_next (s_next t + 1) t))) as [-> ->]. change (prog_at j (note _ ?x)) with (prog_at j x).
  change (loads j (put_prog _ _ _)) with (loads j t). change (closes j (put_prog _ _ _)) with (closes j t). pose proof (Bt j) as Bj. unfold tally. cbn [filter]. destruct (Nat.eq_dec i j) as [<-|D].
  - rewrite prog_at_put by exact L. rewrite Nat.eqb_refl. cbn [with_fd p_fd length]. rewrite N in Bj. lia.
  - rewrite prog_put_other by exact D. change (prog_at j (set_next _ t)) with (prog_at j t). apply Nat.eqb_neq in D. rewrite D. cbn [length]. lia.
Qed.
Lemma len_unload i s : length (s_progs (snd (unload i s))) = length (s_progs s).
Proof. unfold unload. pose proof (len_remove i s) as L. destruct (remove_all i s) as [ok t]. cbn [snd] in L. destruct (negb ok); [exact L|]. destruct (p_fd (prog_at i t)); [|exact L]. cbn [snd note put_prog set_progs s_progs]. now rewrite len_put. Qed.
Lemma balanced_unload b i s : (i < length (s_progs s))%nat -> balanced b s -> balanced b (snd (unload i s)).
Proof.
  intros L B. unfold unload. pose proof (quiet_remove i s) as Q. pose proof (len_remove i s) as Ln. destruct (remove_all i s) as [ok t]. cbn [snd] in Q, Ln. pose proof (balanced_quiet b _ _ Q B) as Bt. destruct (negb ok); [exact Bt|]. destruct (p_fd (prog_at i t)) eqn:N; [|exact Bt]. cbn [snd]. apply balanced_close; [lia|exact Bt|congruence].
Qed.
Lemma balanced_drop b i s : (i < length (s_progs s))%nat -> balanced b s -> balanced b (drop_prog i s) /\ p_fd (prog_at i (drop_prog i s)) = None /\ p_alive (prog_at i (drop_prog i s)) = false.
Proof.
  intros L B. unfold drop_prog. apply (balanced_unload b i s L) in B. pose proof (len_unload i s) as Ln. set (t := snd (unload i s)) in *. clearbody t.
  assert (exists u, balanced b u /\ length (s_progs u) = length (s_progs t) /\ p_fd (prog_at i u) = None /\
    (match p_fd (prog_at i t) with Some _ => note [Closed i] (put_prog i (with_fd None (prog_at i t)) t) | None => t end) = u) as (u & Bu & Lu & Nu & ->).
  { destruct (p_fd (prog_at i t)) eqn:N.
    - eexists. split; [apply (balanced_close b i t); [|exact B|congruence]; lia|]. split; [cbn [note put_prog set_progs s_progs]; apply len_put|]. split; [|reflexivity]. change (prog_at i (note _ ?x)) with (prog_at i x). now rewrite prog_at_put by lia.
    - exists t. auto. }
  rewrite prog_at_put by lia. split; [|split; [exact Nu|reflexivity]]. intros j. change (loads j (put_prog _ _ u)) with (loads j u). change (closes j (put_prog _ _ u)) with (closes j u). destruct (Nat.eq_dec i j) as [<-|D]; [rewrite prog_at_put by lia; exact (Bu i)|rewrite prog_put_other by exact D; exact (Bu j)].
Qed.
Lemma balanced_step b o s : balanced b s -> balanced b (snd (step o s)).
Proof.
  intros B. assert (match o with OLoad _ | OUnload _ | ODropProg _ => False | _ => True end \/ exists i, o = OLoad i \/ o = OUnload i \/ o = ODropProg i) as [Q|(i & Q)] by (destruct o; eauto).
  - apply (balanced_quiet b s); [now apply quiet_step|exact B].
  - destruct Q as [->|[-> | ->]]; cbn [step]; unfold alive; (destruct (p_alive (prog_at i s)) eqn:E; [|exact B]); apply alive_len in E; [now apply balanced_load|now apply balanced_unload|now apply balanced_drop].
Qed.
Lemma balanced_run b l : forall s, balanced b s -> balanced b (run l s).
Proof. induction l as [|o l IH]; intros s B; cbn [run]; [exact B|]. apply IH. now apply balanced_step. Qed.

(** ** What unloading does, in order *)

(** [u] comes after [s] by operations on links only: more log, fewer
    descriptors. *)
Record later (s u : st) (pre : list event) : Prop := {
  t_log : s_log u = s_log s ++ pre;
  t_events : program_events pre = [];
  t_fds : incl (map fst (s_fds u)) (map fst (s_fds s)) }.
Lemma later_refl s : later s s []. Proof. constructor; [now rewrite app_nil_r|reflexivity|apply incl_refl]. Qed.
Lemma later_trans a b c p q : later a b p -> later b c q -> later a c (p ++ q).
Proof. intros [A B C] [D E F]. constructor; [now rewrite D, A, app_assoc|unfold program_events in *; now rewrite filter_app, B, E|now apply incl_tran with (map fst (s_fds b))]. Qed.
Lemma later_same s u : s_log u = s_log s -> s_fds u = s_fds s -> later s u []. Proof. intros A B. constructor; [now rewrite A, app_nil_r|reflexivity|rewrite B; apply incl_refl]. Qed.
Lemma later_close fd s : exists pre, later s (close_fd fd s) pre /\ ~ In fd (map fst (s_fds (close_fd fd s))).
Proof.
  unfold close_fd. destruct (att_of fd s) as [a|] eqn:E.
  - set (t := set_fds _ s). assert (later s t []) as L by (constructor; [cbn; now rewrite app_nil_r|reflexivity|intros x Ix; apply in_map_iff in Ix as (y & <- & Iy); apply filter_In in Iy as [Iy _]; now apply in_map]).
    assert (~ In fd (map fst (s_fds t))) as N by (intros Ix; apply in_map_iff in Ix as (y & Ey & Iy); apply filter_In in Iy as [_ Iy]; rewrite Ey, Z.eqb_refl in Iy; discriminate).
    unfold collect. destruct (referred a t); [exists []; auto|]. exists ([] ++ [Gone a]). split; [|exact N]. apply (later_trans s t); [exact L|]. constructor; [reflexivity|reflexivity|apply incl_refl].
  - exists []. split; [apply later_refl|]. unfold att_of in E. destruct (find _ (s_fds s)) eqn:F; [discriminate|]. intros I. apply in_map_iff in I as (y & <- & Iy). apply (find_none _ _ F) in Iy. rewrite Z.eqb_refl in Iy. discriminate.
Qed.
Lemma later_kdetach c s : exists pre, later s (snd (kernel_detach c s)) pre /\ In (Asked (c_att c)) pre.
Proof.
  unfold kernel_detach. destruct (ask (note [Asked (c_att c)] s)) as [f t] eqn:E. destruct (core_ask _ _ _ E) as (C1 & _ & _ & _ & C5 & _). assert (later s t [Asked (c_att c)]) as L by (constructor; [now rewrite C5|reflexivity|rewrite C1; apply incl_refl]).
  destruct (f || _); cbn [snd]; [exists [Asked (c_att c)]; split; [exact L|now left]|]. eexists. split; [eapply later_trans; [exact L|]; constructor; [reflexivity|apply gone_quiet|apply incl_refl]|]. now left.
Qed.
Lemma later_detach b s : exists pre, later s (snd (detach_base b s)) pre /\ done b pre (snd (detach_base b s)).
Proof. destruct b; [apply later_close|apply later_kdetach]. Qed.
Lemma done_later b s u pre p q : later s u q -> done b p s -> pre = p ++ q -> done b pre u.
Proof. intros L D ->. destruct b; cbn [done] in *; [intros I; apply D; now apply (t_fds _ _ _ L)|apply in_or_app; now left]. Qed.
Lemma later_dropl x s : exists pre, later s (drop_link x s) pre /\ finished x pre (drop_link x s).
Proof.
  unfold drop_link, finished. destruct (l_drop x).
  - destruct (later_detach (l_base x) s) as (pre & L & D). exists pre. auto.
  - destruct (l_base x) as [fd|c]; cbn [drop_base]; [destruct (later_close fd s) as (pre & L & _); exists pre; split; [exact L|discriminate]|]. exists []. split; [now apply later_same|discriminate].
Qed.
Lemma later_drops l : forall s, exists pre, later s (fold_left (fun s x => drop_link x s) l s) pre /\ Forall (fun x => finished x pre (fold_left (fun s x => drop_link x s) l s)) l.
Proof.
  induction l as [|x l IH]; intros s; cbn [fold_left]; [exists []; split; [apply later_refl|constructor]|]. destruct (later_dropl x s) as (p & L & D). destruct (IH (drop_link x s)) as (q & L' & D'). exists (p ++ q). split; [eapply later_trans; eassumption|]. constructor.
  - intros Q. eapply done_later; [exact L'|now apply D|reflexivity].
  - eapply Forall_impl; [|exact D']. cbn beta. intros y Dy Q. specialize (Dy Q). destruct (l_base y); cbn [done] in *; [exact Dy|apply in_or_app; now right].
Qed.
Lemma later_all l : forall s, exists pre, later s (snd (detach_all l s)) pre /\ Forall (fun x => finished x pre (snd (detach_all l s))) l /\
  (fst (detach_all l s) = true -> Forall (fun x => done (l_base x) pre (snd (detach_all l s))) l).
Proof.
  induction l as [|x l IH]; intros s; cbn [detach_all]; [exists []; split; [apply later_refl|split; constructor]|]. destruct (later_detach (l_base x) s) as (p & L & D). destruct (detach_base (l_base x) s) as [ok t]. cbn [snd] in L, D. destruct ok.
  - destruct (IH t) as (q & L' & D' & D''). exists (p ++ q). assert (done (l_base x) (p ++ q) (snd (detach_all l t))) as Dx by (eapply done_later; [exact L'|exact D|reflexivity]).
    assert (forall b, done b q (snd (detach_all l t)) -> done b (p ++ q) (snd (detach_all l t))) as W by (intros b Db; destruct b; cbn [done] in *; [exact Db|apply in_or_app; now right]).
    split; [eapply later_trans; eassumption|]. split; [constructor; [now intros _|]|intros Q; constructor; [exact Dx|]].
    + eapply Forall_impl; [|exact D']. cbn beta. intros y Dy Q. apply W. now apply Dy.
    + eapply Forall_impl; [|exact (D'' Q)]. cbn beta. intros y. apply W.
  - cbn [fst snd]. destruct (later_drops l t) as (q & L' & D'). exists (p ++ q). split; [eapply later_trans; eassumption|]. split; [|discriminate]. constructor; [intros _; eapply done_later; [exact L'|exact D|reflexivity]|].
    eapply Forall_impl; [|exact D']. cbn beta. intros y Dy Q. specialize (Dy Q). destruct (l_base y); cbn [done] in *; [exact Dy|apply in_or_app; now right].
Qed.
Lemma remove_all_spec i s : (i < length (s_progs s))%nat -> exists pre, later s (snd (remove_all i s)) pre /\ Forall (fun x => finished x pre (snd (remove_all i s))) (p_links (prog_at i s)) /\
  (fst (remove_all i s) = true -> Forall (fun x => done (l_base x) pre (snd (remove_all i s))) (p_links (prog_at i s))) /\
  p_links (prog_at i (snd (remove_all i s))) = [] /\ p_fd (prog_at i (snd (remove_all i s))) = p_fd (prog_at i s).
Proof.
  intros L. unfold remove_all. set (t := put_prog i _ s). destruct (later_all (p_links (prog_at i s)) t) as (pre & Lt & D1 & D2). exists pre. split; [|split; [exact D1|split; [exact D2|]]].
  - change pre with ([] ++ pre). eapply later_trans; [|exact Lt]. now apply later_same.
  - destruct (frame_all (p_links (prog_at i s)) t) as (F & _). unfold prog_at at 1 3. rewrite F. fold (prog_at i t). unfold t. rewrite prog_at_put by exact L. split; reflexivity.
Qed.
Lemma unload_spec i s u : (i < length (s_progs s))%nat -> unload i s = (Ok tt, u) ->
  exists pre, s_log u = s_log s ++ pre ++ [Closed i] /\ program_events pre = [] /\ Forall (fun x => done (l_base x) pre u) (p_links (prog_at i s)) /\
    p_links (prog_at i u) = [] /\ p_fd (prog_at i s) <> None /\ p_fd (prog_at i u) = None.
Proof.
  intros L. unfold unload. pose proof (len_remove i s) as Ln. destruct (remove_all_spec i s L) as (pre & Lt & _ & D & E1 & E2). destruct (remove_all i s) as [ok t]. cbn [fst snd] in *. destruct ok; cbn [negb]; [|discriminate]. destruct (p_fd (prog_at i t)) eqn:N; [|discriminate]. intros Q. apply pair_equal_spec in Q as [_ <-].
  exists pre. destruct Lt as [A B C]. split; [cbn [note s_log put_prog set_progs]; now rewrite A, <- app_assoc|]. split; [exact B|]. split; [exact (D eq_refl)|]. change (prog_at i (note _ ?x)) with (prog_at i x). rewrite prog_at_put by lia. cbn [with_fd p_links p_fd]. repeat split; [exact E1|]. congruence.
Qed.
Lemma unload_error i s e u : (i < length (s_progs s))%nat -> unload i s = (Err e, u) ->
  p_fd (prog_at i u) = p_fd (prog_at i s) /\ p_links (prog_at i u) = [] /\ exists pre, s_log u = s_log s ++ pre /\ program_events pre = [] /\ Forall (fun x => finished x pre u) (p_links (prog_at i s)).
Proof.
  intros L. unfold unload. destruct (remove_all_spec i s L) as (pre & Lt & D & _ & E1 & E2). destruct (remove_all i s) as [ok t]. cbn [fst snd] in *. destruct Lt as [A B _].
  destruct ok; cbn [negb]; [destruct (p_fd (prog_at i t)) eqn:N; [discriminate|]|]; intros Q; apply pair_equal_spec in Q as [_ <-]; (split; [congruence|]); (split; [exact E1|]); exists pre; auto.
Qed.
Lemma drop_spec i s : (i < length (s_progs s))%nat ->
  exists pre, s_log (drop_prog i s) = s_log s ++ pre ++ match p_fd (prog_at i s) with Some _ => [Closed i] | None => [] end /\ program_events pre = [] /\
    Forall (fun x => finished x pre (drop_prog i s)) (p_links (prog_at i s)) /\ p_links (prog_at i (drop_prog i s)) = [] /\ p_fd (prog_at i (drop_prog i s)) = None.
Proof.
  intros L. unfold drop_prog. pose proof (len_unload i s) as Ln. destruct (unload i s) as [[[]|e] u] eqn:E; cbn [snd] in *.
  - destruct (unload_spec i s u L E) as (pre & A & B & C & D & F & G). exists pre. rewrite G. destruct (p_fd (prog_at i s)) eqn:N; [|contradiction]. rewrite prog_at_put by lia. split; [exact A|]. split; [exact B|]. split; [|split; [exact D|exact G]]. eapply Forall_impl; [|exact C]. cbn beta. intros x Dx _. exact Dx.
  - destruct (unload_error i s e u L E) as (A & B & pre & C & D & F). exists pre. rewrite <- A. destruct (p_fd (prog_at i u)) eqn:N.
    + change (prog_at i (note [Closed i] ?x)) with (prog_at i x). rewrite (prog_at_put i _ u) by lia. rewrite prog_at_put by (cbn [note put_prog set_progs s_progs]; rewrite len_put; lia). split; [cbn [put_prog set_progs s_log note]; now rewrite C, <- app_assoc|]. split; [exact D|]. split; [exact F|]. split; [exact B|reflexivity].
    + rewrite prog_at_put by lia. split; [cbn [put_prog set_progs s_log]; now rewrite C, app_nil_r|]. split; [exact D|]. split; [exact F|]. split; [exact B|exact N].
Qed.

Lemma balance fails progs l : balanced (given progs) (run l (initial fails progs)).
Proof. apply balanced_run. intros i. unfold loads, closes, tally, prog_at, given. cbn [initial s_log s_progs filter length]. reflexivity. Qed.

Lemma attach_error_step l t i h x u : reached l t -> real h -> step (OAttach i h) t = (Err x, u) -> same_state t u.
Proof.
  intros R Hr. cbn [step]. unfold alive. destruct (p_alive (prog_at i t)) eqn:A; [|intros E; apply pair_equal_spec in E as [_ <-]; apply same_refl]. apply alive_len in A. apply reached_good in R.
  destruct (attach i h t) as [[k|e] v] eqn:E; cbn [outcome]; [discriminate|]. intros Q. apply pair_equal_spec in Q as [_ <-]. now apply (attach_error i h t e v).
Qed.
(** When nothing is held any more. *)
Lemma all_done l t a : reached l t -> bases_of t = [] ->
  (made_call a t = 1%nat -> ~ In a (map fst (s_lost t)) -> asked a t = 1%nat) /\
  (made_link a t = 1%nat -> ~ (exists p, In (p, a) (s_pins t)) -> gone a t = 1%nat).
Proof.
  intros R E. split.
  - intros M N. destruct (once l t a R) as [A _]. unfold held in A. rewrite E in A. cbn [flat_map] in A. change (cnt a []) with 0%nat in A. destruct (cnt a (map fst (s_lost t))) eqn:Q; [lia|]. exfalso. apply N. apply cnt_in. lia.
  - intros M N. apply (link_refs l t a R M). split; [|exact N]. intros (fd & I). apply reached_good in R. pose proof (i_fds _ _ R fd) as Q. rewrite E in Q. cbn [flat_map] in Q. change (cnt fd []) with 0%nat in Q. apply (in_map fst) in I. apply cnt_in in I. cbn [fst] in I. lia.
Qed.
