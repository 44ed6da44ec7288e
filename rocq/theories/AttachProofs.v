(** Proofs about [AttachModel]: an invariant of the kernel's attachments and
    their holders. *)
From Coq Require Import Permutation.
From Verif Require Import Base AttachModel AttachSpec.
Local Open Scope Z_scope.

(** * Counting *)

Lemma cnt_app a l m : cnt a (l ++ m) = (cnt a l + cnt a m)%nat. Proof. apply count_occ_app. Qed.
Lemma cnt_in a l : In a l <-> (0 < cnt a l)%nat. Proof. unfold cnt. rewrite (count_occ_In Z.eq_dec). lia. Qed.
Lemma cnt_perm a l m : Permutation l m -> cnt a l = cnt a m.
Proof. intros H. unfold cnt. induction H; cbn [count_occ]; [reflexivity| | |congruence]; repeat destruct (Z.eq_dec _ _); lia. Qed.
Lemma cnt_cons a x l : cnt a (x :: l) = ((if Z.eq_dec x a then 1 else 0) + cnt a l)%nat. Proof. unfold cnt. cbn [count_occ]. destruct (Z.eq_dec x a); reflexivity. Qed.
Lemma cnt_filter_split {A} (f : A -> Z) (g : A -> bool) a l : cnt a (map f l) = (cnt a (map f (filter g l)) + cnt a (map f (filter (fun x => negb (g x)) l)))%nat.
Proof. induction l as [|x l IH]; [reflexivity|]. cbn [map filter]. destruct (g x); cbn [negb map]; rewrite !cnt_cons, IH; destruct (Z.eq_dec (f x) a); lia. Qed.

Lemma tally_app f l m : tally f (l ++ m) = (tally f l + tally f m)%nat. Proof. unfold tally. now rewrite filter_app, app_length. Qed.
Lemma asked_note a l s : asked a (note l s) = (asked a s + tally (fun e => match e with Asked x => (x =? a)%Z | _ => false end) l)%nat. Proof. apply tally_app. Qed.
Lemma gone_note a l s : gone a (note l s) = (gone a s + tally (fun e => match e with Gone x => (x =? a)%Z | _ => false end) l)%nat. Proof. apply tally_app. Qed.
Lemma made_link_note a l s : made_link a (note l s) = (made_link a s + tally (fun e => match e with MadeLink x => (x =? a)%Z | _ => false end) l)%nat. Proof. apply tally_app. Qed.
Lemma made_call_note a l s : made_call a (note l s) = (made_call a s + tally (fun e => match e with MadeCall _ x => (x =? a)%Z | _ => false end) l)%nat. Proof. apply tally_app. Qed.
Lemma gone_map a l : tally (fun e => match e with Gone x => (x =? a)%Z | _ => false end) (map (fun e => Gone (sl_att e)) l) = cnt a (map sl_att l).
Proof. unfold tally. induction l as [|e l IH]; [reflexivity|]. cbn [map filter]. rewrite cnt_cons. destruct (Z.eqb_spec (sl_att e) a), (Z.eq_dec (sl_att e) a); try contradiction; cbn [length]; lia. Qed.
Lemma no_asked_map a l : tally (fun e => match e with Asked x => (x =? a)%Z | _ => false end) (map (fun e => Gone (sl_att e)) l) = 0%nat.
Proof. unfold tally. induction l as [|e l IH]; [reflexivity|exact IH]. Qed.
Lemma no_made_map a l : tally (fun e => match e with MadeCall _ x => (x =? a)%Z | _ => false end) (map (fun e => Gone (sl_att e)) l) = 0%nat /\
  tally (fun e => match e with MadeLink x => (x =? a)%Z | _ => false end) (map (fun e => Gone (sl_att e)) l) = 0%nat.
Proof. unfold tally. split; (induction l as [|e l IH]; [reflexivity|exact IH]). Qed.
Lemma made_call_in m a s : In (MadeCall m a) (s_log s) -> (1 <= made_call a s)%nat.
Proof.
  unfold made_call, tally. induction (s_log s) as [|e l IH]; [contradiction|]. intros [->|H]; cbn [filter].
  - rewrite Z.eqb_refl. cbn [length]. lia.
  - destruct e; try (now apply IH). destruct (a0 =? a); [cbn [length]; lia|now apply IH].
Qed.
Lemma made_call_get a s : (1 <= made_call a s)%nat -> exists m, In (MadeCall m a) (s_log s).
Proof.
  unfold made_call, tally. induction (s_log s) as [|e l IH]; cbn [filter length]; [lia|]. destruct e; try (intros H; destruct (IH H) as [m' M]; exists m'; now right).
  destruct (Z.eqb_spec a0 a) as [->|]; [intros _; exists m; now left|]. intros H. destruct (IH H) as [m' M]. exists m'. now right.
Qed.
Lemma made_call_mode m n a s : (made_call a s <= 1)%nat -> In (MadeCall m a) (s_log s) -> In (MadeCall n a) (s_log s) -> m = n.
Proof.
  unfold made_call, tally. induction (s_log s) as [|e l IH]; [contradiction|]. cbn [filter]. intros L A B.
  assert (forall k, In (MadeCall k a) l -> (1 <= length (filter (fun e => match e with MadeCall _ x => (x =? a)%Z | _ => false end) l))%nat) as G.
  { intros k K. pose proof (made_call_in k a (note l (initial [] []))) as Q. unfold made_call, tally in Q. cbn [note initial s_log app] in Q. now apply Q. }
  destruct A as [->|A], B as [B|B].
  - congruence.
  - rewrite Z.eqb_refl in L. cbn [length] in L. pose proof (G n B). lia.
  - subst e. rewrite Z.eqb_refl in L. cbn [length] in L. pose proof (G m A). lia.
  - apply IH; [|assumption|assumption]. destruct e; try exact L. destruct (a0 =? a); [cbn [length] in L; lia|exact L].
Qed.

Lemma mode_eqb_eq a b : mode_eqb a b = true <-> a = b. Proof. destruct a, b; cbn; split; congruence. Qed.
Lemma mode_eqb_refl a : mode_eqb a a = true. Proof. now destruct a. Qed.

(** * The invariant *)

Definition own_slot (c : by_call) : slot := {| sl_mode := c_mode c; sl_place := c_place c; sl_prog := c_prog c; sl_att := c_att c |}.
Definition key_ok (next : Z) (c : by_call) : Prop :=
  match c_key c with
  | KDup n => n < next /\ c_mode c <> MExclusive
  | KPlace m p => m = MExclusive /\ c_mode c = MExclusive /\ p = c_place c
  | KFd _ => False
  end /\ (c_raw c = true -> c_mode c = MExclusive).

(** [H]: everything held. *)
Record Inv (H : list base) (s : st) : Prop := {
  i_asked : forall a, (asked a s + cnt a (flat_map call_att H) + cnt a (map fst (s_lost s)) = made_call a s)%nat;
  i_made : forall a, (made_call a s + made_link a s <= 1)%nat;
  i_fresh : forall a, s_next s <= a -> made_call a s = 0%nat /\ made_link a s = 0%nat;
  i_gone : forall a, (gone a s + (if referred a s then 1 else 0) + cnt a (map sl_att (s_slots s)) = made_call a s + made_link a s)%nat;
  i_slots : forall e, In e (s_slots s) -> In (MadeCall (sl_mode e) (sl_att e)) (s_log s);
  i_refs : forall a, referred a s = true -> (1 <= made_link a s)%nat;
  i_fds : forall fd, cnt fd (flat_map fd_of H) = cnt fd (map fst (s_fds s));
  i_fds1 : NoDup (map fst (s_fds s));
  i_fdsn : Forall (fun p => fst p < s_next s) (s_fds s);
  i_uniq : forall e f, In e (s_slots s) -> In f (s_slots s) -> sl_mode e = sl_mode f -> sl_mode e <> MSingle -> sl_place e = sl_place f ->
             (sl_mode e = MMulti -> sl_prog e = sl_prog f) -> e = f;
  i_own : forall c, In (BCall c) H -> c_mode c <> MSingle -> In (own_slot c) (s_slots s);
  i_owed : forall m a, In (MadeCall m a) (s_log s) -> m <> MSingle -> asked a s = 0%nat -> In a (map sl_att (s_slots s));
  i_keys : forall c, In (BCall c) H -> key_ok (s_next s) c;
  i_pins : NoDup (map fst (s_pins s)) }.

Lemma flat_map_perm {A B} (f : A -> list B) l m : Permutation l m -> Permutation (flat_map f l) (flat_map f m).
Proof. intros H. now apply Permutation_flat_map. Qed.
Lemma inv_perm H K s : Permutation H K -> Inv H s -> Inv K s.
Proof.
  intros P [A B C D E F G I J L M N O PN]. constructor; try assumption.
  - intros a. rewrite <- (cnt_perm a _ _ (flat_map_perm call_att H K P)). apply A.
  - intros fd. rewrite <- (cnt_perm fd _ _ (flat_map_perm fd_of H K P)). apply G.
  - intros c I1. apply M. apply Permutation_in with K; [now apply Permutation_sym|exact I1].
  - intros c I1. apply O. apply Permutation_in with K; [now apply Permutation_sym|exact I1].
Qed.

(** Only these fields matter. *)
Definition same_core (s t : st) : Prop :=
  s_fds t = s_fds s /\ s_pins t = s_pins s /\ s_slots t = s_slots s /\ s_lost t = s_lost s /\ s_log t = s_log s /\ s_next s <= s_next t.
Lemma inv_core H s t : same_core s t -> Inv H s -> Inv H t.
Proof.
  intros (C1 & C2 & C3 & C4 & C5 & C6) [A B C D E F G I J L M N O PN].
  assert (forall a, asked a t = asked a s /\ gone a t = gone a s /\ made_call a t = made_call a s /\ made_link a t = made_link a s /\ referred a t = referred a s) as Q.
  { intros a. unfold asked, gone, made_call, made_link, referred. now rewrite C1, C2, C5. }
  constructor; rewrite ?C1, ?C2, ?C3, ?C4, ?C5; try assumption.
  - intros a. destruct (Q a) as (-> & _ & -> & _). apply A.
  - intros a. destruct (Q a) as (_ & _ & -> & -> & _). apply B.
  - intros a Ha. destruct (Q a) as (_ & _ & -> & -> & _). apply C. lia.
  - intros a. destruct (Q a) as (_ & -> & -> & -> & ->). apply D.
  - intros a. destruct (Q a) as (_ & _ & _ & -> & ->). apply F.
  - eapply Forall_impl; [|exact J]. cbn beta. intros; lia.
  - intros m a. destruct (Q a) as (-> & _). apply N.
  - intros c Ic. destruct (O c Ic) as [K R]. split; [|exact R]. destruct (c_key c); [exact K| |exact K]. split; [lia|apply K].
Qed.
Lemma core_refl s : same_core s s. Proof. repeat split. lia. Qed.
Lemma core_trans a b c : same_core a b -> same_core b c -> same_core a c.
Proof. unfold same_core. intros (A1 & A2 & A3 & A4 & A5 & A6) (B1 & B2 & B3 & B4 & B5 & B6). rewrite B1, B2, B3, B4, B5. repeat split; try assumption. lia. Qed.
Lemma core_ask s f t : ask s = (f, t) -> same_core s t.
Proof. unfold ask. destruct (s_fail s); intros E; apply pair_equal_spec in E as [_ <-]; repeat split; cbn; lia. Qed.
Lemma core_put i p s : same_core s (put_prog i p s). Proof. repeat split. cbn. lia. Qed.

(** * Frames *)

Definition frame (s t : st) : Prop := s_progs t = s_progs s /\ s_owned t = s_owned s /\ s_bases t = s_bases s /\ s_pinned t = s_pinned s.
Lemma frame_refl s : frame s s. Proof. repeat split. Qed.
Lemma frame_trans a b c : frame a b -> frame b c -> frame a c.
Proof. unfold frame. intros (A1 & A2 & A3 & A4) (B1 & B2 & B3 & B4). rewrite B1, B2, B3, B4. auto. Qed.
Lemma frame_bases s t : frame s t -> bases_of t = bases_of s.
Proof. intros (A & B & C & D). unfold bases_of, tracked. now rewrite A, B, C, D. Qed.
Lemma frame_ask s f t : ask s = (f, t) -> frame s t.
Proof. unfold ask. destruct (s_fail s); intros E; apply pair_equal_spec in E as [_ <-]; repeat split. Qed.
Lemma frame_collect a s : frame s (collect a s). Proof. unfold collect. destruct (referred a s); repeat split. Qed.
Lemma frame_close fd s : frame s (close_fd fd s).
Proof. unfold close_fd. destruct (att_of fd s); [|apply frame_refl]. eapply frame_trans; [|apply frame_collect]. repeat split. Qed.
Lemma frame_kdetach c s : frame s (snd (kernel_detach c s)).
Proof.
  unfold kernel_detach. destruct (ask (note [Asked (c_att c)] s)) as [f t] eqn:E. apply frame_ask in E. destruct (f || _); cbn [snd]; [exact E|]. eapply frame_trans; [exact E|]. repeat split.
Qed.
Lemma frame_detach b s : frame s (snd (detach_base b s)). Proof. destruct b; [apply frame_close|apply frame_kdetach]. Qed.
Lemma frame_dropb r b s : frame s (drop_base r b s). Proof. destruct b; [apply frame_close|repeat split]. Qed.
Lemma frame_dropl l s : frame s (drop_link l s). Proof. unfold drop_link. destruct (l_drop l); [apply frame_detach|apply frame_dropb]. Qed.
Lemma frame_drops l : forall s, frame s (fold_left (fun s x => drop_link x s) l s).
Proof. induction l as [|x l IH]; intros s; cbn [fold_left]; [apply frame_refl|]. eapply frame_trans; [apply frame_dropl|apply IH]. Qed.
Lemma frame_all l : forall s, frame s (snd (detach_all l s)).
Proof.
  induction l as [|x l IH]; intros s; cbn [detach_all]; [apply frame_refl|]. pose proof (frame_detach (l_base x) s) as F. destruct (detach_base (l_base x) s) as [ok t]. cbn [snd] in F.
  destruct ok; [eapply frame_trans; [exact F|apply IH]|cbn [snd]; eapply frame_trans; [exact F|apply frame_drops]].
Qed.

(** * Primitives *)

Lemma find_fd fd a l : NoDup (map fst l) -> In (fd, a) l -> find (fun p : Z * Z => fst p =? fd) l = Some (fd, a).
Proof.
  induction l as [|[x y] l IH]; [contradiction|]. cbn [map fst find]. intros N [E|I].
  - assert (x = fd) as -> by congruence. rewrite Z.eqb_refl. now rewrite E.
  - inversion N as [|? ? N1 N2]; subst. destruct (Z.eqb_spec x fd) as [->|]; [|now apply IH]. exfalso. apply N1. change fd with (fst (fd, a)). now apply in_map.
Qed.
Lemma fd_unique fd a b (l : list (Z * Z)) : NoDup (map fst l) -> In (fd, a) l -> In (fd, b) l -> a = b.
Proof. intros N A B. apply (find_fd fd a l N) in A. apply (find_fd fd b l N) in B. congruence. Qed.
Lemma nodup_filter {A} (f : A -> Z) g l : NoDup (map f l) -> NoDup (map f (filter g l)).
Proof.
  induction l as [|x l IH]; [constructor|]. cbn [map filter]. intros N. inversion N as [|? ? N1 N2]; subst. destruct (g x); [|now apply IH]. cbn [map]. constructor; [|now apply IH].
  intros I. apply N1. apply in_map_iff in I as (y & E & I). apply filter_In in I as [I _]. rewrite <- E. now apply in_map.
Qed.
Lemma cnt_filter_fd fd x (l : list (Z * Z)) : cnt x (map fst (filter (fun p => negb (fst p =? fd)) l)) = if x =? fd then 0%nat else cnt x (map fst l).
Proof.
  induction l as [|[y z] l IH]; [now destruct (x =? fd)|]. cbn [map fst filter]. destruct (Z.eqb_spec y fd) as [->|D]; cbn [negb].
  - rewrite IH, cnt_cons. destruct (Z.eqb_spec x fd), (Z.eq_dec fd x); lia.
  - cbn [map fst]. rewrite !cnt_cons, IH. destruct (Z.eqb_spec x fd), (Z.eq_dec y x); lia.
Qed.

(** Taking references away from an attachment of its own. *)
Lemma inv_collect H s t a :
  Inv H s -> s_slots t = s_slots s -> s_lost t = s_lost s -> s_log t = s_log s -> s_next t = s_next s ->
  referred a s = true -> (forall b, b <> a -> referred b t = referred b s) ->
  forall K, (forall x, cnt x (flat_map fd_of K) = cnt x (map fst (s_fds t))) -> NoDup (map fst (s_fds t)) -> Forall (fun p => fst p < s_next t) (s_fds t) -> NoDup (map fst (s_pins t)) ->
  (forall x, cnt x (flat_map call_att K) = cnt x (flat_map call_att H)) -> (forall c, In (BCall c) K -> In (BCall c) H) ->
  Inv K (collect a t).
Proof.
  intros [A B C D E F G I J L M N O PN] T1 T2 T3 T4 R R' K K1 K2 K3 Kp K4 K5.
  assert (forall b, asked b t = asked b s /\ gone b t = gone b s /\ made_call b t = made_call b s /\ made_link b t = made_link b s) as Q by (intros b; unfold asked, gone, made_call, made_link; now rewrite T3).
  unfold collect. destruct (referred a t) eqn:Ra.
  - assert (forall b, referred b t = referred b s) as RR by (intros b; destruct (Z.eq_dec b a) as [->|X]; [congruence|now apply R']).
    constructor; rewrite ?T1, ?T2, ?T3, ?T4; try assumption.
    + intros b. destruct (Q b) as (-> & _ & -> & _). rewrite K4. apply A.
    + intros b. destruct (Q b) as (_ & _ & -> & ->). apply B.
    + intros b Hb. destruct (Q b) as (_ & _ & -> & ->). now apply C.
    + intros b. destruct (Q b) as (_ & -> & -> & ->). rewrite RR. apply D.
    + intros b. destruct (Q b) as (_ & _ & _ & ->). rewrite RR. apply F.
    + now rewrite <- T4.
    + intros c Ic. apply M. now apply K5.
    + intros m b. destruct (Q b) as (-> & _). apply N.
    + intros c Ic. apply O. now apply K5.
  - assert (forall b, asked b (note [Gone a] t) = asked b s /\ made_call b (note [Gone a] t) = made_call b s /\ made_link b (note [Gone a] t) = made_link b s /\
                      gone b (note [Gone a] t) = (gone b s + if Z.eq_dec a b then 1 else 0)%nat) as P.
    { intros b. rewrite asked_note, made_call_note, made_link_note, gone_note. destruct (Q b) as (-> & -> & -> & ->). unfold tally. cbn [filter]. destruct (Z.eqb_spec a b), (Z.eq_dec a b); try contradiction; cbn [length]; lia. }
    constructor; cbn [note s_slots s_lost s_log s_next s_fds]; rewrite ?T1, ?T2, ?T4; try assumption.
    + intros b. destruct (P b) as (-> & -> & _). rewrite K4. apply A.
    + intros b. destruct (P b) as (_ & -> & -> & _). apply B.
    + intros b Hb. destruct (P b) as (_ & -> & -> & _). now apply C.
    + intros b. destruct (P b) as (_ & -> & -> & ->). change (referred b (note [Gone a] t)) with (referred b t). pose proof (D b) as Db. destruct (Z.eq_dec a b) as [->|X]; [rewrite Ra; rewrite R in Db; lia|rewrite R' by congruence; lia].
    + intros e Ie. apply in_or_app. left. rewrite T3. now apply E.
    + intros b Rb. destruct (P b) as (_ & _ & -> & _). change (referred b (note [Gone a] t)) with (referred b t) in Rb. destruct (Z.eq_dec b a) as [->|X]; [congruence|]. apply F. now rewrite <- R'.
    + now rewrite <- T4.
    + intros c Ic. apply M. now apply K5.
    + intros m b Hb. destruct (P b) as (-> & _). rewrite T3 in Hb. apply in_app_or in Hb as [Hb|[Hb|[]]]; [exact (N m b Hb)|discriminate].
    + intros c Ic. apply O. now apply K5.
Qed.

Lemma referred_other fd a b s t : NoDup (map fst (s_fds s)) -> In (fd, a) (s_fds s) -> s_fds t = filter (fun p => negb (fst p =? fd)) (s_fds s) -> s_pins t = s_pins s -> b <> a -> referred b t = referred b s.
Proof.
  intros N I T1 T2 D. unfold referred. rewrite T1, T2. f_equal. apply eq_iff_eq_true. rewrite !existsb_exists. split; intros ([x y] & J & Q); cbn [snd] in Q; apply Z.eqb_eq in Q; subst y.
  - apply filter_In in J as [J _]. exists (x, b). split; [exact J|apply Z.eqb_refl].
  - exists (x, b). split; [|apply Z.eqb_refl]. apply filter_In. split; [exact J|]. cbn [fst]. apply negb_true_iff. destruct (Z.eqb_spec x fd) as [->|]; [|reflexivity]. exfalso. apply D. now apply (fd_unique fd b a (s_fds s)).
Qed.
Lemma fd_held H s fd : Inv (BFd fd :: H) s -> exists a, In (fd, a) (s_fds s) /\ att_of fd s = Some a.
Proof.
  intros I. pose proof (i_fds _ _ I fd) as G. cbn [flat_map fd_of app] in G. rewrite cnt_cons in G. destruct (Z.eq_dec fd fd) as [_|]; [|contradiction].
  assert (In fd (map fst (s_fds s))) as J by (apply cnt_in; lia). apply in_map_iff in J as ([x a] & E & J). cbn [fst] in E. subst x. exists a. split; [exact J|]. unfold att_of. now rewrite (find_fd fd a _ (i_fds1 _ _ I) J).
Qed.
Lemma inv_close H s fd : Inv (BFd fd :: H) s -> Inv H (close_fd fd s).
Proof.
  intros I. destruct (fd_held H s fd I) as (a & Ia & Ea). unfold close_fd. rewrite Ea. pose proof (i_fds1 _ _ I) as N.
  apply (inv_collect (BFd fd :: H) s _ a I); try reflexivity; cbn [set_fds s_fds s_next].
  - unfold referred. apply orb_true_iff. left. apply existsb_exists. exists (fd, a). split; [exact Ia|apply Z.eqb_refl].
  - intros b Hb. apply (referred_other fd a b s); try assumption; reflexivity.
  - intros x. rewrite cnt_filter_fd. pose proof (i_fds _ _ I x) as G. cbn [flat_map fd_of app] in G. rewrite cnt_cons in G. destruct (Z.eqb_spec x fd) as [->|D].
    + destruct (Z.eq_dec fd fd) as [_|]; [|contradiction]. assert (cnt fd (map fst (s_fds s)) <= 1)%nat; [|lia]. unfold cnt. now apply NoDup_count_occ.
    + destruct (Z.eq_dec fd x); [congruence|lia].
  - now apply nodup_filter.
  - pose proof (i_fdsn _ _ I) as F. rewrite Forall_forall in F |- *. intros p Ip. apply filter_In in Ip as [Ip _]. now apply F.
  - exact (i_pins _ _ I).
  - intros c Ic. now right.
Qed.

Lemma matches_own H s c e : Inv (BCall c :: H) s -> c_mode c <> MSingle -> In e (s_slots s) -> matches c e = true -> e = own_slot c.
Proof.
  intros I M Ie Q. unfold matches in Q. apply andb_true_iff in Q as [Q Q3]. apply andb_true_iff in Q as [Q1 Q2]. apply mode_eqb_eq in Q1. apply Z.eqb_eq in Q2.
  apply (i_uniq _ _ I); [exact Ie|apply (i_own _ _ I); [now left|exact M]|exact Q1|congruence|exact Q2|].
  cbn [own_slot sl_prog]. intros MM. rewrite Q1 in MM. destruct (c_raw c); [now apply Z.eqb_eq|]. rewrite MM in Q3. now apply Z.eqb_eq.
Qed.
Lemma inv_asked H s c : Inv (BCall c :: H) s -> Inv H (note [Asked (c_att c)] s).
Proof.
  intros [A B C D E F G I J L M N O PN].
  assert (forall b, gone b (note [Asked (c_att c)] s) = gone b s /\ made_call b (note [Asked (c_att c)] s) = made_call b s /\ made_link b (note [Asked (c_att c)] s) = made_link b s /\
                    asked b (note [Asked (c_att c)] s) = (asked b s + if Z.eq_dec (c_att c) b then 1 else 0)%nat) as P.
  { intros b. rewrite asked_note, made_call_note, made_link_note, gone_note. unfold tally. cbn [filter]. destruct (Z.eqb_spec (c_att c) b), (Z.eq_dec (c_att c) b); try contradiction; cbn [length]; lia. }
  constructor; cbn [note s_slots s_lost s_log s_next s_fds]; try assumption.
  - intros b. destruct (P b) as (_ & -> & _ & ->). pose proof (A b) as Ab. cbn [flat_map call_att app] in Ab. rewrite cnt_cons in Ab. lia.
  - intros b. destruct (P b) as (_ & -> & -> & _). apply B.
  - intros b Hb. destruct (P b) as (_ & -> & -> & _). now apply C.
  - intros b. destruct (P b) as (-> & -> & -> & _). apply D.
  - intros e Ie. apply in_or_app. left. now apply E.
  - intros b. destruct (P b) as (_ & _ & -> & _). apply F.
  - intros c' Ic. apply M. now right.
  - intros m b Hb Mm. destruct (P b) as (_ & _ & _ & ->). intros Z0. apply in_app_or in Hb as [Hb|[Hb|[]]]; [|discriminate]. apply N with m; [exact Hb|exact Mm|]. destruct (Z.eq_dec (c_att c) b); lia.
  - intros c' Ic. apply O. now right.
Qed.
(** Removing slots by [g]: all of one [MSingle] or already asked for. *)
Lemma inv_slots H s g : Inv H s ->
  (forall e, In e (s_slots s) -> g e = true -> sl_mode e = MSingle \/ (1 <= asked (sl_att e) s)%nat) ->
  Inv H (note (map (fun e => Gone (sl_att e)) (filter g (s_slots s))) (set_slots (filter (fun e => negb (g e)) (s_slots s)) s)).
Proof.
  intros X Hg. destruct X as [A B C D E F G I J L M N O PN]. set (t := note _ _).
  assert (forall b, asked b t = asked b s /\ made_call b t = made_call b s /\ made_link b t = made_link b s /\ gone b t = (gone b s + cnt b (map sl_att (filter g (s_slots s))))%nat) as P.
  { intros b. unfold t. rewrite asked_note, made_call_note, made_link_note, gone_note, gone_map, no_asked_map. destruct (no_made_map b (filter g (s_slots s))) as [-> ->].
    unfold asked, made_call, made_link, gone, set_slots. cbn [s_log]. lia. }
  assert (forall e, In e (filter (fun e => negb (g e)) (s_slots s)) -> In e (s_slots s)) as Sub by (intros e Q; apply filter_In in Q as [Q _]; exact Q).
  assert (forall e m a, In e (s_slots s) -> g e = true -> In (MadeCall m a) (s_log s) -> m <> MSingle -> asked a s = 0%nat -> sl_att e <> a) as Other.
  { intros e m a Ie Ge Ma Mm Za Xa. subst a. destruct (Hg e Ie Ge) as [Q|Q]; [|lia]. apply Mm. rewrite <- Q. pose proof (B (sl_att e)). apply (made_call_mode m (sl_mode e) (sl_att e) s); [lia|exact Ma|now apply E]. }
  constructor; unfold t; cbn [note set_slots s_slots s_lost s_log s_next s_fds]; fold t; try assumption.
  - intros b. destruct (P b) as (-> & -> & _). apply A.
  - intros b. destruct (P b) as (_ & -> & -> & _). apply B.
  - intros b Hb. destruct (P b) as (_ & -> & -> & _). now apply C.
  - intros b. destruct (P b) as (_ & -> & -> & ->). change (referred b t) with (referred b s). rewrite <- (D b), (cnt_filter_split sl_att g b (s_slots s)). lia.
  - intros e Ie. apply in_or_app. left. apply E. now apply Sub.
  - intros b. destruct (P b) as (_ & _ & -> & _). apply F.
  - intros e f Ie If. apply L; now apply Sub.
  - intros c Ic Mc. apply filter_In. split; [now apply M|]. apply negb_true_iff. destruct (g (own_slot c)) eqn:Q; [|reflexivity]. exfalso. destruct (Hg _ (M c Ic Mc) Q) as [K|K]; [now apply Mc|]. cbn [own_slot sl_att] in K.
    pose proof (A (c_att c)) as Ac. assert (In (c_att c) (flat_map call_att H)) as Q1 by (apply in_flat_map; exists (BCall c); split; [exact Ic|now left]). apply cnt_in in Q1. pose proof (B (c_att c)). lia.
  - intros m a Ma Mm Za. destruct (P a) as (Pa & _). rewrite Pa in Za. apply in_app_or in Ma as [Ma|Ma].
    + pose proof (N m a Ma Mm Za) as Q. apply in_map_iff in Q as (e & Q1 & Q2). apply in_map_iff. exists e. split; [exact Q1|]. apply filter_In. split; [exact Q2|]. apply negb_true_iff. destruct (g e) eqn:Ge; [|reflexivity]. exfalso. now apply (Other e m a).
    + apply in_map_iff in Ma as (e & Q & _). discriminate.
Qed.
Lemma inv_kdetach H s c : Inv (BCall c :: H) s -> Inv H (snd (kernel_detach c s)).
Proof.
  intros I. unfold kernel_detach. pose proof (inv_asked H s c I) as I1.
  assert (forall e, In e (s_slots s) -> matches c e = true -> sl_mode e = MSingle \/ sl_att e = c_att c) as Mt.
  { intros e Ie Q. destruct (c_mode c) eqn:Mc; [right| right|left].
    - assert (c_mode c <> MSingle) as Q0 by congruence. now rewrite (matches_own H s c e I Q0 Ie Q).
    - assert (c_mode c <> MSingle) as Q0 by congruence. now rewrite (matches_own H s c e I Q0 Ie Q).
    - unfold matches in Q. apply andb_true_iff in Q as [Q _]. apply andb_true_iff in Q as [Q _]. apply mode_eqb_eq in Q. congruence. }
  destruct (ask (note [Asked (c_att c)] s)) as [f t] eqn:E. pose proof (core_ask _ _ _ E) as Ct. pose proof (inv_core H _ t Ct I1) as I2. destruct (f || _); cbn [snd]; [exact I2|].
  destruct Ct as (_ & _ & C3 & _ & C5 & _). apply inv_slots; [exact I2|]. intros e Ie Q. rewrite C3 in Ie. destruct (Mt e Ie Q) as [K|K]; [now left|right]. rewrite K. unfold asked. rewrite C5. change (tally _ (s_log (note [Asked (c_att c)] s))) with (asked (c_att c) (note [Asked (c_att c)] s)).
  rewrite asked_note. unfold tally. cbn [filter]. rewrite Z.eqb_refl. cbn [length]. lia.
Qed.
Lemma inv_lose H s c r : Inv (BCall c :: H) s -> Inv H (lose (c_att c) r s).
Proof.
  intros [A B C D E F G I J L M N O PN]. constructor; try assumption.
  - intros b. cbn [lose s_lost]. rewrite map_app, cnt_app. cbn [map fst]. pose proof (A b) as Ab. cbn [flat_map call_att app] in Ab. rewrite cnt_cons in Ab. rewrite cnt_cons. change (asked b (lose (c_att c) r s)) with (asked b s). change (made_call b (lose (c_att c) r s)) with (made_call b s). change (cnt b []) with 0%nat. lia.
  - intros c' Ic. apply M. now right.
  - intros c' Ic. apply O. now right.
Qed.
Lemma inv_detach H s b : Inv (b :: H) s -> Inv H (snd (detach_base b s)). Proof. destruct b; [apply inv_close|apply inv_kdetach]. Qed.
Lemma inv_dropb H s b r : Inv (b :: H) s -> Inv H (drop_base r b s). Proof. destruct b; [apply inv_close|apply inv_lose]. Qed.
Lemma inv_dropl H s l : Inv (l_base l :: H) s -> Inv H (drop_link l s). Proof. unfold drop_link. destruct (l_drop l); [apply inv_detach|apply inv_dropb]. Qed.
Lemma inv_drops H l : forall s, Inv (map l_base l ++ H) s -> Inv H (fold_left (fun s x => drop_link x s) l s).
Proof. induction l as [|x l IH]; intros s I; cbn [fold_left map app] in *; [exact I|]. apply IH. now apply inv_dropl. Qed.
Lemma inv_all H l : forall s, Inv (map l_base l ++ H) s -> Inv H (snd (detach_all l s)).
Proof.
  induction l as [|x l IH]; intros s I; cbn [detach_all map app] in *; [exact I|]. apply inv_detach in I. destruct (detach_base (l_base x) s) as [ok t]. cbn [snd] in I. destruct ok; [now apply IH|cbn [snd]; now apply inv_drops].
Qed.

(** * Programs *)

Definition Good (s : st) : Prop := Inv (bases_of s) s.

Lemma put_split {A} (d : A) i l : (i < length l)%nat -> exists a b, l = a ++ nth i l d :: b /\ length a = i /\ forall v, put i v l = a ++ v :: b.
Proof.
  intros L. destruct (nth_split l d L) as (a & b & E & La). exists a, b. split; [exact E|]. split; [exact La|]. intros v. unfold put. rewrite E. rewrite <- La. rewrite firstn_app_exact, skipn_app_exact by reflexivity. reflexivity.
Qed.
Lemma alive_len i s : p_alive (prog_at i s) = true -> (i < length (s_progs s))%nat.
Proof. intros H. destruct (Nat.lt_ge_cases i (length (s_progs s))) as [L|L]; [exact L|]. unfold prog_at in H. rewrite nth_overflow in H by exact L. discriminate. Qed.
Lemma prog_at_put i p s : (i < length (s_progs s))%nat -> prog_at i (put_prog i p s) = p.
Proof.
  intros L. unfold prog_at, put_prog, set_progs. cbn [s_progs]. destruct (put_split no_prog i (s_progs s) L) as (a & b & _ & La & E). rewrite E. rewrite app_nth2 by lia. now rewrite La, Nat.sub_diag.
Qed.
Lemma len_put {A} i (v : A) l : length (put i v l) = length l.
Proof.
  unfold put. rewrite app_length. assert (length (match skipn i l with [] => [] | _ :: r => v :: r end) = length (skipn i l)) as -> by now destruct (skipn i l). rewrite <- app_length. now rewrite firstn_skipn.
Qed.
(** Changing a program's links changes what is held accordingly. *)
Lemma bases_put i p s : (i < length (s_progs s))%nat -> Permutation (map l_base (p_links (prog_at i s)) ++ bases_of (put_prog i p s)) (map l_base (p_links p) ++ bases_of s).
Proof.
  intros L. unfold bases_of, tracked, put_prog, set_progs. cbn [s_progs s_owned s_bases s_pinned]. destruct (put_split no_prog i (s_progs s) L) as (a & b & E & _ & P). rewrite P. fold (prog_at i s) in E. set (q := prog_at i s) in *. clearbody q. rewrite E. rewrite !flat_map_app. cbn [flat_map]. rewrite !map_app.
  set (x := map l_base (p_links q)). set (y := map l_base (p_links p)). set (u := map l_base (flat_map p_links a)). set (v := map l_base (flat_map p_links b)). set (w := _ ++ s_bases s ++ _). clearbody x y u v w.
  rewrite <- !app_assoc. transitivity (x ++ y ++ u ++ v ++ w).
  - apply Permutation_app_head. rewrite !app_assoc. apply Permutation_app_tail. apply Permutation_app_tail. apply Permutation_app_comm.
  - transitivity (y ++ x ++ u ++ v ++ w); [rewrite !app_assoc; do 3 apply Permutation_app_tail; apply Permutation_app_comm|]. apply Permutation_app_head. rewrite !app_assoc. do 2 apply Permutation_app_tail. apply Permutation_app_comm.
Qed.

Lemma good_put_fd i fd s : Good s -> Good (put_prog i (with_fd fd (prog_at i s)) s).
Proof.
  intros I. unfold Good. destruct (Nat.lt_ge_cases i (length (s_progs s))) as [L|L].
  - apply inv_core with s; [apply core_put|]. apply inv_perm with (bases_of s); [|exact I]. pose proof (bases_put i (with_fd fd (prog_at i s)) s L) as P. cbn [with_fd p_links] in P. apply Permutation_app_inv_l in P. now apply Permutation_sym.
  - unfold put_prog, put. rewrite skipn_all2, firstn_all2, app_nil_r by lia. destruct s; exact I.
Qed.
Lemma good_put_dead i s : Good s -> Good (put_prog i (dead (prog_at i s)) s).
Proof.
  intros I. unfold Good. destruct (Nat.lt_ge_cases i (length (s_progs s))) as [L|L].
  - apply inv_core with s; [apply core_put|]. apply inv_perm with (bases_of s); [|exact I]. pose proof (bases_put i (dead (prog_at i s)) s L) as P. cbn [dead p_links] in P. apply Permutation_app_inv_l in P. now apply Permutation_sym.
  - unfold put_prog, put. rewrite skipn_all2, firstn_all2, app_nil_r by lia. destruct s; exact I.
Qed.
Lemma good_insert i l s : (i < length (s_progs s))%nat -> Inv (l_base l :: bases_of s) s -> Good (snd (insert i l s)).
Proof.
  intros L I. unfold insert. destruct (existsb _ (p_links (prog_at i s))); cbn [snd].
  - unfold Good. rewrite (frame_bases s (drop_link l s) (frame_dropl l s)). now apply inv_dropl.
  - unfold Good. apply inv_core with s; [apply core_put|]. eapply inv_perm; [|exact I].
    pose proof (bases_put i (with_links (p_links (prog_at i s) ++ [l]) (prog_at i s)) s L) as P. cbn [with_links p_links] in P. rewrite map_app, <- app_assoc in P. apply Permutation_app_inv_l in P. apply Permutation_sym. exact P.
Qed.
Lemma pick_perm k l x r : pick k l = Some (x, r) -> Permutation l (x :: r) /\ has_key k x = true.
Proof.
  revert x r. induction l as [|y l IH]; intros x r; cbn [pick]; [discriminate|]. destruct (has_key k y) eqn:E.
  - intros H. apply some_inj in H. apply pair_equal_spec in H as [<- <-]. auto.
  - destruct (pick k l) as [[z q]|] eqn:P; [|discriminate]. intros H. apply some_inj in H. apply pair_equal_spec in H as [<- <-]. destruct (IH z q eq_refl) as [A B]. split; [|exact B]. transitivity (y :: z :: q); [now constructor|apply perm_swap].
Qed.
Lemma inv_take k i s l t : (i < length (s_progs s))%nat -> Good s -> take_key k i s = Some (l, t) -> Inv (l_base l :: bases_of t) t /\ s_owned t = s_owned s /\ s_bases t = s_bases s /\ s_pinned t = s_pinned s.
Proof.
  intros L I. unfold take_key. destruct (pick k (p_links (prog_at i s))) as [[x r]|] eqn:P; [|discriminate]. intros H. apply some_inj in H. apply pair_equal_spec in H as [<- <-]. apply pick_perm in P as [P _]. split; [|repeat split].
  apply inv_core with s; [apply core_put|]. apply inv_perm with (bases_of s); [|exact I].
  pose proof (bases_put i (with_links r (prog_at i s)) s L) as Q. cbn [with_links p_links] in Q. apply (Permutation_map l_base) in P. cbn [map] in P. apply (Permutation_app_inv_l (map l_base r)). apply Permutation_sym. etransitivity; [|exact Q].
  transitivity ((l_base x :: map l_base r) ++ bases_of (put_prog i (with_links r (prog_at i s)) s)); [|apply Permutation_app_tail; now apply Permutation_sym]. cbn [app]. apply Permutation_sym. apply Permutation_middle.
Qed.
Lemma good_remove_all i s : (i < length (s_progs s))%nat -> Good s -> Good (snd (remove_all i s)).
Proof.
  intros L I. unfold remove_all. set (t := put_prog i (with_links [] (prog_at i s)) s). unfold Good. rewrite (frame_bases t _ (frame_all _ t)). apply inv_all.
  apply inv_core with s; [apply core_put|]. apply inv_perm with (bases_of s); [|exact I]. pose proof (bases_put i (with_links [] (prog_at i s)) s L) as P. cbn [with_links p_links map app] in P. fold t in P. now apply Permutation_sym.
Qed.
