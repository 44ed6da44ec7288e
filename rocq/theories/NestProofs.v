(** Maps of maps: what stays true of the kernel's state. *)
From Verif Require Import Base Text MapModel TypedModel TypedSpec NestModel NestSpec.
Import ListNotations.
Local Open Scope Z_scope.

(** * Lists *)

Lemma at_nat_in {A} o (x : A) l : at_nat o l = Some x -> In (o, x) l.
Proof.
  induction l as [|[o' y] l IH]; cbn; [discriminate|]. destruct (Nat.eqb_spec o o') as [E|N].
  - intros [= ->]. subst o'. now left.
  - intros H. right. auto.
Qed.
Lemma at_nat_nodup {A} o (x : A) l : NoDup (map fst l) -> In (o, x) l -> at_nat o l = Some x.
Proof.
  induction l as [|[o' y] l IH]; cbn; [tauto|]. intros ND H. inversion ND as [|? ? N1 N2]; subst.
  destruct (Nat.eqb_spec o o') as [E|N].
  - destruct H as [[= -> ->]|H]; [reflexivity|]. subst o'. exfalso. apply N1. apply in_map_iff. now exists (o, x).
  - destruct H as [[= -> ->]|H]; [congruence|]. auto.
Qed.
Lemma at_nat_none {A} o (l : list (nat * A)) : at_nat o l = None <-> ~ In o (map fst l).
Proof.
  induction l as [|[o' y] l IH]; cbn; [tauto|]. destruct (Nat.eqb_spec o o') as [E|N].
  - split; [discriminate|]. intros H. exfalso. apply H. left. congruence.
  - rewrite IH. split; [intros H [X|X]; [congruence|tauto] | tauto].
Qed.
Lemma at_nat_app {A} o (l l' : list (nat * A)) : at_nat o (l ++ l') = match at_nat o l with Some x => Some x | None => at_nat o l' end.
Proof. induction l as [|[o' y] l IH]; cbn; [reflexivity|]. destruct (Nat.eqb o o'); auto. Qed.
Lemma at_nat_filter {A} (p : nat -> bool) o (l : list (nat * A)) :
  at_nat o (filter (fun e => p (fst e)) l) = if p o then at_nat o l else None.
Proof.
  induction l as [|[o' y] l IH]; cbn; [now destruct (p o)|]. destruct (p o') eqn:E; cbn.
  - destruct (Nat.eqb_spec o o') as [->|N]; [now rewrite E|exact IH].
  - rewrite IH. destruct (Nat.eqb_spec o o') as [->|N]; [now rewrite E|reflexivity].
Qed.
Lemma set_nat_fst {A} o (x : A) l : map fst (set_nat o x l) = map fst l.
Proof. induction l as [|[o' y] l IH]; cbn; [reflexivity|]. destruct (Nat.eqb o o'); cbn; congruence. Qed.
Lemma at_set_nat {A} o o' (x : A) l :
  at_nat o' (set_nat o x l) = if Nat.eqb o' o then match at_nat o l with Some _ => Some x | None => None end else at_nat o' l.
Proof.
  induction l as [|[p y] l IH]; cbn; [now destruct (Nat.eqb o' o)|].
  destruct (Nat.eqb_spec o p) as [->|N]; cbn.
  - destruct (Nat.eqb_spec o' p) as [->|N']; reflexivity.
  - destruct (Nat.eqb_spec o' p) as [->|N'].
    + destruct (Nat.eqb_spec p o) as [E|_]; [congruence|reflexivity].
    + exact IH.
Qed.
Lemma set_nat_map {A B} (g : A -> B) o x l : (forall y, at_nat o l = Some y -> g y = g x) ->
  map (fun e => g (snd e)) (set_nat o x l) = map (fun e => g (snd e)) l.
Proof.
  induction l as [|[p y] l IH]; cbn; [reflexivity|]. destruct (Nat.eqb_spec o p) as [->|N]; cbn.
  - intros H. now rewrite (H y eq_refl).
  - intros H. now rewrite (IH H).
Qed.

Lemma at_fd_in {A} o (x : A) l : at_fd o l = Some x -> In (o, x) l.
Proof.
  induction l as [|[o' y] l IH]; cbn; [discriminate|]. destruct (Z.eqb_spec o o') as [E|N].
  - intros [= ->]. subst o'. now left.
  - intros H. right. auto.
Qed.
Lemma at_fd_none {A} o (l : list (Z * A)) : at_fd o l = None <-> ~ In o (map fst l).
Proof.
  induction l as [|[o' y] l IH]; cbn; [tauto|]. destruct (Z.eqb_spec o o') as [E|N].
  - split; [discriminate|]. intros H. exfalso. apply H. left. congruence.
  - rewrite IH. split; [intros H [X|X]; [congruence|tauto] | tauto].
Qed.
Lemma at_fd_filter {A} fd fd' (l : list (Z * A)) :
  at_fd fd' (filter (fun e => negb (fd =? fst e)) l) = if fd' =? fd then None else at_fd fd' l.
Proof.
  induction l as [|[p y] l IH]; cbn; [now destruct (fd' =? fd)|]. destruct (Z.eqb_spec fd p) as [->|N]; cbn.
  - rewrite IH. destruct (Z.eqb_spec fd' p); reflexivity.
  - destruct (Z.eqb_spec fd' p) as [->|N'].
    + destruct (Z.eqb_spec p fd) as [E|_]; [congruence|reflexivity].
    + exact IH.
Qed.
Lemma filter_none {A} fd (l : list (Z * A)) : at_fd fd l = None -> filter (fun e => negb (fd =? fst e)) l = l.
Proof.
  induction l as [|[p y] l IH]; cbn; [reflexivity|]. destruct (Z.eqb_spec fd p) as [->|N]; [discriminate|]. cbn. intros H. now rewrite (IH H).
Qed.
Lemma filter_all {A} (p : A -> bool) l : Forall (fun x => p x = true) l -> filter p l = l.
Proof. induction 1 as [|x l H _ IH]; cbn; [reflexivity|]. now rewrite H, IH. Qed.

Lemma slot_in k o l : slot k l = Some o -> In (k, o) l.
Proof.
  induction l as [|[k' x] l IH]; cbn; [discriminate|]. destruct (str_eqb k k') eqn:E.
  - apply str_eqb_eq in E. subst k'. intros [= ->]. now left.
  - intros H. right. auto.
Qed.
Lemma slot_put k k' o l : slot k' (put_slot k o l) = if str_eqb k' k then Some o else slot k' l.
Proof.
  induction l as [|[p x] l IH]; cbn; [reflexivity|]. destruct (str_eqb k p) eqn:E; cbn.
  - apply str_eqb_eq in E. subst p. now destruct (str_eqb k' k).
  - destruct (str_eqb k' p) eqn:E'; [|exact IH]. apply str_eqb_eq in E'. subst p.
    destruct (str_eqb k' k) eqn:E2; [|reflexivity]. apply str_eqb_eq in E2. subst k'. rewrite str_eqb_refl in E. discriminate E.
Qed.
Lemma slot_drop k k' l : slot k' (drop_slot k l) = if str_eqb k' k then None else slot k' l.
Proof.
  unfold drop_slot. induction l as [|[p x] l IH]; cbn; [now destruct (str_eqb k' k)|]. destruct (str_eqb k p) eqn:E; cbn.
  - rewrite IH. apply str_eqb_eq in E. subst p. now destruct (str_eqb k' k).
  - destruct (str_eqb k' p) eqn:E'; [|exact IH]. apply str_eqb_eq in E'. subst p.
    destruct (str_eqb k' k) eqn:E2; [|reflexivity]. apply str_eqb_eq in E2. subst k'. rewrite str_eqb_refl in E. discriminate E.
Qed.
Lemma put_slot_in k o l p : In p (map snd (put_slot k o l)) -> p = o \/ In p (map snd l).
Proof.
  induction l as [|[k' x] l IH]; cbn; [intros [H|[]]; auto|]. destruct (str_eqb k k'); cbn.
  - intros [H|H]; auto.
  - intros [H|H]; [auto|]. apply IH in H as [H|H]; auto.
Qed.
Lemma drop_slot_in k l p : In p (map snd (drop_slot k l)) -> In p (map snd l).
Proof. intros H. apply in_map_iff in H as (e & <- & H). apply filter_In in H as [H _]. now apply in_map. Qed.
Lemma slot_some_in k l : slot k l <> None -> In k (map fst l).
Proof. destruct (slot k l) as [o|] eqn:E; [|congruence]. intros _. apply slot_in in E. now apply (in_map fst) in E. Qed.

Lemma by_id_in id l o : by_id id l = Some o -> exists m, In (o, m) l /\ m_id m = id.
Proof.
  induction l as [|[p m] l IH]; cbn; [discriminate|]. destruct (Z.eqb_spec id (m_id m)) as [E|N].
  - intros [= ->]. exists m. auto.
  - intros H. destruct (IH H) as (m' & H1 & H2). exists m'. auto.
Qed.
Lemma by_id_none id l : by_id id l = None <-> ~ In id (map (fun e => m_id (snd e)) l).
Proof.
  induction l as [|[p m] l IH]; cbn; [tauto|]. destruct (Z.eqb_spec id (m_id m)) as [E|N].
  - split; [discriminate|]. intros H. exfalso. apply H. left. congruence.
  - rewrite IH. split; [intros H [X|X]; [congruence|tauto] | tauto].
Qed.
Lemma by_id_nodup id l o m : NoDup (map (fun e => m_id (snd e)) l) -> In (o, m) l -> m_id m = id -> by_id id l = Some o.
Proof.
  induction l as [|[p m'] l IH]; cbn; [tauto|]. intros ND H E. inversion ND as [|? ? N1 N2]; subst.
  destruct (Z.eqb_spec (m_id m) (m_id m')) as [E|N].
  - destruct H as [[= -> ->]|H]; [reflexivity|]. exfalso. apply N1. rewrite <- E. apply in_map_iff. now exists (o, m).
  - destruct H as [[= -> ->]|H]; [congruence|]. auto.
Qed.

Lemma existsb_nat o l : existsb (Nat.eqb o) l = true <-> In o l.
Proof.
  rewrite existsb_exists. split.
  - intros (x & H & E). apply Nat.eqb_eq in E. now subst.
  - intros H. exists o. split; [exact H|apply Nat.eqb_refl].
Qed.

(** * The lowest free descriptor *)

Lemma in_split_fst {A} fd (l : list (Z * A)) : In fd (map fst l) -> exists l1 x l2, l = l1 ++ (fd, x) :: l2.
Proof. intros H. apply in_map_iff in H as ([fd' x] & E & H). cbn in E. subst fd'. destruct (in_split _ _ H) as (l1 & l2 & ->). eauto. Qed.

(** Counting: among [n + 1] numbers one is not in a list of [n]. *)
Lemma lowest_free n : forall fd l, (length (filter (fun e => (fd <=? fst e)%Z) l) <= n)%nat ->
  at_fd (lowest n fd l) l = None /\ fd <= lowest n fd l.
Proof.
  induction n as [|n IH]; cbn; intros fd l L.
  - split; [|lia]. apply at_fd_none. intros H. apply in_map_iff in H as (e & E & H).
    assert (X : In e (filter (fun e => fd <=? fst e) l)) by (apply filter_In; split; [exact H|subst; apply Z.leb_refl]).
    destruct (filter (fun e => fd <=? fst e) l); [destruct X|cbn in L; lia].
  - destruct (at_fd fd l) as [x|] eqn:E; [|split; [exact E|lia]].
    enough (length (filter (fun e => (fd + 1 <=? fst e)%Z) l) < length (filter (fun e => (fd <=? fst e)%Z) l))%nat as LT.
    { destruct (IH (fd + 1) l) as [A B]; [lia|]. split; [exact A|lia]. }
    clear IH L. apply at_fd_in in E. induction l as [|e l IHl]; [destruct E|]. destruct E as [->|E].
    + cbn. rewrite Z.leb_refl. destruct (Z.leb_spec (fd + 1) fd); [lia|]. cbn.
      enough (length (filter (fun e => (fd + 1 <=? fst e)%Z) l) <= length (filter (fun e => (fd <=? fst e)%Z) l))%nat by lia.
      clear. induction l as [|e l IH]; [reflexivity|]. cbn. destruct (Z.leb_spec (fd + 1) (fst e)), (Z.leb_spec fd (fst e)); cbn; lia.
    + specialize (IHl E). cbn. destruct (Z.leb_spec (fd + 1) (fst e)), (Z.leb_spec fd (fst e)); cbn; lia.
Qed.
Lemma filter_le {A} (p : A -> bool) l : (length (filter p l) <= length l)%nat.
Proof. induction l as [|x l IH]; cbn; [lia|]. destruct (p x); cbn; lia. Qed.
Lemma free_fd_free s : behind (free_fd s) s = None /\ 0 <= free_fd s.
Proof. apply lowest_free. apply filter_le. Qed.

(** * What stays true *)

Record sane0 (s : kern) : Prop := {
  sn_maps : NoDup (map fst (k_maps s));
  sn_next : Forall (fun e => (fst e < k_next s)%nat) (k_maps s);
  sn_ids : NoDup (map (fun e => m_id (snd e)) (k_maps s));
  sn_range : Forall (fun e => 0 < m_id (snd e) < 2 ^ 31) (k_maps s);
  sn_fds : NoDup (map fst (k_fds s));
  sn_fd_range : Forall (fun e => 0 <= fst e < k_limit s) (k_fds s);
  sn_limit : k_limit s <= 2 ^ 31;
  sn_roots : forall o, In o (roots s) -> map_at o s <> None;
  sn_flat : forall o m, map_at o s = Some m -> m_meta m = None -> m_slots m = [];
  sn_slots : forall o m meta, map_at o s = Some m -> m_meta m = Some meta -> forall p, In p (map snd (m_slots m)) ->
    exists i, map_at p s = Some i /\ m_meta i = None /\ meta_equal meta (m_shape i) = true
}.
Definition sane (s : kern) : Prop := sane0 s /\ Forall (fun e => referred s (fst e) = true) (k_maps s).

Lemma referred_root s o : In o (roots s) -> referred s o = true.
Proof. intros H. unfold referred. apply existsb_nat in H. now rewrite H. Qed.
Lemma referred_slot s r o m : In r (roots s) -> map_at r s = Some m -> In o (map snd (m_slots m)) -> referred s o = true.
Proof.
  intros R M H. unfold referred. apply orb_true_iff. right. apply existsb_exists. exists r. split; [exact R|].
  unfold held_by. rewrite M. now apply existsb_nat.
Qed.
Lemma referred_cases s o : referred s o = true -> In o (roots s) \/ exists r m, In r (roots s) /\ map_at r s = Some m /\ In o (map snd (m_slots m)).
Proof.
  unfold referred. intros H. apply orb_true_iff in H as [H|H].
  - left. now apply existsb_nat.
  - right. apply existsb_exists in H as (r & R & H). apply existsb_nat in H. unfold held_by in H.
    destruct (map_at r s) as [m|] eqn:M; [|destruct H]. eauto.
Qed.
Lemma map_at_collect s o : map_at o (collect s) = if referred s o then map_at o s else None.
Proof. exact (at_nat_filter (referred s) o (k_maps s)). Qed.

Lemma filter_nodup {A B} (g : A -> B) p l : NoDup (map g l) -> NoDup (map g (filter p l)).
Proof.
  induction l as [|x l IH]; cbn; [auto|]. intros H. inversion H as [|? ? N1 N2]; subst. destruct (p x); cbn; [|auto].
  constructor; [|auto]. intros X. apply N1. apply in_map_iff in X as (y & E & X). apply filter_In in X as [X _]. apply in_map_iff. eauto.
Qed.
Lemma filter_forall {A} (q : A -> Prop) p l : Forall q l -> Forall q (filter p l).
Proof. intros H. apply Forall_forall. intros x X. apply filter_In in X as [X _]. rewrite Forall_forall in H. auto. Qed.

Lemma collect_sane s : sane0 s -> sane (collect s).
Proof.
  intros W. split.
  - constructor.
    + apply filter_nodup, W. + apply filter_forall, W. + apply filter_nodup, W. + apply filter_forall, W.
    + exact (sn_fds s W). + exact (sn_fd_range s W). + exact (sn_limit s W).
    + intros o H. rewrite map_at_collect. change (In o (roots s)) in H. rewrite (referred_root s o H). now apply W.
    + intros o m. rewrite map_at_collect. destruct (referred s o); [|discriminate]. now apply W.
    + intros o m meta. rewrite map_at_collect. destruct (referred s o) eqn:R; [|discriminate]. intros M ME p P.
      destruct (sn_slots s W o m meta M ME p P) as (i & I & NM & EQ). exists i. split; [|auto]. rewrite map_at_collect.
      destruct (referred_cases s o R) as [RO|(r & m' & RR & MR & IN)].
      * now rewrite (referred_slot s o p m RO M P).
      * exfalso. destruct (m_meta m') as [meta'|] eqn:ME'.
        -- destruct (sn_slots s W r m' meta' MR ME' o IN) as (m2 & M2 & NM2 & _). congruence.
        -- rewrite (sn_flat s W r m' MR ME') in IN. destruct IN.
  - cbn. apply Forall_forall. intros [o m] H. apply filter_In in H as [H R]. cbn in *.
    destruct (referred_cases s o R) as [RO|(r & m' & RR & MR & IN)].
    + apply referred_root. exact RO.
    + apply (referred_slot (collect s) r o m'); [exact RR| |exact IN]. rewrite map_at_collect. now rewrite (referred_root s r RR).
Qed.
Lemma collect_id s : sane s -> collect s = s.
Proof. intros [_ R]. unfold collect. rewrite (filter_all _ _ R). now destruct s. Qed.

(** Changing a map that stays what it is. *)
Lemma set_sane o m x s : sane0 s -> map_at o s = Some m -> m_id x = m_id m -> m_shape x = m_shape m -> m_meta x = m_meta m ->
  (m_meta m = None -> m_slots x = []) ->
  (forall meta, m_meta m = Some meta -> forall p, In p (map snd (m_slots x)) ->
     exists i, map_at p s = Some i /\ m_meta i = None /\ meta_equal meta (m_shape i) = true) ->
  sane0 (with_maps (set_nat o x (k_maps s)) s).
Proof.
  intros W M EI ES EM F SL.
  assert (AT : forall p, map_at p (with_maps (set_nat o x (k_maps s)) s) = if Nat.eqb p o then Some x else map_at p s).
  { intros p. unfold map_at. cbn. rewrite at_set_nat. unfold map_at in M. rewrite M. reflexivity. }
  assert (IT : forall p i, map_at p s = Some i -> exists i', map_at p (with_maps (set_nat o x (k_maps s)) s) = Some i' /\ m_meta i' = m_meta i /\ m_shape i' = m_shape i).
  { intros p i I. rewrite AT. destruct (Nat.eqb_spec p o) as [->|N].
    - exists x. rewrite M in I. injection I as <-. auto.
    - exists i. auto. }
  constructor; cbn [k_maps k_fds k_limit k_next with_maps].
  - rewrite set_nat_fst. apply W.
  - apply Forall_forall. intros e H. assert (X : In (fst e) (map fst (k_maps s))).
    { rewrite <- (set_nat_fst o x). now apply in_map. }
    apply in_map_iff in X as (e' & E & X). rewrite <- E. assert (N := sn_next s W). rewrite Forall_forall in N. auto.
  - rewrite (set_nat_map m_id); [apply W|]. intros y Y. unfold map_at in M. rewrite M in Y. injection Y as <-. auto.
  - apply Forall_forall. intros e H. assert (X : In (m_id (snd e)) (map (fun e => m_id (snd e)) (k_maps s))).
    { rewrite <- (set_nat_map m_id o x); [apply in_map_iff; now exists e|]. intros y Y. unfold map_at in M. rewrite M in Y. injection Y as <-. auto. }
    apply in_map_iff in X as (e' & E & X). rewrite <- E. assert (N := sn_range s W). rewrite Forall_forall in N. auto.
  - apply W.
  - apply W.
  - apply W.
  - intros p H. rewrite AT. destruct (Nat.eqb p o); [discriminate|]. now apply W.
  - intros p i. rewrite AT. destruct (Nat.eqb_spec p o) as [->|N].
    + intros [= <-] E. apply F. congruence.
    + apply W.
  - intros p i meta. rewrite AT. destruct (Nat.eqb_spec p o) as [->|N].
    + intros [= <-] E q Q. rewrite EM in E. destruct (SL meta E q Q) as (j & J & J1 & J2).
      destruct (IT q j J) as (j' & A & B & C). exists j'. split; [exact A|]. split; congruence.
    + intros I E q Q. destruct (sn_slots s W p i meta I E q Q) as (j & J & J1 & J2).
      destruct (IT q j J) as (j' & A & B & C). exists j'. split; [exact A|]. split; congruence.
Qed.
