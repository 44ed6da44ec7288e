(** Histories. *)
From Coq Require Import String.
From Verif Require Import Base Text SockModel SockSpec SockProofs SockProofs2.
Open Scope Z_scope.

(** A change that leaves every slot that was there alone. *)
Record steady (K K' : kern) : Prop := {
  sd_filter : forall n, (n < length (k_socks K))%nat -> filter_of K' n = filter_of K n;
  sd_select : forall g, (g < length (k_groups K))%nat -> selector K' g = selector K g;
  sd_socks : (length (k_socks K) <= length (k_socks K'))%nat;
  sd_groups : (length (k_groups K) <= length (k_groups K'))%nat }.

Lemma steady_refl K : steady K K.
Proof. constructor; auto. Qed.

Lemma steady_same K K' : k_socks K' = k_socks K -> k_groups K' = k_groups K -> steady K K'.
Proof. intros A B. constructor; intros; unfold filter_of, selector; rewrite ?A, ?B; auto. Qed.

Lemma owns_more P K K' : owns P K -> (forall fd id, In (fd, FProg id) (k_files K) -> In (fd, FProg id) (k_files K')) -> owns P K'.
Proof.
  intros [A B] C. constructor; [|exact B]. intros i p fd I F. destruct (A i p fd I F) as (id & X). exists id. auto.
Qed.

Lemma owns_same P K K' : owns P K -> k_files K' = k_files K -> owns P K'.
Proof. intros O E. apply (owns_more P K K' O). intros fd id. now rewrite E. Qed.

Lemma nth_in_upd {A} (l : list A) i v j x : nth_error (upd i v l) j = Some x -> j = i /\ x = v \/ j <> i /\ nth_error l j = Some x.
Proof.
  intros H. rewrite nth_error_upd in H. destruct (Nat.eqb_spec i j) as [EQ|NE]; [|right; auto].
  destruct (_ <? _)%nat; [|discriminate H]. apply some_inj in H. left. auto.
Qed.

(** Replacing a program object by one of the same descriptor. *)
Lemma owns_put P K i p q : owns P K -> nth_error P i = Some p -> p_fd q = p_fd p -> owns (upd i q P) K.
Proof.
  intros [A B] I E. constructor.
  - intros j x fd J F. apply nth_in_upd in J as [[-> ->]|[NE J]]; [rewrite E in F; exact (A i p fd I F)|exact (A j x fd J F)].
  - intros j k x y fd J L F G. apply nth_in_upd in J as [[-> ->]|[NE J]]; apply nth_in_upd in L as [[-> ->]|[NL L]]; auto.
    + rewrite E in F. exact (B i k p y fd I L F G).
    + rewrite E in G. exact (B j i x p fd J I F G).
    + exact (B j k x y fd J L F G).
Qed.

Lemma upd_same {A} (l : list A) i x : nth_error l i = Some x -> upd i x l = l.
Proof.
  revert i. induction l as [|y l IH]; intros [|i] H; cbn in *; try discriminate H; [apply some_inj in H; now subst|].
  now rewrite IH.
Qed.

Lemma free_fd_spec K fd : free_fd K fd = true -> 0 <= fd < 2 ^ 31 /\ forall f, ~ In (fd, f) (k_files K).
Proof.
  unfold free_fd. rewrite !Bool.andb_true_iff, Z.leb_le, Z.ltb_lt. intros [R F]. split; [exact R|].
  intros f I. unfold file_at in F. clear R. induction (k_files K) as [|[a b] l IH]; [contradiction|].
  cbn [assoc] in F. destruct (Z.eqb_spec fd a) as [EQ|NE]; [discriminate F|].
  destruct I as [I|I]; [inversion I; congruence|auto].
Qed.

Lemma not_in_fst {B} (l : list (Z * B)) a : (forall b, ~ In (a, b) l) -> ~ In a (map fst l).
Proof. intros H I. apply in_map_iff in I as ((x, b) & E & I). cbn in E. subst. exact (H b I). Qed.

(** A further descriptor. *)
Lemma add_file K fd f : sound K -> free_fd K fd = true ->
  (forall n, f = FSock n -> (n < length (k_socks K))%nat) ->
  (forall id, keeps K id f = true -> needed K id) ->
  sound (with_files K ((fd, f) :: k_files K)).
Proof.
  intros S F R N. apply free_fd_spec in F as [B F]. destruct (sound_shaped K S) as [X1 X2 X3 X4 X5]. apply shaped_sound.
  - constructor; auto; cbn [with_files k_files].
    + cbn [map fst]. constructor; [now apply not_in_fst|exact X1].
    + intros x y [E|I]; [inversion E; subst; exact B|exact (X2 x y I)].
    + intros x n [E|I]; [inversion E; subst; now apply R|exact (X4 x n I)].
  - intros id. change (exists_prog (with_files K ((fd, f) :: k_files K)) id) with (exists_prog K id). rewrite (snd_needed K S). split.
    + intros [I|[(x & I)|(x & n & I & E)]]; [left; exact I|right; left; exists x; now right|right; right; exists x, n; split; [now right|exact E]].
    + intros [I|[(x & [I|I])|(x & n & [I|I] & E)]].
      * left. exact I.
      * inversion I. subst. apply N. cbn. apply Z.eqb_refl.
      * right. left. now exists x.
      * inversion I. subst. apply N. apply keeps_sock. exact E.
      * right. right. now exists x, n.
Qed.

Lemma keeps_needed K fd f id : In (fd, f) (k_files K) -> keeps K id f = true -> needed K id.
Proof.
  intros I H. apply kept_needed. unfold kept. apply Bool.orb_true_iff. right. apply existsb_exists. now exists (fd, f).
Qed.

Lemma in_remove K fd x f : In (x, f) (filter (fun p => negb (fst p =? fd)) (k_files K)) <-> In (x, f) (k_files K) /\ x <> fd.
Proof. rewrite filter_In. cbn [fst]. rewrite Bool.negb_true_iff, Z.eqb_neq. tauto. Qed.

Lemma close_sound K fd : sound K -> sound (close K fd).
Proof.
  intros S. unfold close. destruct (sound_shaped K S) as [X1 X2 X3 X4 X5]. apply collect_sound.
  - constructor; auto; cbn [with_files k_files].
    + apply nodup_filter_fst. exact X1.
    + intros x y I. apply in_remove in I as [I _]. exact (X2 x y I).
    + intros x n I. apply in_remove in I as [I _]. exact (X4 x n I).
  - intros id H. change (exists_prog K id). apply (snd_needed K S).
    destruct H as [I|[(x & I)|(x & n & I & E)]]; [left; exact I| |]; cbn [with_files k_files] in I; apply in_remove in I as [I _].
    + right. left. now exists x.
    + right. right. now exists x, n.
Qed.

(** A socket's record replaced by one with the same slots. *)
Lemma same_slots K n s s' : sound K -> nth_error (k_socks K) n = Some s -> s_filter s' = s_filter s -> s_group s' = s_group s ->
  sound (with_sock K n s') /\ steady K (with_sock K n s').
Proof.
  intros S A F G.
  assert (L : (n < length (k_socks K))%nat) by (apply nth_error_Some; rewrite A; discriminate).
  assert (FF : forall m, filter_of (with_sock K n s') m = filter_of K m).
  { intros m. rewrite filter_with_sock by exact L. destruct (Nat.eqb_spec n m) as [EQ|NE]; [subst m; rewrite F, (at_filter K n s A)|]; reflexivity. }
  assert (GG : forall m, group_of (with_sock K n s') m = group_of K m).
  { intros m. rewrite group_with_sock by exact L. destruct (Nat.eqb_spec n m) as [EQ|NE]; [subst m; rewrite G, (at_group K n s A)|]; reflexivity. }
  split.
  - apply shaped_sound; [apply shaped_with_sock; [now apply sound_shaped|exact L|rewrite G, (at_group K n s A); reflexivity]|].
    intros id. change (exists_prog (with_sock K n s') id) with (exists_prog K id). rewrite (snd_needed K S).
    unfold needed, selector_of. split; (intros [I|[I|(x & m & I & E)]]; [left; exact I|right; left; exact I|right; right; exists x, m; split; [exact I|]]).
    + rewrite FF, GG. exact E.
    + rewrite FF, GG in E. exact E.
  - constructor; auto. cbn [with_sock k_socks]. rewrite upd_length. lia.
Qed.

(** A socket moved to another existing group. *)
Lemma moved K n s s' g : sound K -> nth_error (k_socks K) n = Some s -> s_filter s' = s_filter s -> s_group s' = Some g ->
  (exists m fd, In (fd, FSock m) (k_files K) /\ group_of K m = Some g) ->
  sound (collect (with_sock K n s')) /\ steady K (collect (with_sock K n s')).
Proof.
  intros S A F G (m0 & fd0 & I0 & G0).
  assert (L : (n < length (k_socks K))%nat) by (apply nth_error_Some; rewrite A; discriminate).
  assert (FF : forall m, filter_of (with_sock K n s') m = filter_of K m).
  { intros m. rewrite filter_with_sock by exact L. destruct (Nat.eqb_spec n m) as [EQ|NE]; [subst m; rewrite F, (at_filter K n s A)|]; reflexivity. }
  split.
  - apply collect_sound.
    + destruct (sound_shaped K S) as [X1 X2 X3 X4 X5]. constructor; auto.
      * intros fd m I. cbn [with_sock k_socks]. rewrite upd_length. exact (X4 fd m I).
      * intros m x. rewrite group_with_sock by exact L. cbn [with_sock k_groups]. destruct (Nat.eqb_spec n m) as [EQ|NE]; [|apply X5].
        rewrite G. intros E. apply some_inj in E. subst x. exact (X5 m0 g G0).
    + intros id H. change (exists_prog K id). apply (snd_needed K S).
      destruct H as [I|[I|(x & m & I & E)]]; [left; exact I|right; left; exact I|].
      rewrite FF in E. unfold selector_of in E. rewrite group_with_sock in E by exact L.
      destruct E as [E|E]; [right; right; exists x, m; split; [exact I|now left]|].
      destruct (Nat.eqb_spec n m) as [EQ|NE].
      * rewrite G in E. right. right. exists fd0, m0. split; [exact I0|]. right. unfold selector_of. rewrite G0. exact E.
      * right. right. exists x, m. split; [exact I|]. right. exact E.
  - constructor.
    + intros m _. exact (FF m).
    + reflexivity.
    + cbn [collect with_sock k_socks]. rewrite upd_length. lia.
    + cbn [collect with_sock k_groups]. lia.
Qed.

(** A socket put into a new empty group. *)
Lemma grouped K n s s' : sound K -> nth_error (k_socks K) n = Some s -> s_filter s' = s_filter s -> s_group s = None ->
  s_group s' = Some (length (k_groups K)) ->
  let K' := with_groups (with_sock K n s') (k_groups K ++ [None]) in sound K' /\ steady K K'.
Proof.
  intros S A F G0 G K'.
  assert (L : (n < length (k_socks K))%nat) by (apply nth_error_Some; rewrite A; discriminate).
  assert (FF : forall m, filter_of K' m = filter_of K m).
  { intros m. change (filter_of K' m) with (filter_of (with_sock K n s') m). rewrite filter_with_sock by exact L.
    destruct (Nat.eqb_spec n m) as [EQ|NE]; [subst m; rewrite F, (at_filter K n s A)|]; reflexivity. }
  assert (GG : forall m, group_of K' m = if (n =? m)%nat then Some (length (k_groups K)) else group_of K m).
  { intros m. change (group_of K' m) with (group_of (with_sock K n s') m). rewrite group_with_sock by exact L. now rewrite G. }
  assert (SE : forall g, selector K' g = selector K g).
  { intros g. unfold selector. cbn [K' with_groups k_groups]. destruct (Nat.lt_ge_cases g (length (k_groups K))) as [LT|GE].
    - now rewrite app_nth1 by exact LT.
    - rewrite (nth_overflow (k_groups K)) by exact GE. rewrite app_nth2 by exact GE.
      destruct (g - length (k_groups K))%nat as [|[|k]]; reflexivity. }
  assert (SO : forall m, selector_of K' m = selector_of K m).
  { intros m. unfold selector_of. rewrite GG. destruct (Nat.eqb_spec n m) as [EQ|NE].
    - subst m. rewrite (at_group K n s A), G0, SE. unfold selector. now apply nth_overflow.
    - destruct (group_of K m); [apply SE|reflexivity]. }
  split.
  - apply shaped_sound.
    + destruct (sound_shaped K S) as [X1 X2 X3 X4 X5]. constructor; auto.
      * intros fd m I. cbn [K' with_groups with_sock k_socks]. rewrite upd_length. exact (X4 fd m I).
      * intros m x. rewrite GG. cbn [K' with_groups k_groups]. rewrite app_length. cbn [length].
        destruct (n =? m)%nat; intros E; [apply some_inj in E; lia|apply X5 in E; lia].
    + intros id. change (exists_prog K' id) with (exists_prog K id). rewrite (snd_needed K S). unfold needed.
      split; (intros [I|[I|(x & m & I & E)]]; [left; exact I|right; left; exact I|right; right; exists x, m; split; [exact I|]]).
      * rewrite FF, SO. exact E.
      * rewrite FF, SO in E. exact E.
  - constructor; auto.
    + cbn [K' with_groups with_sock k_socks]. rewrite upd_length. lia.
    + cbn [K' with_groups k_groups]. rewrite app_length. lia.
Qed.

(** One step. *)
Definition slots_kept (K : kern) (o : op) (K' : kern) : Prop :=
  (forall n, (n < length (k_socks K))%nat -> ~ changes_filter K o n -> filter_of K' n = filter_of K n) /\
  (forall g, (g < length (k_groups K))%nat -> ~ changes_selector K o g -> selector K' g = selector K g) /\
  (length (k_socks K) <= length (k_socks K'))%nat /\ (length (k_groups K) <= length (k_groups K'))%nat.

Lemma steady_kept K o K' : steady K K' -> slots_kept K o K'.
Proof. intros [A B C D]. repeat apply conj; auto. Qed.

Lemma unload_good P K i p r p' K' : sound K -> owns P K -> nth_error P i = Some p -> unload K p = (r, p', K') ->
  sound K' /\ owns (upd i p' P) K' /\ steady K K'.
Proof.
  intros S O I. unfold unload. destruct (p_fd p) as [fd|] eqn:F; intros E; inversion E; subst.
  - split; [now apply close_sound|]. split; [|now apply steady_same]. destruct O as [A B]. constructor.
    + intros j q x J G. apply nth_in_upd in J as [[-> ->]|[NE J]]; [discriminate G|].
      destruct (A j q x J G) as (id & X). exists id. cbn [close collect with_files k_files]. apply in_remove. split; [exact X|].
      intros ->. apply NE. exact (B j i q p fd J I G F).
    + intros j k q q' x J L G H. apply nth_in_upd in J as [[-> ->]|[NE J]]; [discriminate G|].
      apply nth_in_upd in L as [[-> ->]|[NL L]]; [discriminate H|]. exact (B j k q q' x J L G H).
  - split; [exact S|]. split; [|apply steady_refl]. rewrite (upd_same P i p' I). exact O.
Qed.

Lemma as_view_same v p q : as_view v p = Ok q -> q = p.
Proof. unfold as_view. destruct v, (p_variant p); intros E; now inversion E. Qed.

Lemma load_good P K i p v fd id r p' K' : sound K -> owns P K -> nth_error P i = Some p -> load K v p fd id = (r, p', K') ->
  sound K' /\ owns (upd i p' P) K' /\ steady K K'.
Proof.
  intros S O I. unfold load. destruct (p_fd p) as [x|] eqn:F.
  { intros E. inversion E. subst. split; [exact S|]. split; [|apply steady_refl]. rewrite (upd_same P i p' I). exact O. }
  unfold prog_load. destruct (free_fd K fd && _ && _) eqn:FR.
  2:{ intros E. inversion E. subst. split; [exact S|]. split; [|apply steady_refl]. rewrite (upd_same P i p' I). exact O. }
  apply Bool.andb_true_iff in FR as [FR KN]. apply Bool.andb_true_iff in FR as [FR NE]. apply free_fd_spec in FR as [B NF].
  assert (NI : ~ exists_prog K id).
  { intros X. apply in_map_iff in X as ((y, t) & E & X). cbn in E. subst y. apply Bool.negb_true_iff in NE.
    assert (Y : existsb (fun p0 => fst p0 =? id) (k_progs K) = true) by (apply existsb_exists; exists (id, t); split; [exact X|apply Z.eqb_refl]).
    congruence. }
  intros E. inversion E. subst. split; [|split; [|now apply steady_same]].
  - destruct (sound_shaped K S) as [X1 X2 X3 X4 X5]. apply shaped_sound.
    + constructor; cbn [k_files k_socks k_progs].
      * cbn [map fst]. constructor; [now apply not_in_fst|exact X1].
      * intros x y [E'|J]; [inversion E'; subst; exact B|exact (X2 x y J)].
      * cbn [map fst]. constructor; [exact NI|exact X3].
      * intros x n [E'|J]; [discriminate E'|exact (X4 x n J)].
      * exact X5.
    + intros y. unfold exists_prog. cbn [k_progs map fst In]. split.
      * intros [<-|X]; [right; left; exists fd; now left|]. apply (snd_needed K S) in X.
        destruct X as [J|[(x & J)|(x & n & J & E')]]; [left; exact J|right; left; exists x; now right|right; right; exists x, n; split; [now right|exact E']].
      * intros [J|[(x & [J|J])|(x & n & [J|J] & E')]].
        { right. apply (snd_needed K S). left. exact J. }
        { inversion J. now left. }
        { right. apply (snd_needed K S). right. left. now exists x. }
        { discriminate J. }
        { right. apply (snd_needed K S). right. right. now exists x, n. }
  - destruct O as [OA OB]. constructor; cbn [k_files].
    + intros j q x J G. apply nth_in_upd in J as [[-> ->]|[NJ J]].
      * cbn in G. apply some_inj in G. subst x. exists id. now left.
      * destruct (OA j q x J G) as (y & X). exists y. now right.
    + intros j k q q' x J L G H. apply nth_in_upd in J as [[-> ->]|[NJ J]]; apply nth_in_upd in L as [[-> ->]|[NL L]]; auto.
      * cbn in G. apply some_inj in G. subst x. destruct (OA k q' fd L H) as (y & X). contradiction (NF _ X).
      * cbn in H. apply some_inj in H. subst x. destruct (OA j q fd J G) as (y & X). contradiction (NF _ X).
      * exact (OB j k q q' x J L G H).
Qed.

Lemma slot_set_kept v n o K K' : only_slot v n o K K' -> 
  (forall m, (own_slot v = false \/ m <> n) -> filter_of K' m = filter_of K m) /\
  (forall g, (g < length (k_groups K))%nat -> (own_slot v = true \/ group_of K n <> Some g) -> selector K' g = selector K g) /\
  (length (k_socks K) <= length (k_socks K'))%nat /\ (length (k_groups K) <= length (k_groups K'))%nat.
Proof.
  unfold only_slot. destruct (own_slot v).
  - intros (_ & A & _ & B & C & D & _). rewrite C, D. repeat apply conj; auto. intros m [X|X]; [discriminate X|now apply A].
  - intros ((g & G1 & G2 & _ & G3) & A & _ & C & D & _). rewrite C. repeat apply conj; auto.
    intros x L [X|X]; [discriminate X|]. apply G3. intros ->. destruct G2 as [G2|(G2 & LE & _)]; [congruence|lia].
Qed.
