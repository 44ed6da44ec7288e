(** Lemmas about the kernel side. *)
From Coq Require Import String.
From Verif Require Import Base Text SockModel SockSpec.
Open Scope Z_scope.

Lemma file_in K fd f : file_at K fd = Some f -> In (fd, f) (k_files K).
Proof. apply assoc_in. intros a b. apply Z.eqb_eq. Qed.

Lemma in_file K fd f : NoDup (map fst (k_files K)) -> In (fd, f) (k_files K) -> file_at K fd = Some f.
Proof. intros N I. apply assoc_nodup; auto. intros a b. apply Z.eqb_eq. Qed.

Lemma same_prog_spec id o : same_prog id o = true <-> o = Some id.
Proof. destruct o as [x|]; cbn; [rewrite Z.eqb_eq|]; split; intros H; try discriminate H; congruence. Qed.

Lemma nth_selector (l : list (option Z)) g : match nth_error l g with Some o => o | None => None end = nth g l None.
Proof. revert g. induction l as [|x l IH]; intros [|g]; cbn; auto. Qed.

Lemma keeps_sock K id n : keeps K id (FSock n) = true <-> filter_of K n = Some id \/ selector_of K n = Some id.
Proof.
  cbn [keeps]. unfold sock_at, filter_of, selector_of, group_of, selector.
  destruct (nth_error (k_socks K) n) as [s|].
  - rewrite Bool.orb_true_iff, same_prog_spec.
    destruct (s_group s) as [g|].
    + rewrite <- nth_selector. destruct (nth_error (k_groups K) g) as [o|]; [rewrite same_prog_spec; tauto|].
      split; [intros [A|A]; [auto|discriminate A]|intros [A|A]; [auto|discriminate A]].
    + split; [intros [A|A]; [auto|discriminate A]|intros [A|A]; [auto|discriminate A]].
  - split; [intros A; discriminate A|intros [A|A]; discriminate A].
Qed.

Lemma kept_needed K id : kept K id = true <-> needed K id.
Proof.
  unfold kept, needed. rewrite Bool.orb_true_iff, !existsb_exists. split.
  - intros [(x & I & E)|((fd, f) & I & E)].
    + apply Z.eqb_eq in E. subst. auto.
    + right. cbn [snd] in E. destruct f as [n|x|].
      * right. exists fd, n. split; [exact I|]. now apply keeps_sock.
      * left. exists fd. cbn in E. apply Z.eqb_eq in E. now subst.
      * discriminate E.
  - intros [I|[(fd & I)|(fd & n & I & E)]].
    + left. exists id. split; [exact I|apply Z.eqb_refl].
    + right. exists (fd, FProg id). split; [exact I|]. cbn. apply Z.eqb_refl.
    + right. exists (fd, FSock n). split; [exact I|]. now apply keeps_sock.
Qed.

(** Freeing only looks at what is left. *)
Lemma needed_ext K K' id : k_files K' = k_files K -> k_socks K' = k_socks K -> k_groups K' = k_groups K -> k_pins K' = k_pins K ->
  needed K' id <-> needed K id.
Proof. intros A B C D. unfold needed, filter_of, selector_of, group_of, selector. now rewrite A, B, C, D. Qed.

Lemma needed_collect K id : needed (collect K) id <-> needed K id.
Proof. now apply needed_ext. Qed.

Lemma exists_collect K id : exists_prog (collect K) id <-> exists_prog K id /\ needed K id.
Proof.
  unfold exists_prog, collect. cbn [k_progs]. rewrite !in_map_iff. split.
  - intros ((x, t) & E & I). apply filter_In in I as [I C]. cbn in E, C. subst. apply kept_needed in C.
    split; [exists (id, t); auto|exact C].
  - intros (((x, t) & E & I) & N). cbn in E. subst. exists (id, t). split; [auto|]. apply filter_In. split; [exact I|].
    cbn. now apply kept_needed.
Qed.

Lemma nodup_filter_fst {A B} (f : A * B -> bool) l : NoDup (map fst l) -> NoDup (map fst (filter f l)).
Proof.
  induction l as [|[a b] l IH]; cbn; [auto|]. intros N. inversion N as [|? ? X Y]. subst.
  destruct (f (a, b)); cbn; [|auto]. constructor; [|auto]. intros I. apply X. apply in_map_iff in I as ((c, d) & E & I).
  apply filter_In in I as [I _]. apply in_map_iff. exists (c, d). auto.
Qed.

(** The parts of [sound] that freeing does not concern. *)
Record shaped (K : kern) : Prop := {
  sh_fds : NoDup (map fst (k_files K));
  sh_range : forall fd f, In (fd, f) (k_files K) -> 0 <= fd < 2 ^ 31;
  sh_ids : NoDup (map fst (k_progs K));
  sh_socks : forall fd n, In (fd, FSock n) (k_files K) -> (n < length (k_socks K))%nat;
  sh_groups : forall n g, group_of K n = Some g -> (g < length (k_groups K))%nat }.

Lemma sound_shaped K : sound K -> shaped K.
Proof. intros [A B C D E F]. constructor; auto. Qed.

Lemma collect_sound K : shaped K -> (forall id, needed K id -> exists_prog K id) -> sound (collect K).
Proof.
  intros [A B C D E] N. constructor; auto.
  - apply nodup_filter_fst. exact C.
  - intros id. rewrite exists_collect, needed_collect. split; [tauto|]. intros X. split; [auto|exact X].
Qed.

Lemma shaped_sound K : shaped K -> (forall id, exists_prog K id <-> needed K id) -> sound K.
Proof. intros [A B C D E] N. constructor; auto. Qed.

(** A socket's record replaced. *)
Lemma with_sock_at K n s m : (n < length (k_socks K))%nat ->
  nth_error (k_socks (with_sock K n s)) m = if (n =? m)%nat then Some s else nth_error (k_socks K) m.
Proof.
  intros L. cbn [with_sock k_socks]. rewrite nth_error_upd. destruct (Nat.eqb_spec n m) as [EQ|NE]; [subst m|reflexivity].
  destruct (Nat.ltb_spec n (length (k_socks K))); [reflexivity|lia].
Qed.

Lemma filter_with_sock K n s m : (n < length (k_socks K))%nat ->
  filter_of (with_sock K n s) m = if (n =? m)%nat then s_filter s else filter_of K m.
Proof. intros L. unfold filter_of. rewrite with_sock_at by exact L. destruct (n =? m)%nat; reflexivity. Qed.

Lemma group_with_sock K n s m : (n < length (k_socks K))%nat ->
  group_of (with_sock K n s) m = if (n =? m)%nat then s_group s else group_of K m.
Proof. intros L. unfold group_of. rewrite with_sock_at by exact L. destruct (n =? m)%nat; reflexivity. Qed.

Lemma nth_upd (l : list (option Z)) g o m : (g < length l)%nat -> nth m (upd g o l) None = if (g =? m)%nat then o else nth m l None.
Proof.
  intros L. rewrite <- !nth_selector, nth_error_upd. destruct (Nat.eqb_spec g m) as [EQ|NE]; [subst m|reflexivity].
  destruct (Nat.ltb_spec g (length l)); [reflexivity|lia].
Qed.

Lemma shaped_with_sock K n s : shaped K -> (n < length (k_socks K))%nat -> s_group s = group_of K n -> shaped (with_sock K n s).
Proof.
  intros [A B C D E] L G. constructor; auto.
  - intros fd m I. cbn [with_sock k_socks]. rewrite upd_length. exact (D fd m I).
  - intros m g. rewrite group_with_sock by exact L. destruct (Nat.eqb_spec n m) as [EQ|NE]; [subst; rewrite G; apply E|apply E].
Qed.

(** The four options. *)
Section options.
Variables (K : kern) (n : nat) (s : sock) (fd : Z).
Hypotheses (S : sound K) (F : In (fd, FSock n) (k_files K)) (A : nth_error (k_socks K) n = Some s).

Lemma in_range : (n < length (k_socks K))%nat.
Proof. exact (snd_socks K S fd n F). Qed.

Lemma at_filter : filter_of K n = s_filter s.
Proof. unfold filter_of. now rewrite A. Qed.
Lemma at_group : group_of K n = s_group s.
Proof. unfold group_of. now rewrite A. Qed.

Lemma filter_set o (N : forall id, o = Some id -> exists_prog K id) :
  let K' := collect (with_sock K n (set_filter s o)) in sound K' /\ only_filter n o K K'.
Proof.
  cbv zeta. pose proof in_range as L.
  assert (GG : forall m, group_of (with_sock K n (set_filter s o)) m = group_of K m).
  { intros m. rewrite group_with_sock by exact L. destruct (Nat.eqb_spec n m) as [EQ|NE]; [subst m; rewrite at_group; reflexivity|reflexivity]. }
  assert (SS : forall m, selector_of (with_sock K n (set_filter s o)) m = selector_of K m).
  { intros m. unfold selector_of. rewrite GG. reflexivity. }
  split.
  - apply collect_sound; [apply shaped_with_sock; [now apply sound_shaped|exact L|now rewrite at_group]|].
    intros id [I|[(f & I)|(f & m & I & E)]].
    + apply (snd_needed K S). left. exact I.
    + apply (snd_needed K S). right. left. now exists f.
    + rewrite SS, filter_with_sock in E by exact L.
      destruct E as [E|E].
      * destruct (Nat.eqb_spec n m) as [EQ|NE]; [exact (N id E)|].
        apply (snd_needed K S). right. right. exists f, m. auto.
      * apply (snd_needed K S). right. right. exists f, m. auto.
  - repeat apply conj.
    + change (filter_of (with_sock K n (set_filter s o)) n = o). rewrite filter_with_sock by exact L. now rewrite Nat.eqb_refl.
    + intros m NE. change (filter_of (with_sock K n (set_filter s o)) m = filter_of K m). rewrite filter_with_sock by exact L.
      destruct (Nat.eqb_spec n m); [congruence|reflexivity].
    + intros m. exact (GG m).
    + reflexivity.
    + cbn [collect with_sock k_socks]. apply upd_length.
    + reflexivity.
    + reflexivity.
    + reflexivity.
Qed.

Lemma selector_set g o (G : s_group s = Some g) (N : forall id, o = Some id -> exists_prog K id) :
  let K' := collect (with_groups K (upd g o (k_groups K))) in sound K' /\ only_selector n o K K'.
Proof.
  cbv zeta.
  assert (LG : (g < length (k_groups K))%nat) by (apply (snd_groups K S n); rewrite at_group; exact G).
  set (K1 := with_groups K (upd g o (k_groups K))).
  assert (SS : forall m, selector_of K1 m = match group_of K m with Some x => if (g =? x)%nat then o else selector_of K m | None => None end).
  { intros m. unfold selector_of. change (group_of K1 m) with (group_of K m). destruct (group_of K m) as [x|]; [|reflexivity].
    unfold selector, K1. cbn [with_groups k_groups]. apply nth_upd. exact LG. }
  split.
  - apply collect_sound.
    + destruct (sound_shaped K S) as [X B C D E]. constructor; auto.
      intros m x Y. cbn [K1 with_groups k_groups]. rewrite upd_length. exact (E m x Y).
    + intros id [I|[(f & I)|(f & m & I & E)]].
      * apply (snd_needed K S). left. exact I.
      * apply (snd_needed K S). right. left. now exists f.
      * change (filter_of K1 m) with (filter_of K m) in E. destruct E as [E|E].
        { apply (snd_needed K S). right. right. exists f, m. auto. }
        rewrite SS in E. destruct (group_of K m) as [x|] eqn:GM; [|discriminate E].
        destruct (Nat.eqb_spec g x) as [EQ|NE]; [exact (N id E)|].
        apply (snd_needed K S). right. right. exists f, m. auto.
  - repeat apply conj.
    + exists g. repeat apply conj.
      * change (group_of K n = Some g). now rewrite at_group.
      * left. now rewrite at_group.
      * unfold selector. cbn [collect K1 with_groups k_groups]. rewrite nth_upd by exact LG. now rewrite Nat.eqb_refl.
      * intros x NE. unfold selector. cbn [collect K1 with_groups k_groups]. rewrite nth_upd by exact LG.
        destruct (Nat.eqb_spec g x); [congruence|reflexivity].
    + reflexivity.
    + reflexivity.
    + reflexivity.
    + cbn [collect K1 with_groups k_groups]. rewrite upd_length. lia.
    + reflexivity.
    + reflexivity.
Qed.

Lemma selector_new o (G : s_group s = None) (N : forall id, o = Some id -> exists_prog K id) :
  let K' := collect (with_groups (with_sock K n (set_group s (Some (length (k_groups K))))) (k_groups K ++ [o])) in
  sound K' /\ only_selector n o K K'.
Proof.
  cbv zeta. pose proof in_range as L. set (g := length (k_groups K)). set (s' := set_group s (Some g)).
  set (K1 := with_groups (with_sock K n s') (k_groups K ++ [o])).
  assert (GG : forall m, group_of K1 m = if (n =? m)%nat then Some g else group_of K m).
  { intros m. change (group_of K1 m) with (group_of (with_sock K n s') m). now rewrite group_with_sock by exact L. }
  assert (FF : forall m, filter_of K1 m = filter_of K m).
  { intros m. change (filter_of K1 m) with (filter_of (with_sock K n s') m). rewrite filter_with_sock by exact L.
    destruct (Nat.eqb_spec n m) as [EQ|NE]; [subst m; now rewrite at_filter|reflexivity]. }
  assert (OLD : forall m x, group_of K m = Some x -> (x < g)%nat) by (intros m x E; exact (snd_groups K S m x E)).
  assert (SS : forall m, selector_of K1 m = if (n =? m)%nat then o else selector_of K m).
  { intros m. unfold selector_of. rewrite GG. unfold selector, K1. cbn [with_groups k_groups].
    destruct (n =? m)%nat; [rewrite app_nth2, Nat.sub_diag by (unfold g; lia); reflexivity|].
    destruct (group_of K m) as [x|] eqn:E; [|reflexivity]. apply OLD in E. rewrite app_nth1 by exact E. reflexivity. }
  split.
  - apply collect_sound.
    + destruct (sound_shaped K S) as [X B C D E]. constructor; auto.
      * intros f m I. cbn [K1 with_groups with_sock k_socks]. rewrite upd_length. exact (D f m I).
      * intros m x. rewrite GG. cbn [K1 with_groups k_groups]. rewrite app_length. cbn [length]. fold g.
        destruct (n =? m)%nat; [intros H; apply some_inj in H; lia|intros H; apply OLD in H; lia].
    + intros id [I|[(f & I)|(f & m & I & E)]].
      * apply (snd_needed K S). left. exact I.
      * apply (snd_needed K S). right. left. now exists f.
      * rewrite FF, SS in E. destruct E as [E|E].
        { apply (snd_needed K S). right. right. exists f, m. auto. }
        destruct (Nat.eqb_spec n m) as [EQ|NE]; [exact (N id E)|].
        apply (snd_needed K S). right. right. exists f, m. auto.
  - repeat apply conj.
    + exists g. repeat apply conj.
      * change (group_of K1 n = Some g). rewrite GG. now rewrite Nat.eqb_refl.
      * right. split; [rewrite at_group; exact G|]. split; [unfold g; lia|]. intros m NE H. change (group_of K1 m = Some g) in H. rewrite GG in H.
        destruct (Nat.eqb_spec n m); [congruence|]. apply OLD in H. lia.
      * unfold selector. cbn [collect K1 with_groups k_groups]. rewrite app_nth2 by (unfold g; lia). unfold g. rewrite Nat.sub_diag. reflexivity.
      * intros x NE. unfold selector. cbn [collect K1 with_groups k_groups]. destruct (Nat.lt_ge_cases x g) as [LT|GE].
        { now rewrite app_nth1 by exact LT. }
        rewrite !nth_overflow; [reflexivity|exact GE|rewrite app_length; cbn [length]; fold g; lia].
    + intros m. exact (FF m).
    + intros m NE. change (group_of K1 m = group_of K m). rewrite GG. destruct (Nat.eqb_spec n m); [congruence|reflexivity].
    + cbn [collect K1 with_groups with_sock k_socks]. apply upd_length.
    + cbn [collect K1 with_groups k_groups]. rewrite app_length. lia.
    + reflexivity.
    + reflexivity.
Qed.

Lemma prog_get_spec pfd id ty : In (pfd, FProg id) (k_files K) ->
  exists t, In (id, t) (k_progs K) /\ prog_get K pfd ty = if t =? ty then Ok id else Err EINVAL.
Proof.
  intros I. unfold prog_get. rewrite (in_file K pfd (FProg id) (snd_fds K S) I).
  assert (X : exists_prog K id) by (apply (snd_needed K S); right; left; now exists pfd).
  apply in_map_iff in X as ((x, t) & E & X). cbn in E. subst x. exists t. split; [exact X|].
  rewrite (assoc_nodup Z.eqb id (k_progs K) t); [reflexivity|intros; apply Z.eqb_eq|exact (snd_ids K S)|exact X].
Qed.
End options.
