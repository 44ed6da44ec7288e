(** Histories of calls. *)
From Coq Require Import String Permutation.
From Verif Require Import Base Text TextParse TextSplit LogModel TraceModel TraceSpec TraceProofs.
Local Open Scope Z_scope.

(** The object something held is about, with the links and events it owns. *)
Record own := { w_obj : object; w_links : list nat; w_perfs : list nat }.
Inductive entry_ok (k : kernel) : held * own -> Prop :=
| ok_link fd g i n m p : nth_error (k_links k) n = Some {| kl_prog := g; kl_site := AtPerf m; kl_cookie := None |} -> nth_error (k_perfs k) m = Some p -> pf_id p = i -> pf_on p = true ->
    entry_ok k (HPoint (LFd fd) g i, {| w_obj := OLink n; w_links := [n]; w_perfs := [m] |})
| ok_perf fd g i n : nth_error (k_perfs k) n = Some {| pf_id := i; pf_prog := Some g; pf_on := true |} ->
    entry_ok k (HPoint (LPerf fd) g i, {| w_obj := OPerf n; w_links := []; w_perfs := [n] |})
| ok_iter fd g n : nth_error (k_links k) n = Some {| kl_prog := g; kl_site := AtIter; kl_cookie := None |} ->
    entry_ok k (HIter (LFd fd) g, {| w_obj := OLink n; w_links := [n]; w_perfs := [] |})
| ok_file fd g n : nth_error (k_links k) n = Some {| kl_prog := g; kl_site := AtIter; kl_cookie := None |} ->
    entry_ok k (HFile fd g, {| w_obj := OIter n; w_links := [n]; w_perfs := [] |}).

Definition zip (x : held * own) : Z * object := (held_fd (fst x), w_obj (snd x)).
Definition all_links (hw : list (held * own)) : list nat := flat_map (fun x => w_links (snd x)) hw.
Definition all_perfs (hw : list (held * own)) : list nat := flat_map (fun x => w_perfs (snd x)) hw.
Record inv (k0 k : kernel) (hw : list (held * own)) : Prop := {
  in_sound : sound k;
  in_fds : k_fds k = k_fds k0 ++ map zip hw;
  in_ok : Forall (entry_ok k) hw;
  in_perfs : exists ps, k_perfs k = k_perfs k0 ++ ps;
  in_links : exists ls, k_links k = k_links k0 ++ ls;
  in_once_l : NoDup (all_links hw);
  in_once_p : NoDup (all_perfs hw);
  in_new_l : forall n, In n (all_links hw) -> (length (k_links k0) <= n)%nat;
  in_new_p : forall n, In n (all_perfs hw) -> (length (k_perfs k0) <= n)%nat
}.

Lemma nth_old {A} (l l' : list A) n x : nth_error l n = Some x -> nth_error (l ++ l') n = Some x.
Proof. intros H. rewrite nth_error_app1; [exact H|]. apply nth_error_Some. congruence. Qed.
Lemma nth_lt {A} (l : list A) n x : nth_error l n = Some x -> (n < length l)%nat.
Proof. intros H. apply nth_error_Some. congruence. Qed.

(** The events and links that are there stay. *)
Lemma entry_more k k' x : (exists ps, k_perfs k' = k_perfs k ++ ps) -> (exists ls, k_links k' = k_links k ++ ls) -> entry_ok k x -> entry_ok k' x.
Proof.
  intros [ps P] [ls L] H. inversion H; subst; econstructor; rewrite ?P, ?L; eauto using nth_old.
Qed.
Lemma entry_lt k x : entry_ok k x -> (forall n, In n (w_links (snd x)) -> (n < length (k_links k))%nat) /\ (forall n, In n (w_perfs (snd x)) -> (n < length (k_perfs k))%nat).
Proof.
  intros H. inversion H; subst; cbn [snd w_links w_perfs]; split; intros y I; (contradiction || (destruct I as [<- |[]]; eauto using nth_lt)).
Qed.
Lemma all_lt k hw : Forall (entry_ok k) hw -> (forall n, In n (all_links hw) -> (n < length (k_links k))%nat) /\ (forall n, In n (all_perfs hw) -> (n < length (k_perfs k))%nat).
Proof.
  intros H. rewrite Forall_forall in H. split; intros n I; apply in_flat_map in I as (x & I & J); destruct (entry_lt k x (H x I)) as [A B]; auto.
Qed.

Lemma inv_start k : sound k -> inv k k [].
Proof.
  intros S. constructor; cbn [map all_links all_perfs flat_map]; try exact S; try (now constructor); try contradiction.
  - now rewrite app_nil_r.
  - exists []. now rewrite app_nil_r.
  - exists []. now rewrite app_nil_r.
Qed.

Lemma sound_grows k k' : sound k -> grows k k' -> sound k'.
Proof.
  intros [S1 S2 S3 S4] [G1 G2 [ps G3] [ls [G4 G5]]]. constructor; rewrite ?G1; try assumption.
  - intros fd o I. specialize (S1 fd o I). lia.
  - intros fd o I. specialize (S3 fd o I). rewrite G3, G4, !app_length. destruct o; lia.
  - intros n l m E F. rewrite G4 in E. destruct (Nat.lt_ge_cases n (length (k_links k))) as [A|A].
    + rewrite nth_error_app1 in E by assumption. specialize (S4 n l m E F). rewrite G3, app_length. lia.
    + rewrite nth_error_app2 in E by assumption. apply nth_error_In in E. exact (G5 l m E F).
Qed.

Lemma inv_grows k0 k k' hw : inv k0 k hw -> grows k k' -> inv k0 k' hw.
Proof.
  intros [I1 I2 I3 [ps I4] [ls I5] I6 I7 I8 I9] G. pose proof (sound_grows k k' I1 G) as S'. destruct G as [G1 G2 [ps' G3] [ls' [G4 _]]]. constructor; try assumption.
  - now rewrite G1.
  - eapply Forall_impl; [|exact I3]. intros x. apply entry_more; [now exists ps'|now exists ls'].
  - exists (ps ++ ps'). now rewrite G3, I4, app_assoc.
  - exists (ls ++ ls'). now rewrite G4, I5, app_assoc.
Qed.

(** Something new is held. *)
Lemma inv_add k0 k k' hw h w fd : inv k0 k hw -> fd = held_fd h -> k_next k <= fd < k_next k' ->
  k_fds k' = k_fds k ++ [(fd, w_obj w)] ->
  (exists ps, k_perfs k' = k_perfs k ++ ps) -> (exists ls, k_links k' = k_links k ++ ls) ->
  entry_ok k' (h, w) -> NoDup (w_links w) -> NoDup (w_perfs w) ->
  (forall n, In n (w_links w) -> ~ In n (all_links hw) /\ (length (k_links k0) <= n)%nat) -> (forall n, In n (w_perfs w) -> ~ In n (all_perfs hw) /\ (length (k_perfs k0) <= n)%nat) ->
  (forall n l m, nth_error (k_links k') n = Some l -> kl_site l = AtPerf m -> nth_error (k_links k) n = Some l \/ (m < length (k_perfs k'))%nat) ->
  inv k0 k' (hw ++ [(h, w)]).
Proof.
  intros [I1 I2 I3 [ps I4] [ls I5] I6 I7 I8 I9] -> B F P L E NL NP WL WP SITE.
  assert (forall l1 l2 : list nat, NoDup l1 -> NoDup l2 -> (forall n, In n l1 -> ~ In n l2) -> NoDup (l1 ++ l2)) as ND.
  { intros l1 l2 N1 N2 D. induction N1 as [|a l1 NI N1 IH]; [exact N2|]. cbn [app]. constructor.
    - rewrite in_app_iff. intros [H|H]; [contradiction|]. exact (D a (or_introl eq_refl) H).
    - apply IH. intros n H. apply D. now right. }
  constructor.
  - destruct I1 as [S1 S2 S3 S4]. destruct P as [ps' P], L as [ls' L]. constructor.
    + intros fd o I. rewrite F in I. apply in_app_or in I as [I|[I|[]]]; [specialize (S1 fd o I); lia|]. apply pair_equal_spec in I as [<- <-]. lia.
    + rewrite F, map_app. cbn [map fst]. apply (Permutation_NoDup (l := held_fd h :: map fst (k_fds k))).
      * apply Permutation_cons_append.
      * constructor; [|exact S2]. intros I. apply in_map_iff in I as ([fd o] & Q & I). cbn [fst] in Q. specialize (S1 fd o I). lia.
    + intros fd o I. rewrite F in I. apply in_app_or in I as [I|[I|[]]].
      * specialize (S3 fd o I). rewrite P, L, !app_length. destruct o; lia.
      * apply pair_equal_spec in I as [_ <-]. destruct (entry_lt k' (h, w) E) as [A1 A2]. cbn [snd] in A1, A2. inversion E; subst; cbn [w_obj w_links w_perfs] in *.
        -- apply A1. now left.
        -- apply A2. now left.
        -- apply A1. now left.
        -- apply A1. now left.
    + intros n l m H1 H2. destruct (SITE n l m H1 H2) as [H|H]; [|exact H]. specialize (S4 n l m H H2). rewrite P, app_length. lia.
  - rewrite F, I2, map_app, app_assoc. reflexivity.
  - apply Forall_app. split; [|now repeat constructor]. eapply Forall_impl; [|exact I3]. intros x. now apply entry_more.
  - destruct P as [ps' P]. exists (ps ++ ps'). now rewrite P, I4, app_assoc.
  - destruct L as [ls' L]. exists (ls ++ ls'). now rewrite L, I5, app_assoc.
  - unfold all_links. rewrite flat_map_app. cbn [flat_map snd]. rewrite app_nil_r. apply ND; [exact I6|exact NL|].
    intros n H1 H2. now destruct (WL n H2).
  - unfold all_perfs. rewrite flat_map_app. cbn [flat_map snd]. rewrite app_nil_r. apply ND; [exact I7|exact NP|].
    intros n H1 H2. now destruct (WP n H2).
  - intros n H. unfold all_links in H. rewrite flat_map_app in H. cbn [flat_map snd] in H. rewrite app_nil_r in H. apply in_app_or in H as [H|H]; [exact (I8 n H)|].
    now destruct (WL n H).
  - intros n H. unfold all_perfs in H. rewrite flat_map_app in H. cbn [flat_map snd] in H. rewrite app_nil_r in H. apply in_app_or in H as [H|H]; [exact (I9 n H)|].
    now destruct (WP n H).
Qed.

(** Something is no longer held. *)
Lemma nodup_mid {A} (a b c : list A) : NoDup (a ++ b ++ c) -> NoDup (a ++ c) /\ forall x, In x b -> ~ In x (a ++ c).
Proof.
  intros N. assert (NoDup (b ++ a ++ c)) as M.
  { apply (Permutation_NoDup (l := a ++ b ++ c)); [|exact N]. rewrite !app_assoc. apply Permutation_app_tail. apply Permutation_app_comm. }
  clear N. induction b as [|x b IH]; [split; [exact M|contradiction]|]. cbn [app] in M. inversion M as [|y l N1 N2]; subst. destruct (IH N2) as [I1 I2]. split; [exact I1|].
  intros y [<- |I]; [|exact (I2 y I)]. intros H. apply N1. apply in_or_app. now right.
Qed.

Lemma filter_mid fd o (a b : list (Z * object)) : NoDup (map fst (a ++ (fd, o) :: b)) -> filter (fun x => negb (fst x =? fd)) (a ++ (fd, o) :: b) = a ++ b.
Proof.
  intros N. rewrite map_app in N. cbn [map fst] in N. apply NoDup_remove in N as [_ N]. rewrite filter_app. cbn [filter fst]. rewrite Z.eqb_refl. cbn [negb].
  rewrite !filter_old; [reflexivity| |]; intros fd' o' I ->; apply N, in_or_app; [right|left]; now apply (in_map fst) in I.
Qed.

Lemma inv_drop k0 k k' a h w b : inv k0 k (a ++ (h, w) :: b) -> k_next k' = k_next k ->
  k_fds k' = filter (fun x => negb (fst x =? held_fd h)) (k_fds k) -> k_links k' = k_links k ->
  (k_perfs k' = k_perfs k \/ exists n p, In n (w_perfs w) /\ k_perfs k' = upd n p (k_perfs k)) ->
  inv k0 k' (a ++ b).
Proof.
  intros [I1 I2 I3 [ps I4] [ls I5] I6 I7 I8 I9] N F L P.
  assert (k_fds k = (k_fds k0 ++ map zip a) ++ (held_fd h, w_obj w) :: map zip b) as FK.
  { rewrite I2, map_app. cbn [map]. now rewrite app_assoc. }
  assert (k_fds k' = (k_fds k0 ++ map zip a) ++ map zip b) as FK'.
  { rewrite F, FK. apply (filter_mid _ (w_obj w)). rewrite <- FK. exact (so_once k I1). }
  assert (k_fds k' = k_fds k0 ++ map zip (a ++ b)) as F'. { rewrite FK', map_app. now rewrite app_assoc. }
  assert (all_links (a ++ (h, w) :: b) = all_links a ++ w_links w ++ all_links b) as EL. { unfold all_links. rewrite flat_map_app. reflexivity. }
  assert (all_perfs (a ++ (h, w) :: b) = all_perfs a ++ w_perfs w ++ all_perfs b) as EP. { unfold all_perfs. rewrite flat_map_app. reflexivity. }
  assert (all_links (a ++ b) = all_links a ++ all_links b) as EL'. { unfold all_links. now rewrite flat_map_app. }
  assert (all_perfs (a ++ b) = all_perfs a ++ all_perfs b) as EP'. { unfold all_perfs. now rewrite flat_map_app. }
  rewrite EL in *. rewrite EP in *. apply nodup_mid in I6 as [NL DL]. apply nodup_mid in I7 as [NP DP].
  assert (length (k_perfs k') = length (k_perfs k)) as LEN. { destruct P as [->|(n & p & _ & ->)]; [reflexivity|apply upd_length]. }
  assert (forall x, In x (k_fds k') -> In x (k_fds k)) as SUB. { intros x. rewrite F. intros I. now apply filter_In in I. }
  constructor.
  - destruct I1 as [S1 S2 S3 S4]. constructor.
    + intros fd o I. rewrite N. exact (S1 fd o (SUB _ I)).
    + rewrite FK', map_app. rewrite FK, map_app in S2. cbn [map fst] in S2. apply NoDup_remove in S2 as [S2 _]. exact S2.
    + intros fd o I. rewrite L, LEN. exact (S3 fd o (SUB _ I)).
    + intros n l m. rewrite L, LEN. apply S4.
  - exact F'.
  - apply Forall_app in I3 as [A B]. pose proof (Forall_inv_tail B) as B'. assert (Forall (entry_ok k) (a ++ b)) as AB by (apply Forall_app; now split).
    destruct P as [P|(n & p & I & P)].
    + eapply Forall_impl; [|exact AB]. intros x. apply entry_more; [exists []; now rewrite app_nil_r|exists []; now rewrite app_nil_r].
    + apply Forall_forall. intros x X. rewrite Forall_forall in AB. specialize (AB x X).
      assert (forall j, In j (w_perfs (snd x)) -> nth_error (k_perfs k') j = nth_error (k_perfs k) j) as SAME.
      { intros j J. rewrite P. apply nth_error_upd_ne. intros <-. apply (DP n I). rewrite <- EP'. apply in_flat_map. now exists x. }
      inversion AB as [fd g i n1 m q Q1 Q2 Q3 Q4|fd g i n1 Q1|fd g n1 Q1|fd g n1 Q1]; subst x; cbn [snd w_perfs] in SAME.
      * apply (ok_link k' fd g i n1 m q); [now rewrite L|now rewrite SAME by (now left)|exact Q3|exact Q4].
      * apply ok_perf. now rewrite SAME by (now left).
      * apply ok_iter. now rewrite L.
      * apply ok_file. now rewrite L.
  - assert (forall n, In n (w_perfs w) -> (length (k_perfs k0) <= n)%nat) as W. { intros n I. apply I9. apply in_or_app. right. apply in_or_app. now left. }
    destruct P as [P|(n & p & I & P)]; [exists ps; congruence|]. rewrite P, I4. specialize (W n I).
    exists (upd (n - length (k_perfs k0)) p ps). clear - W. revert n W. generalize (k_perfs k0). intros l. induction l as [|x l IH]; intros n W.
    + cbn [app length]. now rewrite Nat.sub_0_r.
    + destruct n as [|n]; [cbn [length] in W; lia|]. cbn [app upd length Nat.sub]. f_equal. apply IH. cbn [length] in W. lia.
  - exists ls. congruence.
  - now rewrite EL'.
  - now rewrite EP'.
  - intros n I. rewrite EL' in I. apply I8. apply in_app_or in I as [I|I]; apply in_or_app; [now left|right; apply in_or_app; now right].
  - intros n I. rewrite EP' in I. apply I9. apply in_app_or in I as [I|I]; apply in_or_app; [now left|right; apply in_or_app; now right].
Qed.
