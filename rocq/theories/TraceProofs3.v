(** What histories of calls lead to. *)
From Coq Require Import String Permutation.
From Verif Require Import Base Text TextParse TextSplit LogModel TraceModel TraceSpec TraceProofs TraceProofs2.
Local Open Scope Z_scope.

Lemma find_nodup (l : list (Z * object)) fd o : NoDup (map fst l) -> In (fd, o) l -> find (fun x => fst x =? fd) l = Some (fd, o).
Proof.
  induction l as [|[f x] l IH]; intros N I; [contradiction|]. cbn [map fst] in N. inversion N as [|y z N1 N2]; subst. cbn [find fst].
  destruct I as [I|I].
  - apply pair_equal_spec in I as [-> ->]. now rewrite Z.eqb_refl.
  - destruct (Z.eqb_spec f fd) as [->|]; [|exact (IH N2 I)]. exfalso. apply N1. now apply (in_map fst) in I.
Qed.
Lemma object_held k0 k hw h w : inv k0 k hw -> In (h, w) hw -> object_at (held_fd h) k = Some (w_obj w).
Proof.
  intros I H. unfold object_at. rewrite (find_nodup _ (held_fd h) (w_obj w)); [reflexivity|exact (so_once k (in_sound _ _ _ I))|].
  rewrite (in_fds _ _ _ I). apply in_or_app. right. apply (in_map zip) in H. exact H.
Qed.

Lemma new_numbers k0 k hw : inv k0 k hw -> ~ In (length (k_links k)) (all_links hw) /\ (length (k_links k0) <= length (k_links k))%nat /\ ~ In (length (k_perfs k)) (all_perfs hw) /\ (length (k_perfs k0) <= length (k_perfs k))%nat.
Proof.
  intros [I1 I2 I3 [ps I4] [ls I5] I6 I7 I8 I9]. destruct (all_lt k hw I3) as [A B]. repeat split.
  - intros H. specialize (A _ H). lia.
  - rewrite I5, app_length. lia.
  - intros H. specialize (B _ H). lia.
  - rewrite I4, app_length. lia.
Qed.

Lemma inv_linked k0 k k' hw g s ps fd h w : inv k0 k hw -> linked g s ps fd k k' -> held_fd h = fd ->
  w_obj w = OLink (length (k_links k)) -> w_links w = [length (k_links k)] -> (w_perfs w = [] \/ w_perfs w = [length (k_perfs k)]) -> entry_ok k' (h, w) ->
  (forall m, s = AtPerf m -> (m < length (k_perfs k'))%nat) -> inv k0 k' (hw ++ [(h, w)]).
Proof.
  intros I [L1 L2 L3 L4] HF WO WL WP E SM. destruct (new_numbers k0 k hw I) as (N1 & N2 & N3 & N4). apply (inv_add k0 k k' hw h w fd); try assumption.
  - now symmetry.
  - now rewrite WO.
  - now exists ps.
  - eexists. exact L4.
  - rewrite WL. repeat constructor. intros [].
  - destruct WP as [-> | ->]; repeat constructor. intros [].
  - rewrite WL. intros n [<- |[]]. split; assumption.
  - destruct WP as [-> | ->]; [contradiction|]. intros n [<- |[]]. split; assumption.
  - intros n l m H1 H2. rewrite L4 in H1. destruct (Nat.lt_ge_cases n (length (k_links k))) as [A|A].
    + rewrite nth_error_app1 in H1 by assumption. now left.
    + right. rewrite nth_error_app2 in H1 by assumption. apply nth_error_In in H1 as [<- |[]]. exact (SM m H2).
Qed.

Lemma inv_evented k0 k k' hw g id fd : inv k0 k hw -> evented g id fd k k' ->
  inv k0 k' (hw ++ [(HPoint (LPerf fd) g id, {| w_obj := OPerf (length (k_perfs k)); w_links := []; w_perfs := [length (k_perfs k)] |})]).
Proof.
  intros I [L1 L2 L3 L4]. destruct (new_numbers k0 k hw I) as (N1 & N2 & N3 & N4). apply (inv_add k0 k k' hw _ _ fd); cbn [w_obj w_links w_perfs]; try assumption.
  - reflexivity.
  - eexists. exact L3.
  - exists []. now rewrite app_nil_r.
  - apply ok_perf. rewrite L3. apply nth_last.
  - constructor.
  - repeat constructor. intros [].
  - contradiction.
  - intros n [<- |[]]. split; assumption.
  - intros n l m H1 H2. left. now rewrite <- L4.
Qed.

(** A link is dropped. *)
Lemma inv_close k0 k a h w b : inv k0 k (a ++ (h, w) :: b) -> inv k0 (close (held_fd h) k) (a ++ b).
Proof. intros I. apply (inv_drop k0 k _ a h w b I); [reflexivity|reflexivity|reflexivity|now left]. Qed.
Lemma inv_call k0 k f k1 hw : inv k0 k hw -> call k = (f, k1) -> inv k0 k1 hw.
Proof.
  intros I C. apply call_same in C as (C1 & C2 & C3 & C4). apply (inv_grows k0 k k1 hw I). constructor; rewrite ?C1, ?C2, ?C3, ?C4; [reflexivity|lia| |].
  - exists []. now rewrite app_nil_r.
  - exists []. split; [now rewrite app_nil_r|contradiction].
Qed.
Lemma inv_detach k0 k a h w b l : link_of h = Some l -> inv k0 k (a ++ (h, w) :: b) -> inv k0 (detach l k) (a ++ b).
Proof.
  intros LH I. assert (held_fd h = fd_of l) as HF. { destruct h; cbn [link_of] in LH; [apply some_inj in LH as <-; reflexivity|apply some_inj in LH as <-; reflexivity|discriminate LH]. }
  destruct l as [fd|fd]; cbn [detach fd_of] in *.
  - rewrite <- HF. exact (inv_close k0 k a h w b I).
  - unfold ioctl. destruct (call k) as [f k1] eqn:C. pose proof (inv_call k0 k f k1 _ I C) as I'. destruct f.
    + rewrite <- HF. exact (inv_close k0 k1 a h w b I').
    + rewrite <- HF. rewrite (object_held k0 k1 _ h w I') by (apply in_or_app; right; now left).
      assert (exists n, w_obj w = OPerf n /\ In n (w_perfs w)) as (n & WO & WP).
      { pose proof (in_ok _ _ _ I') as E. apply Forall_app in E as [_ E]. apply Forall_inv in E. inversion E; subst; cbn [link_of] in LH; try discriminate LH. exists n. split; [reflexivity|now left]. }
      rewrite WO. destruct (nth_error (k_perfs k1) n) as [p|] eqn:P.
      * apply (inv_drop k0 k1 _ a h w b I'); [reflexivity|reflexivity|reflexivity|]. right. now exists n, (set_on false p).
      * exact (inv_close k0 k1 a h w b I').
Qed.
Lemma inv_file k0 k a l g w b r k' : into_file l k = (r, k') -> inv k0 k (a ++ (HIter l g, w) :: b) ->
  match r with Ok fd => exists w', inv k0 k' (a ++ b ++ [(HFile fd g, w')]) | Err _ => inv k0 k' (a ++ b) end.
Proof.
  intros H I. assert (exists fd n, l = LFd fd /\ w = {| w_obj := OLink n; w_links := [n]; w_perfs := [] |} /\ nth_error (k_links k) n = Some {| kl_prog := g; kl_site := AtIter; kl_cookie := None |}) as (fd & n & -> & -> & NL).
  { pose proof (in_ok _ _ _ I) as E. apply Forall_app in E as [_ E]. apply Forall_inv in E. inversion E; subst. now exists fd, n. }
  cbn [into_file] in H. unfold iter_create in H. destruct (call k) as [f k1] eqn:C. pose proof (inv_call k0 k f k1 _ I C) as I'. apply call_same in C as (C1 & C2 & C3 & C4). destruct f.
  - apply pair_equal_spec in H as [<- <-]. exact (inv_close k0 k1 a _ _ b I').
  - assert (In (HIter (LFd fd) g, {| w_obj := OLink n; w_links := [n]; w_perfs := [] |}) (a ++ (HIter (LFd fd) g, {| w_obj := OLink n; w_links := [n]; w_perfs := [] |}) :: b)) as HERE by (apply in_or_app; right; now left).
    pose proof (object_held k0 k1 _ _ _ I' HERE) as O. cbn [held_fd fd_of w_obj] in O. rewrite O in H. rewrite C2, NL in H. cbn [kl_site new_fd] in H.
    apply pair_equal_spec in H as [<- <-]. pose proof (inv_close k0 k1 a _ _ b I') as D. cbn [held_fd fd_of] in D.
    exists {| w_obj := OIter n; w_links := [n]; w_perfs := [] |}. rewrite app_assoc.
    assert (fd < k_next k1) as OLD.
    { apply (so_old k1 (in_sound _ _ _ I') fd (OLink n)). rewrite (in_fds _ _ _ I'). apply in_or_app. right. apply (in_map zip _ (HIter (LFd fd) g, {| w_obj := OLink n; w_links := [n]; w_perfs := [] |})). apply in_or_app. right. now left. }
    pose proof (in_once_l _ _ _ I') as ONCE. unfold all_links in ONCE. rewrite flat_map_app in ONCE. cbn [flat_map snd w_links] in ONCE. apply nodup_mid in ONCE as [_ ONCE].
    apply (inv_add k0 (close fd k1) _ (a ++ b) _ _ (k_next k1) D); cbn [held_fd fd_of w_obj w_links w_perfs close k_fds k_perfs k_links k_next].
    + reflexivity.
    + lia.
    + rewrite filter_app. cbn [filter fst]. replace (k_next k1 =? fd) with false by lia. reflexivity.
    + exists []. now rewrite app_nil_r.
    + exists []. now rewrite app_nil_r.
    + apply ok_file. cbn [close k_links]. now rewrite C2.
    + repeat constructor. intros [].
    + constructor.
    + intros j [<- |[]]. split.
      * unfold all_links. rewrite flat_map_app. apply ONCE. now left.
      * apply (in_new_l _ _ _ I'). unfold all_links. rewrite flat_map_app. apply in_or_app. right. now left.
    + contradiction.
    + intros j lk m Q _. now left.
Qed.

Lemma mounted_once e t t' : mounted e t -> mounted e t' -> t = t'.
Proof. intros A B. apply tracefs_eq in A, B. congruence. Qed.

Lemma split_held (hw : list (held * own)) a h b : a ++ h :: b = map fst hw -> exists x w y, hw = x ++ (h, w) :: y /\ map fst x = a /\ map fst y = b.
Proof.
  intros H. symmetry in H. apply map_eq_app in H as (x & y & -> & A & B). apply map_eq_cons in B as ([h' w] & z & -> & B1 & B2). cbn [fst] in B1. subst h'. now exists x, w, z.
Qed.

Definition accounted (k0 k : kernel) (t : list held) : Prop := exists hw, t = map fst hw /\ inv k0 k hw.

Lemma step_accounted k0 s s' : step s s' -> accounted k0 (fst s) (snd s) -> accounted k0 (fst s') (snd s').
Proof.
  intros H (hw & T & I). inversion H as [e g category name id k t l k' C N R F A|e g category name k t x k' A|g k t l k' A|g k t x k' A|k a h b l L|k a l g b fd k' A|k a l g b x k' A|k a h l b x k' L A|k a fd g b]; subst s s'; cbn [fst snd] in *; subst; unfold accounted.
  - destruct F as (p & M & F). apply attach_shape in A; [|exact (in_sound _ _ _ I)]. destruct A as (p' & id' & M' & RD & A).
    rewrite (mounted_once e p' p M' M) in RD. rewrite (reads_id e p category name id M C N R F) in RD. apply ok_inj in RD as <-.
    destruct l as [fd|fd]; destruct A as [_ A].
    + exists (hw ++ [(HPoint (LFd fd) g id, {| w_obj := OLink (length (k_links k)); w_links := [length (k_links k)]; w_perfs := [length (k_perfs k)] |})]).
      split; [now rewrite map_app|]. eapply inv_linked; try exact A; try exact I; try reflexivity; cbn [w_perfs].
      * now right.
      * eapply ok_link; [rewrite (ln_links _ _ _ _ _ _ A); apply nth_last|rewrite (ln_perfs _ _ _ _ _ _ A); apply nth_last|reflexivity|reflexivity].
      * intros m Q. injection Q as <-. rewrite (ln_perfs _ _ _ _ _ _ A), app_length. cbn [length]. lia.
    + eexists. split; [|exact (inv_evented k0 k k' hw g id fd I A)]. now rewrite map_app.
  - exists hw. split; [reflexivity|]. destruct g as [g|].
    + apply attach_shape in A; [|exact (in_sound _ _ _ I)]. exact (inv_grows _ _ _ _ I A).
    + cbn [attach_trace_point] in A. apply pair_equal_spec in A as [_ <-]. exact I.
  - apply iter_shape in A as (fd & -> & A). exists (hw ++ [(HIter (LFd fd) g, {| w_obj := OLink (length (k_links k)); w_links := [length (k_links k)]; w_perfs := [] |})]).
    split; [now rewrite map_app|]. eapply inv_linked; try exact A; try exact I; try reflexivity; cbn [w_perfs].
    + now left.
    + apply ok_iter. rewrite (ln_links _ _ _ _ _ _ A). apply nth_last.
    + discriminate.
  - exists hw. split; [reflexivity|]. destruct g as [g|].
    + apply iter_shape in A. exact (inv_grows _ _ _ _ I A).
    + cbn [attach_iter] in A. apply pair_equal_spec in A as [_ <-]. exact I.
  - apply split_held in T as (x & w & y & -> & <- & <-). exists (x ++ y). split; [now rewrite map_app|]. exact (inv_detach _ _ _ _ _ _ _ L I).
  - apply split_held in T as (x & w & y & -> & <- & <-). destruct (inv_file _ _ _ _ _ _ _ _ _ A I) as [w' I']. eexists. split; [|exact I']. now rewrite !map_app.
  - apply split_held in T as (x' & w & y & -> & <- & <-). exists (x' ++ y). split; [now rewrite map_app|]. exact (inv_file _ _ _ _ _ _ _ _ _ A I).
  - apply split_held in T as (x' & w & y & -> & <- & <-). exists (x' ++ y). split; [now rewrite map_app|].
    destruct l as [fd|fd]; cbn [into_fd_link] in A; [apply pair_equal_spec in A as [A _]; discriminate A|]. apply pair_equal_spec in A as [_ <-].
    replace fd with (held_fd h); [exact (inv_close _ _ _ _ _ _ I)|]. destruct h; cbn [link_of] in L; try discriminate L; apply some_inj in L as ->; reflexivity.
  - apply split_held in T as (x & w & y & -> & <- & <-). exists (x ++ y). split; [now rewrite map_app|]. exact (inv_close _ _ _ _ _ _ I).
Qed.

(** * What runs *)

Definition reasons (hw : list (held * own)) : list reason :=
  flat_map (fun x => match fst x, w_obj (snd x) with HPoint _ _ _, OLink n => [ByLink n] | HPoint _ _ _, OPerf n => [ByPerf n] | _, _ => [] end) hw.

Lemma alive_held k0 k hw n : inv k0 k hw -> (link_alive k n <-> link_alive k0 n \/ In n (all_links hw)).
Proof.
  intros I. assert (In n (all_links hw) <-> exists x, In x hw /\ (w_obj (snd x) = OLink n \/ w_obj (snd x) = OIter n)) as Q.
  { pose proof (in_ok _ _ _ I) as E. rewrite Forall_forall in E. unfold all_links. rewrite in_flat_map. split; intros (x & X & Y); exists x; (split; [exact X|]); specialize (E x X); inversion E; subst; cbn [snd w_links w_obj] in *.
    - destruct Y as [<- |[]]. now left.
    - contradiction.
    - destruct Y as [<- |[]]. now left.
    - destruct Y as [<- |[]]. now right.
    - destruct Y as [Y|Y]; [injection Y as ->; now left|discriminate Y].
    - destruct Y as [Y|Y]; discriminate Y.
    - destruct Y as [Y|Y]; [injection Y as ->; now left|discriminate Y].
    - destruct Y as [Y|Y]; [discriminate Y|injection Y as ->; now left]. }
  unfold link_alive. rewrite (in_fds _ _ _ I), Q. split.
  - intros (fd & H). rewrite !in_app_iff, !in_map_iff in H. destruct H as [[H|(x & X & H)]|[H|(x & X & H)]]; [left; exists fd; now left| |left; exists fd; now right|].
    + right. exists x. split; [exact H|]. left. now injection X as _ ->.
    + right. exists x. split; [exact H|]. right. now injection X as _ ->.
  - intros [(fd & H)|(x & X & H)].
    + exists fd. rewrite !in_app_iff. tauto.
    + exists (held_fd (fst x)). rewrite !in_app_iff. destruct H as [H|H]; [left|right]; right; rewrite <- H; exact (in_map zip _ _ X).
Qed.
Lemma open_held k0 k hw n : inv k0 k hw -> (perf_open_at k n <-> perf_open_at k0 n \/ exists x, In x hw /\ w_obj (snd x) = OPerf n).
Proof.
  intros I. unfold perf_open_at. rewrite (in_fds _ _ _ I). split.
  - intros (fd & H). rewrite in_app_iff, in_map_iff in H. destruct H as [H|(x & X & H)]; [left; now exists fd|]. right. exists x. split; [exact H|]. now injection X as _ ->.
  - intros [(fd & H)|(x & X & H)].
    + exists fd. rewrite in_app_iff. now left.
    + exists (held_fd (fst x)). rewrite in_app_iff. right. rewrite <- H. exact (in_map zip _ _ X).
Qed.

Lemma sound_alive k n : sound k -> link_alive k n -> (n < length (k_links k))%nat.
Proof. intros S (fd & [H|H]); exact (so_there k S _ _ H). Qed.
Lemma sound_open k n : sound k -> perf_open_at k n -> (n < length (k_perfs k))%nat.
Proof. intros S (fd & H); exact (so_there k S _ _ H). Qed.

(** Links and events of before run what they ran. *)
Lemma runs_old k0 k hw r : sound k0 -> inv k0 k hw -> (match r with ByLink n => (n < length (k_links k0))%nat | ByPerf n => (n < length (k_perfs k0))%nat end) ->
  forall g i c, runs k r g i c <-> runs k0 r g i c.
Proof.
  intros S I L g i c. pose proof (in_perfs _ _ _ I) as [ps P]. pose proof (in_links _ _ _ I) as [ls K]. destruct r as [n|n]; cbn [runs].
  - rewrite (alive_held k0 k hw n I). assert (~ In n (all_links hw)) as NI. { intros H. apply (in_new_l _ _ _ I) in H. lia. }
    rewrite K, nth_error_app1 by assumption. split.
    + intros ([A|A] & m & p & B & C & D); [|contradiction]. split; [exact A|]. exists m, p. split; [exact B|]. split; [|exact D].
      pose proof (so_site k0 S n _ m B eq_refl) as M. rewrite P, nth_error_app1 in C by assumption. exact C.
    + intros (A & m & p & B & C & D). split; [now left|]. exists m, p. split; [exact B|]. split; [|exact D]. rewrite P. now apply nth_old.
  - rewrite (open_held k0 k hw n I). rewrite P, nth_error_app1 by assumption. split.
    + intros ([A|(x & X & A)] & B); [now split|]. exfalso. assert (In n (all_perfs hw)) as H; [|apply (in_new_p _ _ _ I) in H; lia].
      apply in_flat_map. exists x. split; [exact X|]. pose proof (in_ok _ _ _ I) as E. rewrite Forall_forall in E. specialize (E x X). inversion E; subst; cbn [snd w_obj w_perfs] in *; try discriminate A. injection A as ->. now left.
    + intros (A & B). split; [now left|exact B].
Qed.

Lemma reasons_in hw r : In r (reasons hw) -> exists x, In x hw /\ match fst x, w_obj (snd x) with HPoint _ _ _, OLink n => r = ByLink n | HPoint _ _ _, OPerf n => r = ByPerf n | _, _ => False end.
Proof.
  intros H. apply in_flat_map in H as (x & X & H). exists x. split; [exact X|]. destruct (fst x); try contradiction. destruct (w_obj (snd x)); try contradiction; destruct H as [<- |[]]; reflexivity.
Qed.

Lemma reasons_new k0 k hw r : inv k0 k hw -> In r (reasons hw) -> match r with ByLink n => In n (all_links hw) | ByPerf n => In n (all_perfs hw) end.
Proof.
  intros I H. apply reasons_in in H as (x & X & H). pose proof (in_ok _ _ _ I) as E. rewrite Forall_forall in E. specialize (E x X).
  inversion E; subst; cbn [fst snd w_obj] in H; try contradiction; subst r; apply in_flat_map; eexists; (split; [exact X|]); cbn; now left.
Qed.

Lemma reasons_nodup k0 k hw : inv k0 k hw -> NoDup (reasons hw).
Proof.
  intros I. pose proof (in_ok _ _ _ I) as E. pose proof (in_once_l _ _ _ I) as NL. pose proof (in_once_p _ _ _ I) as NP. clear I.
  induction E as [|x hw H E IH]; [constructor|]. unfold all_links, all_perfs in NL, NP. cbn [flat_map] in NL, NP.
  assert (forall (u v : list nat), NoDup (u ++ v) -> NoDup v /\ forall n, In n u -> ~ In n v) as ND.
  { intros u v N. apply (nodup_mid [] u v) in N as [N1 N2]. split; [exact N1|exact N2]. }
  apply ND in NL as [NL DL]. apply ND in NP as [NP DP]. specialize (IH NL NP).
  assert (forall r, In r (reasons hw) -> match r with ByLink n => In n (all_links hw) | ByPerf n => In n (all_perfs hw) end) as NEW.
  { intros r R. apply reasons_in in R as (y & Y & R). rewrite Forall_forall in E. specialize (E y Y). inversion E; subst; cbn [fst snd w_obj] in R; try contradiction; subst r; apply in_flat_map; eexists; (split; [exact Y|]); cbn; now left. }
  inversion H; subst; cbn [reasons flat_map fst snd w_obj app]; fold (reasons hw); try exact IH.
  - constructor; [|exact IH]. intros R. apply NEW in R. apply (DL n); [now left|exact R].
  - constructor; [|exact IH]. intros R. apply NEW in R. apply (DP n); [now left|exact R].
Qed.

Lemma runs_held k0 k hw x : inv k0 k hw -> In x hw ->
  match fst x, w_obj (snd x) with
  | HPoint _ g i, OLink n => forall g' i' c, runs k (ByLink n) g' i' c <-> (g', i') = (g, i) /\ c = None
  | HPoint _ g i, OPerf n => forall g' i' c, runs k (ByPerf n) g' i' c <-> (g', i') = (g, i) /\ c = None
  | _, OPerf _ => False
  | _, OLink n | _, OIter n => forall g' i' c, ~ runs k (ByLink n) g' i' c
  end.
Proof.
  intros I X. pose proof (in_ok _ _ _ I) as E. rewrite Forall_forall in E. specialize (E x X). inversion E as [fd g i n m p Q1 Q2 Q3 Q4|fd g i n Q1|fd g n Q1|fd g n Q1]; subst x; cbn [fst snd w_obj]; intros g' i' c; cbn [runs].
  - rewrite Q1. split.
    + intros (_ & m' & p' & A & B & C & D). injection A as <- <- <-. rewrite Q2 in B. apply some_inj in B as <-. split; [now rewrite <- C, <- Q3|reflexivity].
    + intros [A ->]. injection A as -> ->. split.
      * apply (alive_held k0 k hw n I). right. apply in_flat_map. eexists. split; [exact X|]. now left.
      * now exists m, p.
  - rewrite Q1. split.
    + intros (_ & -> & A). injection A as <- <-. now split.
    + intros [A ->]. injection A as -> ->. split; [|now split]. apply (open_held k0 k hw n I). right. eexists. split; [exact X|reflexivity].
  - rewrite Q1. intros (_ & m & p & A & _). discriminate A.
  - rewrite Q1. intros (_ & m & p & A & _). discriminate A.
Qed.

Lemma accounted_accounts k0 k t : sound k0 -> accounted k0 k t -> accounts k0 k t.
Proof.
  intros S (hw & -> & I). pose proof (in_ok _ _ _ I) as E. split; [|split].
  - rewrite (in_fds _ _ _ I), map_app, !map_map. reflexivity.
  - exists (reasons hw). split; [exact (reasons_nodup k0 k hw I)|]. split; [|split].
    + assert (forall l, (forall x, In x l -> In x hw) -> Forall2 (fun gi r => forall g i c, runs k r g i c <-> (g, i) = gi /\ c = None) (points (map fst l)) (reasons l)) as G; [|now apply G].
      induction l as [|x l IH]; intros SUB; [constructor|]. specialize (IH (fun y Y => SUB y (or_intror Y))). pose proof (runs_held k0 k hw x I (SUB x (or_introl eq_refl))) as R.
      rewrite Forall_forall in E. specialize (E x (SUB x (or_introl eq_refl))). inversion E; subst; cbn [fst snd w_obj] in R; cbn [map fst points flat_map reasons snd w_obj app]; fold (points (map fst l)); fold (reasons l); try exact IH; constructor; assumption.
    + intros r R g i c H. apply (reasons_new k0 k hw r I) in R. destruct r as [n|n]; destruct H as [H _].
      * apply (in_new_l _ _ _ I) in R. apply (sound_alive k0 n S) in H. lia.
      * apply (in_new_p _ _ _ I) in R. apply (sound_open k0 n S) in H. lia.
    + intros r R g i c. destruct r as [n|n].
      * destruct (Nat.lt_ge_cases n (length (k_links k0))) as [A|A]; [exact (runs_old k0 k hw (ByLink n) S I A g i c)|]. split.
        -- intros H. exfalso. pose proof H as [H' _]. apply (alive_held k0 k hw n I) in H' as [H'|H']; [apply (sound_alive k0 n S) in H'; lia|].
           apply in_flat_map in H' as (x & X & Y). pose proof (runs_held k0 k hw x I X) as Q. rewrite Forall_forall in E. specialize (E x X). inversion E; subst; cbn [fst snd w_obj w_links] in *; try contradiction; destruct Y as [<- |[]].
           ++ apply R. apply in_flat_map. eexists. split; [exact X|]. now left.
           ++ exact (Q _ _ _ H).
           ++ exact (Q _ _ _ H).
        -- intros [H _]. apply (sound_alive k0 n S) in H. lia.
      * destruct (Nat.lt_ge_cases n (length (k_perfs k0))) as [A|A]; [exact (runs_old k0 k hw (ByPerf n) S I A g i c)|]. split.
        -- intros H. exfalso. pose proof H as [H' _]. apply (open_held k0 k hw n I) in H' as [H'|(x & X & Y)]; [apply (sound_open k0 n S) in H'; lia|].
           rewrite Forall_forall in E. specialize (E x X). inversion E; subst; cbn [fst snd w_obj w_links] in *; try discriminate Y. injection Y as ->.
           apply R. apply in_flat_map. eexists. split; [exact X|]. now left.
        -- intros [H _]. apply (sound_open k0 n S) in H. lia.
  - intros fd g. unfold gives. pose proof (in_links _ _ _ I) as [ls K]. split.
    + intros (n & c & A & B). rewrite (in_fds _ _ _ I) in A. apply in_app_or in A as [A|A].
      * left. exists n, c. split; [exact A|]. pose proof (so_there k0 S _ _ A) as L. cbn in L. rewrite K, nth_error_app1 in B by exact L. exact B.
      * right. apply in_map_iff in A as (x & A & X). rewrite Forall_forall in E. specialize (E x X). inversion E as [fd' g' i' n' m p Q1 Q2 Q3 Q4|fd' g' i' n' Q1|fd' g' n' Q1|fd' g' n' Q1]; subst x; cbn in A; try discriminate A. injection A as -> ->.
        rewrite Q1 in B. injection B as -> _. apply (in_map fst) in X. exact X.
    + intros [(n & c & A & B)|H].
      * exists n, c. split; [rewrite (in_fds _ _ _ I); apply in_or_app; now left|]. rewrite K. now apply nth_old.
      * apply in_map_iff in H as (x & A & X). rewrite Forall_forall in E. specialize (E x X). inversion E as [fd' g' i' n' m p Q1 Q2 Q3 Q4|fd' g' i' n' Q1|fd' g' n' Q1|fd' g' n' Q1]; subst x; cbn [fst] in A; try discriminate A. injection A as -> ->.
        exists n', None. split; [|exact Q1]. rewrite (in_fds _ _ _ I). apply in_or_app. right. exact (in_map zip _ _ X).
Qed.

Theorem steps_account k0 k t : sound k0 -> steps (k0, []) (k, t) -> accounts k0 k t.
Proof.
  intros S H. apply accounted_accounts; [exact S|]. remember (k0, []) as s eqn:Q. remember (k, t) as s' eqn:Q'.
  assert (forall s s', steps s s' -> accounted k0 (fst s) (snd s) -> accounted k0 (fst s') (snd s')) as G.
  { clear. intros s s'. induction 1 as [|s s' s'' H IH ST]; [tauto|]. intros A. exact (step_accounted k0 s' s'' ST (IH A)). }
  apply G in H; [subst; exact H|]. subst. exists []. split; [reflexivity|]. now apply inv_start.
Qed.
