(** The statements of C99. *)
From Coq Require Import String.
From Verif Require Import Base Text SockModel SockSpec SockProofs SockProofs2 SockProofs3 SockProofs4.
Open Scope Z_scope.

Lemma fresh_good T : fresh_start T -> good T.
Proof.
  intros [E U]. unfold good. rewrite E. split.
  - constructor; cbn; try (intros; contradiction); try constructor; try (intros H; contradiction).
    + intros n g. unfold group_of. cbn. destruct n; intros H; discriminate H.
    + intros [I|[(fd & I)|(fd & n & I & _)]]; contradiction.
  - constructor.
    + intros i p fd I F. rewrite (U p (nth_error_In _ _ I)) in F. discriminate F.
    + intros i j p q fd I _ F _. rewrite (U p (nth_error_In _ _ I)) in F. discriminate F.
Qed.

Lemma reached_good M T : reached M T -> good T.
Proof. intros (T0 & h & F & ->). apply run_good. now apply fresh_good. Qed.

Lemma reached_run M T h : reached M T -> reached M (run M h T).
Proof.
  intros (T0 & h0 & F & ->). exists T0, (h0 ++ h)%list. split; [exact F|]. clear F. revert T0.
  induction h0 as [|o h0 IH]; intros T0; cbn [run app]; [reflexivity|apply IH].
Qed.

Lemma attach_right M T i p v sk id t n s : reached M T -> nth_error (st_progs T) i = Some p ->
  stands_for p (st_kern T) id t -> opens (st_kern T) sk n s ->
  match attach M (st_kern T) v p sk with
  | (Ok _, K') => takes v t s /\ sound K' /\ only_slot v n (Some id) (st_kern T) K'
  | (Err e, K') => ~ takes v t s /\ K' = st_kern T /\ exists c, e = reported v true c
  end.
Proof.
  intros R I [(fd & P & X) Y] [F A]. apply reached_good in R as [S O].
  pose proof (attach_spec M (st_kern T) p fd id S P X v n s sk t F A Y) as H.
  destruct (attach M (st_kern T) v p sk) as [[u|e] K'] eqn:E; [exact H|].
  split; [exact H|]. apply attach_err in E as [-> [[P' _]|[_ C]]]; [congruence|]. split; [reflexivity|exact C].
Qed.

Lemma detach_right M T v sk n s : reached M T -> opens (st_kern T) sk n s ->
  match detach M (st_kern T) v sk with
  | (Ok _, K') => gives_up M v (st_kern T) n s /\ sound K' /\ only_slot v n None (st_kern T) K'
  | (Err e, K') => ~ gives_up M v (st_kern T) n s /\ K' = st_kern T /\ exists c, e = reported v false c
  end.
Proof.
  intros R [F A]. apply reached_good in R as [S O].
  pose proof (detach_spec M (st_kern T) v n s sk S F A) as H.
  destruct (detach M (st_kern T) v sk) as [[u|e] K'] eqn:E; [exact H|].
  split; [exact H|]. apply detach_err in E as [-> C]. split; [reflexivity|exact C].
Qed.

Lemma refused M T i p v sk : reached M T -> nth_error (st_progs T) i = Some p ->
  (p_fd p = None -> attach M (st_kern T) v p sk = (Err NotLoaded, st_kern T)) /\
  ((forall n, ~ In (sk, FSock n) (k_files (st_kern T))) -> p_fd p <> None ->
     exists c, attach M (st_kern T) v p sk = (Err (reported v true c), st_kern T) /\ (c = 9 \/ c = 88)) /\
  ((forall n, ~ In (sk, FSock n) (k_files (st_kern T))) ->
     exists c, detach M (st_kern T) v sk = (Err (reported v false c), st_kern T) /\ (c = 9 \/ c = 88)).
Proof.
  intros R I.
  assert (C : forall opt x w, (forall n, ~ In (sk, FSock n) (k_files (st_kern T))) ->
    exists c, call M (st_kern T) sk opt x w = (Err (w c), st_kern T) /\ (c = 9 \/ c = 88)).
  { intros opt x w N. unfold call, setsockopt. destruct (file_at (st_kern T) sk) as [[n|y|]|] eqn:F.
    - contradiction (N n (file_in _ _ _ F)).
    - exists ENOTSOCK. auto.
    - exists ENOTSOCK. auto.
    - exists EBADF. auto. }
  repeat apply conj.
  - intros E. unfold attach. now rewrite E.
  - intros N L. unfold attach. destruct (p_fd p) as [fd|]; [|congruence]. destruct v; apply C; exact N.
  - intros N. destruct v; cbn [detach]; apply C; exact N.
Qed.

Lemma converts v p : (same_kind v (p_variant p) -> as_view v p = Ok p) /\ (~ same_kind v (p_variant p) -> as_view v p = Err UnexpectedProgramType).
Proof.
  unfold same_kind, as_view. destruct v, (p_variant p); split; intros H; try reflexivity;
    try (exfalso; apply H; now (left + (right; split; discriminate)));
    destruct H as [H|[H1 H2]]; try discriminate H; congruence.
Qed.

Lemma filter_stays M T h n : reached M T -> (n < length (k_socks (st_kern T)))%nat -> never M (fun K o => changes_filter K o n) h T ->
  let K' := st_kern (run M h T) in
  filter_of K' n = filter_of (st_kern T) n /\
  forall id fd, filter_of (st_kern T) n = Some id -> In (fd, FSock n) (k_files K') -> exists_prog K' id.
Proof.
  intros R L N K'. pose proof (run_filter M h T n (reached_good M T R) L N) as E. split; [exact E|].
  intros id fd F I. destruct (reached_good M _ (reached_run M T h R)) as [S _]. apply (snd_needed _ S). right. right.
  exists fd, n. split; [exact I|]. left. unfold K'. now rewrite E.
Qed.

Lemma selector_stays M T h g : reached M T -> (g < length (k_groups (st_kern T)))%nat -> never M (fun K o => changes_selector K o g) h T ->
  let K' := st_kern (run M h T) in
  selector K' g = selector (st_kern T) g /\
  forall id fd n, selector (st_kern T) g = Some id -> In (fd, FSock n) (k_files K') -> group_of K' n = Some g -> exists_prog K' id.
Proof.
  intros R L N K'. pose proof (run_selector M h T g (reached_good M T R) L N) as E. split; [exact E|].
  intros id fd n F I G. destruct (reached_good M _ (reached_run M T h R)) as [S _]. apply (snd_needed _ S). right. right.
  exists fd, n. split; [exact I|]. right. unfold selector_of. fold K'. rewrite G. unfold K'. rewrite E. exact F.
Qed.

Lemma freed M T id : reached M T -> (exists_prog (st_kern T) id <-> needed (st_kern T) id).
Proof. intros R. apply reached_good in R as [S _]. apply (snd_needed _ S). Qed.

(** Errors of detaching from a socket without a group. *)
Lemma detach_group_error M T v sk n s : reached M T -> opens (st_kern T) sk n s -> own_slot v = false -> m_detach M = true -> s_group s = None ->
  detach M (st_kern T) v sk = (Err (reported v false (if s_reuse s then 2 else 22)), st_kern T).
Proof.
  intros R [F A] V D G. apply reached_good in R as [S _]. pose proof (snd_fds _ S) as N.
  destruct v; [discriminate V| |]; cbn [detach]; unfold call; rewrite (setsockopt_at M _ sk n s _ 0 N F A);
    change (SO_DETACH_REUSEPORT_BPF =? 50) with false; change (SO_DETACH_REUSEPORT_BPF =? 27) with false;
    change (SO_DETACH_REUSEPORT_BPF =? 52) with false; change (SO_DETACH_REUSEPORT_BPF =? 68) with true; rewrite D; cbn [andb];
    unfold reuseport_detach_prog; rewrite G; destruct (s_reuse s); reflexivity.
Qed.

(** Errors of attaching a selector where there is none to be. *)
Lemma attach_group_error M T i p v sk id t n s : reached M T -> nth_error (st_progs T) i = Some p ->
  stands_for p (st_kern T) id t -> opens (st_kern T) sk n s -> own_slot v = false -> s_locked s = false -> s_full s = false ->
  t = 1 \/ t = 21 /\ s_inet s = true -> s_group s = None -> s_reuse s = false \/ s_bound s = true ->
  attach M (st_kern T) v p sk = (Err (reported v true 22), st_kern T).
Proof.
  intros R I [(fd & P & X) Y] [F A] V L U TY G B. apply reached_good in R as [S O].
  assert (Q : forall ty, prog_get (st_kern T) fd ty = if t =? ty then Ok id else Err EINVAL).
  { intros ty. unfold prog_get. rewrite (in_file _ fd _ (snd_fds _ S) X).
    rewrite (assoc_nodup Z.eqb id (k_progs (st_kern T)) t); [reflexivity|intros; apply Z.eqb_eq|exact (snd_ids _ S)|exact Y]. }
  assert (Z : reuseport_attach_prog (st_kern T) n s id = (Some 22, st_kern T)).
  { unfold reuseport_attach_prog. rewrite G. destruct (s_bound s); [reflexivity|]. destruct B as [B|B]; [now rewrite B|discriminate B]. }
  assert (W : sk_reuseport_attach_bpf (st_kern T) n s fd = (Some 22, st_kern T)).
  { unfold sk_reuseport_attach_bpf. rewrite L, !Q, U. destruct TY as [->|[-> IN]]; cbn [Z.eqb Pos.eqb EINVAL]; [exact Z|]. rewrite IN. exact Z. }
  pose proof (snd_range _ S fd _ X) as RG. unfold attach. rewrite P.
  destruct v; [discriminate V| |]; unfold call; rewrite (setsockopt_at M _ sk n s _ fd (snd_fds _ S) F A), (int_round M fd RG);
    change (SO_ATTACH_REUSEPORT_EBPF =? 50) with false; change (SO_ATTACH_REUSEPORT_EBPF =? 27) with false;
    change (SO_ATTACH_REUSEPORT_EBPF =? 52) with true; cbn iota; rewrite W; reflexivity.
Qed.
