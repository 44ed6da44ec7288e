(** When calls work, and why they fail. *)
From Coq Require Import String.
From Verif Require Import Base Text TextParse TextSplit LogModel TraceModel TraceSpec TraceProofs TraceProofs2 TraceProofs3.
Local Open Scope Z_scope.

Lemma call_fails k f k1 : call k = (f, k1) -> (f = true -> ~ no_failure k) /\ (~ no_failure k1 -> ~ no_failure k).
Proof.
  unfold call, no_failure. destruct (k_fail k) as [|b r] eqn:F; intros H; apply pair_equal_spec in H as [<- <-].
  - split; [discriminate|]. rewrite F. tauto.
  - cbn [k_fail]. split.
    + intros -> H. apply Forall_inv in H. discriminate H.
    + intros N H. apply N. now apply Forall_inv_tail in H.
Qed.

Lemma perf_attach_why e g k fd n p x k' : object_at fd k = Some (OPerf n) -> nth_error (k_perfs k) n = Some p -> perf_attach e g fd None k = (Err x, k') ->
  exists c, x = ESyscall c /\ refused c (e_perf_link e) /\ ~ no_failure k.
Proof.
  intros O P. unfold perf_attach, refused. destruct (e_perf_link e).
  - unfold attach_bpf_link. rewrite O. unfold link_create. destruct (call k) as [f k1] eqn:C. apply call_fails in C as [F _]. destruct f.
    + intros H. apply pair_equal_spec in H as [H _]. injection H as <-. eexists. split; [reflexivity|]. split; [right; left; now split|now apply F].
    + cbn [new_fd]. intros H. apply pair_equal_spec in H as [H _]. discriminate H.
  - unfold attach_perf_event, ioctl. destruct (call k) as [f k1] eqn:C. pose proof (call_same _ _ _ C) as (C1 & C2 & C3 & C4). apply call_fails in C as [F G]. destruct f.
    + intros H. apply pair_equal_spec in H as [H _]. injection H as <-. eexists. split; [reflexivity|]. split; [right; right; split; [reflexivity|now left]|now apply F].
    + assert (object_at fd k1 = Some (OPerf n)) as O1. { unfold object_at in *. now rewrite C3. } rewrite O1, C1, P.
      destruct (call _) as [f k2] eqn:D in |- *. pose proof (call_same _ _ _ D) as (D1 & D2 & D3 & D4). cbn [k_perfs k_links k_fds k_next] in *. apply call_fails in D as [F' _]. destruct f.
      * intros H. apply pair_equal_spec in H as [H _]. injection H as <-. eexists. split; [reflexivity|]. split; [right; right; split; [reflexivity|now right]|]. apply G. exact (F' eq_refl).
      * assert (object_at fd k2 = Some (OPerf n)) as O2. { unfold object_at in *. now rewrite D3. }
        rewrite O2, D1, nth_error_upd_eq by (now apply nth_lt in P). intros H. apply pair_equal_spec in H as [H _]. discriminate H.
Qed.

Lemma attach_why e g category name k x k' : sound k -> plain category -> plain name -> attach_trace_point e g category name k = (Err x, k') -> why e g category name k x.
Proof.
  intros S PC PN. unfold attach_trace_point. destruct g as [g|].
  2: { intros H. apply pair_equal_spec in H as [H _]. injection H as <-. reflexivity. }
  destruct (find_tracefs e) as [t|] eqn:T.
  2: { intros H. apply pair_equal_spec in H as [H _]. injection H as <-. cbn [why]. intros t M. apply tracefs_eq in M. congruence. }
  apply tracefs_eq in T. destruct (read_id e t category name) as [id|y] eqn:I.
  2: { intros H. apply pair_equal_spec in H as [H _]. injection H as <-. assert (y = EFile (id_path t category name)) as ->.
       { unfold read_id in I. rewrite path_eq in I by eauto using tracefs_last. destruct (e_files e _) as [c|]; [|now injection I as <-]. destruct (negb (utf8 c)); [now injection I as <-|]. destruct (dec_u64 (trim c)); [discriminate I|now injection I as <-]. }
       cbn [why]. exists t. split; [exact T|]. split; [reflexivity|]. intros id R F. rewrite (reads_id e t category name id T PC PN R F) in I. discriminate I. }
  unfold perf_open. destruct (call k) as [f k1] eqn:C. pose proof (call_same _ _ _ C) as (C1 & C2 & C3 & C4). apply call_fails in C as [F G]. destruct f.
  - intros H. apply pair_equal_spec in H as [H _]. injection H as <-. cbn [why]. split; [now left|now apply F].
  - cbn [new_fd]. intros H. eapply perf_attach_why in H as (c & -> & R & N).
    + cbn [why]. split; [exact R|]. apply G. intros Q. apply N. exact Q.
    + unfold object_at. cbn [k_fds]. rewrite (find_new (k_next k1)); [reflexivity| |lia]. rewrite C3, C4. exact (so_old k S).
    + cbn [k_perfs]. apply nth_last.
Qed.

(** Attaching works when nothing is in the way. *)
Lemma attach_works e g category name id k : sound k -> plain category -> plain name -> 0 <= id < 2 ^ 64 -> numbered e category name id -> no_failure k ->
  exists l k', attach_trace_point e (Some g) category name k = (Ok l, k') /\ (match l with LFd _ => true | LPerf _ => false end) = e_perf_link e.
Proof.
  intros S PC PN R (t & M & F) NF. destruct (attach_trace_point e (Some g) category name k) as [[l|x] k'] eqn:A.
  - exists l, k'. split; [reflexivity|]. apply attach_shape in A; [|exact S]. destruct A as (t' & id' & _ & _ & A). destruct l; destruct A as [A _]; now rewrite A.
  - exfalso. apply attach_why in A; [|assumption..]. destruct x as [| |p|c| |]; cbn [why] in A; try contradiction; try discriminate A.
    + exact (A t M).
    + destruct A as (t' & M' & -> & A). rewrite (mounted_once e t' t M' M) in A. exact (A id R F).
    + now destruct A.
Qed.
Lemma iter_works g k : no_failure k -> exists l k', attach_iter (Some g) k = (Ok l, k').
Proof.
  intros N. unfold attach_iter, link_create. destruct (call k) as [f k1] eqn:C. apply call_fails in C as [F _]. destruct f; [now apply F in N|]. cbn [new_fd]. eauto.
Qed.
(** A link of an iterator becomes a file. *)
Lemma file_works k0 k a l g b : sound k0 -> steps (k0, []) (k, a ++ HIter l g :: b) -> no_failure k -> exists fd k', into_file l k = (Ok fd, k') /\ gives k' fd g.
Proof.
  intros S H N. assert (accounted k0 k (a ++ HIter l g :: b)) as A.
  { assert (forall s s', steps s s' -> accounted k0 (fst s) (snd s) -> accounted k0 (fst s') (snd s')) as G.
    { clear. intros s s'. induction 1 as [|s s' s'' H IH ST]; [tauto|]. intros A. exact (step_accounted k0 s' s'' ST (IH A)). }
    apply (G _ _ H). exists []. split; [reflexivity|]. now apply inv_start. }
  destruct (into_file l k) as [r k'] eqn:F. destruct r as [fd|x].
  - exists fd, k'. split; [reflexivity|]. pose proof (s_file k a l g b fd k' F) as ST. pose proof (steps_account k0 k' _ S (ss_more _ _ _ H ST)) as (_ & _ & Q). apply Q. right. apply in_or_app. right. apply in_or_app. right. now left.
  - exfalso. destruct A as (hw & T & I). apply split_held in T as (y & w & z & -> & <- & <-). pose proof (in_ok _ _ _ I) as E. apply Forall_app in E as [_ E]. apply Forall_inv in E. inversion E as [| |fd g' n Q1|]; subst.
    cbn [into_file] in F. unfold iter_create in F. destruct (call k) as [f k1] eqn:C. pose proof (inv_call k0 k f k1 _ I C) as I'. pose proof (call_same _ _ _ C) as (C1 & C2 & C3 & C4). apply call_fails in C as [C _]. destruct f; [now apply C in N|].
    assert (object_at fd k1 = Some (OLink n)) as O.
    { refine (object_held k0 k1 _ (HIter (LFd fd) g) {| w_obj := OLink n; w_links := [n]; w_perfs := [] |} I' _). apply in_or_app. right. now left. }
    rewrite O, C2, Q1 in F. cbn [kl_site new_fd] in F. apply pair_equal_spec in F as [F _]. discriminate F.
Qed.
