(** Loading, unloading, dropping and pinning. *)
From Coq Require Import String.
From Verif Require Import Base Text SockModel SockSpec SockProofs SockProofs2 SockProofs3 SockProofs4 SockProofs5.
Open Scope Z_scope.

Lemma load_right K v p fd id :
  (p_fd p <> None -> load K v p fd id = (Err AlreadyLoaded, p, K)) /\
  (p_fd p = None ->
   match load K v p fd id with
   | (Ok _, p', K') => p_variant p' = p_variant p /\ p_fd p' = Some fd /\ ~ In fd (map fst (k_files K)) /\ ~ exists_prog K id /\
       stands_for p' K' id (program_type v) /\ k_files K' = (fd, FProg id) :: k_files K /\ k_pins K' = k_pins K /\ sockets_same K K'
   | (Err e, p', K') => p' = p /\ K' = K /\ exists c, e = LoadError c
   end).
Proof.
  unfold load. split.
  - destruct (p_fd p); [reflexivity|congruence].
  - intros ->. unfold prog_load. destruct (free_fd K fd && _ && _) eqn:FR; [|split; [reflexivity|]; split; [reflexivity|]; now exists EMFILE].
    apply Bool.andb_true_iff in FR as [FR _]. apply Bool.andb_true_iff in FR as [FR NE]. apply free_fd_spec in FR as [_ NF].
    cbn [p_variant p_fd]. split; [reflexivity|]. split; [reflexivity|]. split.
    { intros X. apply in_map_iff in X as ((y, t) & E & X). cbn in E. subst y. exact (NF t X). }
    split.
    { intros X. apply in_map_iff in X as ((y, t) & E & X). cbn in E. subst y. apply Bool.negb_true_iff in NE.
      rewrite <- Bool.not_true_iff_false in NE. apply NE. apply existsb_exists. exists (id, t). split; [exact X|apply Z.eqb_refl]. }
    split.
    { split; [exists fd; split; [reflexivity|left; reflexivity]|]. cbn. left. now destruct v. }
    split; [reflexivity|]. split; [reflexivity|]. split; reflexivity.
Qed.

Lemma unload_right M T i p : nth_error (st_progs T) i = Some p ->
  (p_fd p = None -> step M (OUnload i) T = (RLib (Err NotLoaded), T) /\ step M (ODrop i) T = (RLib (Ok tt), T)) /\
  (forall fd, p_fd p = Some fd ->
     exists T', step M (OUnload i) T = (RLib (Ok tt), T') /\ step M (ODrop i) T = (RLib (Ok tt), T') /\
       nth_error (st_progs T') i = Some {| p_variant := p_variant p; p_fd := None |} /\
       (forall j, j <> i -> nth_error (st_progs T') j = nth_error (st_progs T) j) /\
       (forall x f, In (x, f) (k_files (st_kern T')) <-> In (x, f) (k_files (st_kern T)) /\ x <> fd) /\
       k_pins (st_kern T') = k_pins (st_kern T) /\ sockets_same (st_kern T) (st_kern T')).
Proof.
  intros I. cbn [step]. rewrite I. unfold unload. split.
  - intros ->. unfold put. rewrite (upd_same _ i p I). split; now destruct T.
  - intros fd ->. eexists. split; [reflexivity|]. split; [reflexivity|]. unfold put. cbn [st_progs st_kern]. split.
    { apply nth_error_upd_eq. apply nth_error_Some. congruence. }
    split; [intros j N; apply nth_error_upd_ne; congruence|]. split; [|split; [reflexivity|split; reflexivity]].
    intros x f. unfold close, collect, with_files. cbn [k_files]. rewrite filter_In. cbn [fst].
    rewrite Bool.negb_true_iff, Z.eqb_neq. reflexivity.
Qed.

Lemma pin_right M T i p : reached M T -> nth_error (st_progs T) i = Some p ->
  (p_fd p = None -> pin (st_kern T) p = (Err PinNoFd, st_kern T)) /\
  (forall fd id, p_fd p = Some fd -> In (fd, FProg id) (k_files (st_kern T)) ->
     exists K', pin (st_kern T) p = (Ok tt, K') /\ k_pins K' = id :: k_pins (st_kern T) /\ k_files K' = k_files (st_kern T) /\
       k_progs K' = k_progs (st_kern T) /\ sockets_same (st_kern T) K').
Proof.
  intros R I. destruct (reached_good M T R) as [S _]. unfold pin. split; [intros ->; reflexivity|].
  intros fd id -> X. unfold obj_pin. rewrite (in_file _ fd (FProg id) (snd_fds _ S) X). eexists. split; [reflexivity|].
  split; [reflexivity|]. split; [reflexivity|]. split; [reflexivity|]. split; reflexivity.
Qed.
Lemma from_pin_right K v id fd :
  match from_pin K v id fd with
  | (Ok p, K') => In id (k_pins K) /\ ~ In fd (map fst (k_files K)) /\ p = {| p_variant := v; p_fd := Some fd |} /\
      k_files K' = (fd, FProg id) :: k_files K /\ k_pins K' = k_pins K /\ k_progs K' = k_progs K /\ sockets_same K K'
  | (Err e, K') => K' = K /\ ((e = GetCall 2 /\ ~ In id (k_pins K)) \/ (e = GetCall 24 /\ In id (k_pins K)))
  end.
Proof.
  unfold from_pin, obj_get. destruct (existsb (Z.eqb id) (k_pins K)) eqn:E.
  - assert (IN : In id (k_pins K)). { apply existsb_exists in E as (x & X & Q). apply Z.eqb_eq in Q. now subst x. }
    destruct (free_fd K fd) eqn:F.
    + apply free_fd_spec in F as [_ NF]. split; [exact IN|]. split.
      { intros X. apply in_map_iff in X as ((y, t) & Q & X). cbn in Q. subst y. exact (NF t X). }
      do 4 (split; [reflexivity|]). split; reflexivity.
    + split; [reflexivity|]. right. split; [reflexivity|exact IN].
  - split; [reflexivity|]. left. split; [reflexivity|]. intros X. rewrite <- Bool.not_true_iff_false in E. apply E. apply existsb_exists. exists id.
    split; [exact X|apply Z.eqb_refl].
Qed.
