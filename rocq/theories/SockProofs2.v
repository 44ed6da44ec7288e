(** Attaching and detaching. *)
From Coq Require Import String.
From Verif Require Import Base Text SockModel SockSpec SockProofs.
Open Scope Z_scope.

Lemma int_length M v : length (int_bytes M v) = 4%nat.
Proof. unfold int_bytes. destruct (m_big M); reflexivity. Qed.

Lemma int_round M v : 0 <= v < 2 ^ 31 -> int_value M (int_bytes M v) = v.
Proof.
  intros R. unfold int_value, int_bytes. rewrite Z.mod_small by lia.
  destruct (m_big M); [rewrite rev_involutive|]; apply (le_dec_enc_small 4); cbn; lia.
Qed.

(** What the four options do on an open socket. *)
Lemma setsockopt_at M K sk n s opt v : NoDup (map fst (k_files K)) -> In (sk, FSock n) (k_files K) -> nth_error (k_socks K) n = Some s ->
  setsockopt M K sk (level_socket M) opt (int_bytes M v) =
    if opt =? 50 then sk_attach_bpf K n s (int_value M (int_bytes M v))
    else if opt =? 27 then sk_detach_filter K n s
    else if opt =? 52 then sk_reuseport_attach_bpf K n s (int_value M (int_bytes M v))
    else if (opt =? 68) && m_detach M then reuseport_detach_prog K s else (Some ENOPROTOOPT, K).
Proof.
  intros N I A. unfold setsockopt. rewrite (in_file K sk _ N I). unfold sock_at. rewrite A, Z.eqb_refl, int_length. reflexivity.
Qed.

Lemma reuseport_attach_total K n s id :
  (exists K', reuseport_attach_prog K n s id = (None, K')) \/ (exists e, reuseport_attach_prog K n s id = (Some e, K)).
Proof.
  unfold reuseport_attach_prog. destruct (s_group s) as [g|], (s_bound s), (s_reuse s); cbn [orb]; eauto.
Qed.

(** A failing call changes nothing. *)
Lemma setsockopt_err M K sk l opt v e K' : setsockopt M K sk l opt v = (Some e, K') -> K' = K.
Proof.
  unfold setsockopt. destruct (file_at K sk) as [[n|x|]|]; try (intros E; now inversion E).
  destruct (sock_at K n) as [s|]; [|intros E; now inversion E].
  destruct (negb _); [intros E; now inversion E|]. destruct (_ <? _)%nat; [intros E; now inversion E|].
  destruct (opt =? 50).
  { destruct (_ =? _)%nat; [|intros E; now inversion E]. unfold sk_attach_bpf.
    destruct (s_locked s); [intros E; now inversion E|]. destruct (prog_get _ _ _); [|intros E; now inversion E].
    destruct (s_full s); intros E; now inversion E. }
  destruct (opt =? 27).
  { unfold sk_detach_filter. destruct (s_locked s); [intros E; now inversion E|]. destruct (s_filter s); intros E; now inversion E. }
  destruct (opt =? 52).
  { destruct (_ =? _)%nat; [|intros E; now inversion E]. unfold sk_reuseport_attach_bpf.
    destruct (s_locked s); [intros E; now inversion E|].
    destruct (prog_get K (int_value M v) 1) as [id|x].
    - destruct (s_full s); [intros E; now inversion E|]. destruct (reuseport_attach_total K n s id) as [[K1 X]|[y X]]; rewrite X; intros E; now inversion E.
    - destruct (x =? EINVAL); [|intros E; now inversion E]. destruct (prog_get K (int_value M v) 21) as [id|y]; [|intros E; now inversion E].
      destruct (s_inet s); [|intros E; now inversion E]. destruct (s_full s); [intros E; now inversion E|].
      destruct (reuseport_attach_total K n s id) as [[K1 X]|[z X]]; rewrite X; intros E; now inversion E. }
  destruct (_ && _); [|intros E; now inversion E].
  unfold reuseport_detach_prog. destruct (s_group s) as [g|]; [|intros E; now inversion E].
  destruct (nth_error (k_groups K) g) as [[o|]|]; intros E; now inversion E.
Qed.

Lemma call_err M K sk opt v w e K' : call M K sk opt v w = (Err e, K') -> K' = K /\ exists c, e = w c.
Proof.
  unfold call. destruct (setsockopt _ _ _ _ _ _) as [[c|] K1] eqn:E; intros H; inversion H; subst.
  apply setsockopt_err in E. split; [exact E|now exists c].
Qed.

Lemma attach_err M K v p sk e K' : attach M K v p sk = (Err e, K') ->
  K' = K /\ (p_fd p = None /\ e = NotLoaded \/ p_fd p <> None /\ exists c, e = reported v true c).
Proof.
  unfold attach. destruct (p_fd p) as [fd|]; [|intros E; inversion E; auto].
  intros H. split; [destruct v; now apply call_err in H|]. right. split; [discriminate|].
  destruct v; apply call_err in H as [_ [c ->]]; now exists c.
Qed.

Lemma detach_err M K v sk e K' : detach M K v sk = (Err e, K') -> K' = K /\ exists c, e = reported v false c.
Proof. destruct v; cbn [detach]; intros H; apply call_err in H as [-> [c ->]]; split; auto; now exists c. Qed.

Lemma sock_of_call M K sk l opt v K' : setsockopt M K sk l opt v = (None, K') ->
  exists n s, In (sk, FSock n) (k_files K) /\ nth_error (k_socks K) n = Some s.
Proof.
  unfold setsockopt. destruct (file_at K sk) as [[n|x|]|] eqn:F; try (intros E; discriminate E).
  unfold sock_at. destruct (nth_error (k_socks K) n) as [s|] eqn:A; [|intros E; discriminate E].
  intros _. exists n, s. split; [now apply file_in|exact A].
Qed.

Section attaching.
Variables (M : machine) (K : kern) (p : prog) (fd id : Z).
Hypotheses (S : sound K) (P : p_fd p = Some fd) (I : In (fd, FProg id) (k_files K)).

Lemma exists_it : exists_prog K id.
Proof. apply (snd_needed K S). right. left. now exists fd. Qed.

Lemma fd_range : 0 <= fd < 2 ^ 31.
Proof. exact (snd_range K S fd _ I). Qed.

Lemma reuseport_prog_spec n s sk : In (sk, FSock n) (k_files K) -> nth_error (k_socks K) n = Some s ->
  match reuseport_attach_prog K n s id with
  | (None, K') => match s_group s with Some _ => s_bound s = true \/ s_reuse s = true | None => s_bound s = false /\ s_reuse s = true end /\
                  sound K' /\ only_selector n (Some id) K K'
  | (Some e, _) => e = EINVAL /\ ~ match s_group s with Some _ => s_bound s = true \/ s_reuse s = true | None => s_bound s = false /\ s_reuse s = true end
  end.
Proof.
  intros F A. unfold reuseport_attach_prog.
  assert (N : forall x, Some id = Some x -> exists_prog K x) by (intros x E; apply some_inj in E; subst x; exact exists_it).
  destruct (s_group s) as [g|] eqn:G.
  - destruct (s_bound s) eqn:B, (s_reuse s) eqn:R; cbn [orb];
      try (split; [tauto|exact (selector_set K n s sk S A g (Some id) G N)]).
    split; [reflexivity|intros [X|X]; discriminate X].
  - destruct (s_bound s) eqn:B; [split; [reflexivity|intros [X _]; discriminate X]|].
    destruct (s_reuse s) eqn:R; [split; [tauto|exact (selector_new K n s sk S F A (Some id) G N)]|].
    split; [reflexivity|intros [_ X]; discriminate X].
Qed.

Lemma attach_spec v n s sk t : In (sk, FSock n) (k_files K) -> nth_error (k_socks K) n = Some s -> In (id, t) (k_progs K) ->
  match attach M K v p sk with
  | (Ok _, K') => takes v t s /\ sound K' /\ only_slot v n (Some id) K K'
  | (Err _, _) => ~ takes v t s
  end.
Proof.
  intros F A T. unfold attach. rewrite P.
  assert (N : forall x, Some id = Some x -> exists_prog K x) by (intros x E; apply some_inj in E; subst x; exact exists_it).
  assert (TY : forall ty, prog_get K fd ty = if t =? ty then Ok id else Err EINVAL).
  { intros ty. destruct (prog_get_spec K S fd id ty I) as (t' & T' & ->).
    assert (Q : assoc Z.eqb id (k_progs K) = Some t') by (apply assoc_nodup; [intros; apply Z.eqb_eq|exact (snd_ids K S)|exact T']).
    assert (Q' : assoc Z.eqb id (k_progs K) = Some t) by (apply assoc_nodup; [intros; apply Z.eqb_eq|exact (snd_ids K S)|exact T]).
    rewrite Q in Q'. apply some_inj in Q'. now subst. }
  assert (RE : match sk_reuseport_attach_bpf K n s fd with
    | (None, K') => takes ReusePortSocketFilter t s /\ sound K' /\ only_selector n (Some id) K K'
    | (Some _, _) => ~ takes ReusePortSocketFilter t s
    end).
  { unfold sk_reuseport_attach_bpf, takes. cbn [own_slot]. destruct (s_locked s) eqn:L; [intros [X _]; discriminate X|].
    rewrite !TY. pose proof (reuseport_prog_spec n s sk F A) as RP.
    destruct (Z.eqb_spec t 1) as [E1|N1].
    - destruct (s_full s) eqn:U; [intros (_ & X & _); discriminate X|].
      destruct (reuseport_attach_prog K n s id) as [[e|] K1].
      + intros (_ & _ & _ & X). exact (proj2 RP X).
      + destruct RP as (G & X). split; [auto 6|exact X].
    - change (EINVAL =? EINVAL) with true. cbn [Z.eqb EINVAL]. destruct (Z.eqb_spec t 21) as [E2|N2].
      + destruct (s_inet s) eqn:IN; [|intros (_ & _ & [X|[_ X]] & _); [congruence|discriminate X]].
        destruct (s_full s) eqn:U; [intros (_ & X & _); discriminate X|].
        destruct (reuseport_attach_prog K n s id) as [[e|] K1].
        * intros (_ & _ & _ & X). exact (proj2 RP X).
        * destruct RP as (G & X). split; [auto 6|exact X].
      + intros (_ & _ & [X|[X _]] & _); congruence. }
  destruct v; unfold call; rewrite (setsockopt_at M K sk n s _ fd (snd_fds K S) F A), (int_round M fd fd_range).
  - change (SO_ATTACH_BPF =? 50) with true. cbn iota. unfold sk_attach_bpf, takes. cbn [own_slot].
    destruct (s_locked s); [intros [X _]; discriminate X|]. rewrite TY.
    destruct (Z.eqb_spec t 1) as [E1|N1]; [|intros (_ & _ & X); congruence].
    destruct (s_full s); [intros (_ & X & _); discriminate X|].
    split; [auto|]. exact (filter_set K n s sk S F A (Some id) N).
  - change (SO_ATTACH_REUSEPORT_EBPF =? 50) with false. change (SO_ATTACH_REUSEPORT_EBPF =? 27) with false.
    change (SO_ATTACH_REUSEPORT_EBPF =? 52) with true. cbn iota.
    destruct (sk_reuseport_attach_bpf K n s fd) as [[e|] K1]; exact RE.
  - change (SO_ATTACH_REUSEPORT_EBPF =? 50) with false. change (SO_ATTACH_REUSEPORT_EBPF =? 27) with false.
    change (SO_ATTACH_REUSEPORT_EBPF =? 52) with true. cbn iota.
    destruct (sk_reuseport_attach_bpf K n s fd) as [[e|] K1]; exact RE.
Qed.
End attaching.

Lemma attach_sock M K v p sk K' : attach M K v p sk = (Ok tt, K') ->
  p_fd p <> None /\ exists n s, In (sk, FSock n) (k_files K) /\ nth_error (k_socks K) n = Some s.
Proof.
  unfold attach, call. destruct (p_fd p) as [fd|]; [|intros E; discriminate E]. intros H. split; [discriminate|].
  destruct v; (destruct (setsockopt _ _ _ _ _ _) as [[c|] K1] eqn:E; [discriminate H|]); exact (sock_of_call _ _ _ _ _ _ _ E).
Qed.

Lemma attach_ok M K v p fd id sk K' : sound K -> p_fd p = Some fd -> In (fd, FProg id) (k_files K) -> attach M K v p sk = (Ok tt, K') ->
  exists n s t, In (sk, FSock n) (k_files K) /\ nth_error (k_socks K) n = Some s /\ In (id, t) (k_progs K) /\ takes v t s /\
    sound K' /\ only_slot v n (Some id) K K'.
Proof.
  intros S P I H. destruct (attach_sock _ _ _ _ _ _ H) as (_ & n & s & F & A).
  destruct (prog_get_spec K S fd id 1 I) as (t & T & _).
  pose proof (attach_spec M K p fd id S P I v n s sk t F A T) as X. rewrite H in X. exists n, s, t. tauto.
Qed.

Lemma attach_works M K v p fd id sk n s t : sound K -> p_fd p = Some fd -> In (fd, FProg id) (k_files K) ->
  In (sk, FSock n) (k_files K) -> nth_error (k_socks K) n = Some s -> In (id, t) (k_progs K) -> takes v t s ->
  exists K', attach M K v p sk = (Ok tt, K').
Proof.
  intros S P I F A T X. pose proof (attach_spec M K p fd id S P I v n s sk t F A T) as Y.
  destruct (attach M K v p sk) as [[[]|e] K1]; [eauto|contradiction (Y X)].
Qed.

(** Detaching. *)
Lemma detach_spec M K v n s sk : sound K -> In (sk, FSock n) (k_files K) -> nth_error (k_socks K) n = Some s ->
  match detach M K v sk with
  | (Ok _, K') => gives_up M v K n s /\ sound K' /\ only_slot v n None K K'
  | (Err _, _) => ~ gives_up M v K n s
  end.
Proof.
  intros S F A.
  assert (N : forall x, None = Some x -> exists_prog K x) by (intros x E; discriminate E).
  assert (RE : match (if m_detach M then reuseport_detach_prog K s else (Some ENOPROTOOPT, K)) with
    | (None, K') => gives_up M ReusePortSocketFilter K n s /\ sound K' /\ only_selector n None K K'
    | (Some _, _) => ~ gives_up M ReusePortSocketFilter K n s
    end).
  { unfold gives_up, slot_of. cbn [own_slot]. destruct (m_detach M); [|intros [_ X]; discriminate X].
    unfold reuseport_detach_prog, selector_of. rewrite (at_group K n s A).
    destruct (s_group s) as [g|] eqn:G; [|intros [X _]; exact (X eq_refl)].
    unfold selector. rewrite <- nth_selector. destruct (nth_error (k_groups K) g) as [[o|]|].
    - split; [split; [discriminate|reflexivity]|]. exact (selector_set K n s sk S A g None G N).
    - intros [X _]. exact (X eq_refl).
    - intros [X _]. exact (X eq_refl). }
  destruct v; cbn [detach]; unfold call; rewrite (setsockopt_at M K sk n s _ 0 (snd_fds K S) F A).
  - change (SO_DETACH_BPF =? 50) with false. change (SO_DETACH_BPF =? 27) with true. cbn iota.
    unfold sk_detach_filter, gives_up, slot_of. cbn [own_slot]. rewrite (at_filter K n s A).
    destruct (s_locked s); [intros [_ X]; discriminate X|].
    destruct (s_filter s) as [o|]; [|intros [X _]; exact (X eq_refl)].
    split; [split; [discriminate|reflexivity]|]. exact (filter_set K n s sk S F A None N).
  - change (SO_DETACH_REUSEPORT_BPF =? 50) with false. change (SO_DETACH_REUSEPORT_BPF =? 27) with false.
    change (SO_DETACH_REUSEPORT_BPF =? 52) with false. change (SO_DETACH_REUSEPORT_BPF =? 68) with true. cbn [andb].
    destruct (if m_detach M then _ else _) as [[e|] K1]; exact RE.
  - change (SO_DETACH_REUSEPORT_BPF =? 50) with false. change (SO_DETACH_REUSEPORT_BPF =? 27) with false.
    change (SO_DETACH_REUSEPORT_BPF =? 52) with false. change (SO_DETACH_REUSEPORT_BPF =? 68) with true. cbn [andb].
    destruct (if m_detach M then _ else _) as [[e|] K1]; exact RE.
Qed.

Lemma detach_ok M K v sk K' : sound K -> detach M K v sk = (Ok tt, K') ->
  exists n s, In (sk, FSock n) (k_files K) /\ nth_error (k_socks K) n = Some s /\ gives_up M v K n s /\ sound K' /\ only_slot v n None K K'.
Proof.
  intros S H.
  assert (X : exists n s, In (sk, FSock n) (k_files K) /\ nth_error (k_socks K) n = Some s).
  { revert H. destruct v; cbn [detach]; unfold call;
    (destruct (setsockopt _ _ _ _ _ _) as [[c|] K1] eqn:E; [intros H; discriminate H|intros _]); exact (sock_of_call _ _ _ _ _ _ _ E). }
  destruct X as (n & s & F & A). pose proof (detach_spec M K v n s sk S F A) as X. rewrite H in X. exists n, s. tauto.
Qed.

Lemma detach_works M K v sk n s : sound K -> In (sk, FSock n) (k_files K) -> nth_error (k_socks K) n = Some s -> gives_up M v K n s ->
  exists K', detach M K v sk = (Ok tt, K').
Proof.
  intros S F A G. pose proof (detach_spec M K v n s sk S F A) as Y.
  destruct (detach M K v sk) as [[[]|e] K1]; [eauto|contradiction (Y G)].
Qed.
