(** Proofs about handles. *)
From Coq Require Import String.
From Verif Require Import Base Text ProgModel LayoutModel LayoutDecls InfoModel InfoSpec InfoProofs HandleModel HandleSpec.
Import ListNotations.
Local Open Scope Z_scope.

Lemma nul_in l : ~ In 0 l -> has_nul l = false.
Proof.
  intros H. unfold has_nul. destruct (existsb (Z.eqb 0) l) eqn:E; [|reflexivity]. apply existsb_exists in E as (x & I & E). apply Z.eqb_eq in E. subst x. contradiction.
Qed.
Lemma nul_there l : In 0 l -> has_nul l = true.
Proof. intros H. unfold has_nul. apply existsb_exists. exists 0. split; [exact H|reflexivity]. Qed.
Lemma get_pinned path o k : pinned path o k -> get_object path k = Some o.
Proof.
  intros (N & I & _). unfold get_object. induction (k_pins k) as [|[a b] l IH]; [destruct I|]. cbn [find fst map] in *. apply NoDup_cons_iff in N as [N1 N2]. destruct I as [E|I].
  - injection E as -> ->. rewrite str_eqb_refl. reflexivity.
  - destruct (str_eqb a path) eqn:E; [|now apply IH]. apply str_eqb_eq in E. subst a. exfalso. apply N1. apply (in_map fst) in I. exact I.
Qed.
Lemma get_not_pinned path k : ~ In path (map fst (k_pins k)) -> get_object path k = None.
Proof.
  intros H. unfold get_object. destruct (find _ _) as [[a b]|] eqn:F; [exfalso|reflexivity]. apply find_some in F as [I E]. cbn [fst] in E. apply str_eqb_eq in E. subst a. apply H. apply (in_map fst) in I. exact I.
Qed.

Lemma prog_more b : whole_prog b -> get P "attach_btf_obj_id" (info_of P b) = or_zero (k_field b 220 4) /\ get P "attach_btf_id" (info_of P b) = or_zero (k_field b 224 4).
Proof.
  intros (_ & A & B). split; (erewrite get_read; [reflexivity|vm_compute; reflexivity|apply Nat.leb_le; vm_compute; reflexivity|assumption]).
Qed.
Lemma prog_type_read b : (8 <= length b)%nat -> get P "type_" (info_of P b) = or_zero (k_field b 0 4) /\ get P "id" (info_of P b) = or_zero (k_field b 4 4).
Proof.
  intros H. split; (erewrite get_read; [reflexivity|vm_compute; reflexivity|apply Nat.leb_le; vm_compute; reflexivity|unfold unbroken; lia]).
Qed.
Lemma link_reads b : whole_link b -> get L "type_" (info_of L b) = or_zero (k_field b 0 4) /\ get L "id" (info_of L b) = or_zero (k_field b 4 4) /\ get L "prog_id" (info_of L b) = or_zero (k_field b 8 4).
Proof.
  unfold whole_link. intros H. repeat split; (erewrite get_read; [reflexivity|vm_compute; reflexivity|apply Nat.leb_le; vm_compute; reflexivity|unfold unbroken; lia]).
Qed.
Lemma positive_some v : positive (or_zero v) = some_positive v.
Proof. destruct v; reflexivity. Qed.

Lemma prog_info p name o b k : whole_prog b -> btf_there b k ->
  from_bpf_prog_info p name o (info_of P b) k = Ret {| h_kind := p; h_obj := o; h_name := name; h_btf := btf_of b k; h_btf_id := some_positive (k_field b 224 4) |}.
Proof.
  intros W B. destruct (prog_more b W) as [E1 E2]. unfold from_bpf_prog_info. rewrite E1, E2, positive_some. unfold btf_there, btf_of in *. destruct (k_field b 220 4) as [n|]; [|reflexivity].
  cbn [or_zero]. destruct n as [|n|n]; [reflexivity| |]; destruct B as [fd ->]; reflexivity.
Qed.

Theorem pin_program named p path b k : pinned path (Prog b) k -> whole_prog b -> btf_there b k ->
  from_pin named p path k = Ret {| h_kind := p; h_obj := Prog b; h_name := prog_name_as_str named (info_of P b); h_btf := btf_of b k; h_btf_id := some_positive (k_field b 224 4) |}.
Proof.
  intros H W B. unfold from_pin. rewrite nul_in by apply H. rewrite (get_pinned path (Prog b) k H). cbv zeta. unfold info_by_fd. cbn [bytes_of]. now apply prog_info.
Qed.
(** An object whose structure ends before the last fields. *)
Lemma short_reads b : (length b <= 220)%nat -> get P "attach_btf_obj_id" (info_of P b) = 0.
Proof.
  intros H. rewrite (get_read P "attach_btf_obj_id" 220 4); [|vm_compute; reflexivity|apply Nat.leb_le; vm_compute; reflexivity|unfold unbroken; lia].
  unfold k_field, k_bytes. destruct (Nat.leb_spec (220 + 4) (length b)); [lia|reflexivity].
Qed.
Theorem pin_anything named p path o k : pinned path o k -> short_info o -> exists h, from_pin named p path k = Ret h /\ h_kind h = p /\ h_obj h = o.
Proof.
  intros H S. unfold from_pin. rewrite nul_in by apply H. rewrite (get_pinned path o k H). cbv zeta. unfold from_bpf_prog_info. cbv zeta. unfold info_by_fd. rewrite short_reads by exact S.
  change (0 =? 0) with true. cbv iota. eexists. split; [reflexivity|]. split; reflexivity.
Qed.
Theorem pin_nothing named p path k : nothing_pinned path k -> from_pin named p path k = Fail ESyscall.
Proof. intros [H N]. unfold from_pin. now rewrite nul_in, get_not_pinned. Qed.

(** * [from_program_info] *)

Theorem types_agree p t : PROGRAM_TYPE p = Some t -> t = fst (kind_type p).
Proof. destruct p; cbn; intros E; try discriminate; now apply some_inj in E. Qed.
Theorem info_handle p b name k : whole_prog b -> still b k -> btf_there b k -> loaded_as p b -> has_from_info p = true ->
  from_program_info p (info_of P b) name k = Ret {| h_kind := p; h_obj := Prog b; h_name := Some name; h_btf := btf_of b k; h_btf_id := some_positive (k_field b 224 4) |}.
Proof.
  intros W (n & N1 & N2) B LA HF. unfold loaded_as in LA. assert (8 <= length b)%nat as LB. { unfold k_field, k_bytes in N1. destruct (Nat.leb_spec (4 + 4) (length b)); [lia|discriminate]. }
  destruct (prog_type_read b LB) as [R1 R2]. unfold from_program_info.
  destruct (PROGRAM_TYPE p) as [t|] eqn:PT; [|destruct p; solve [discriminate PT|discriminate HF]]. pose proof (types_agree p t PT) as TA. subst t. unfold program_type, id. cbv zeta. rewrite R1, R2, LA, N1. cbn [or_zero].
  assert ((fst (kind_type p) <? KNOWN_TYPES) = true) as ->. { destruct p; reflexivity. } rewrite Z.eqb_refl. cbn [negb]. rewrite N2. now apply prog_info.
Qed.
Theorem info_mismatch p b name k : (8 <= length b)%nat -> (exists t, k_field b 0 4 = Some t /\ t <> fst (kind_type p)) -> from_program_info p (info_of P b) name k = Fail EUnexpectedType.
Proof.
  intros LB (t & T1 & T2). destruct (prog_type_read b LB) as [R1 _]. unfold from_program_info. destruct (PROGRAM_TYPE p) as [u|] eqn:PT; [|reflexivity]. pose proof (types_agree p u PT) as TA. subst u.
  unfold program_type. cbv zeta. rewrite R1, T1. cbn [or_zero].
  assert ((if t <? KNOWN_TYPES then t else KNOWN_TYPES) <> fst (kind_type p)) as N. { destruct (t <? KNOWN_TYPES); [exact T2|]. destruct p; vm_compute; discriminate. }
  apply Z.eqb_neq in N. now rewrite N.
Qed.
Theorem info_right p b name k h : (8 <= length b)%nat -> from_program_info p (info_of P b) name k = Ret h -> loaded_as p b /\ h_kind h = p /\ exists c, h_obj h = Prog c /\ k_progs k (or_zero (k_field b 4 4)) = Some c.
Proof.
  intros LB E. destruct (prog_type_read b LB) as [R1 R2]. unfold from_program_info in E. destruct (PROGRAM_TYPE p) as [u|] eqn:PT; [|discriminate E]. pose proof (types_agree p u PT) as TA. subst u.
  unfold program_type, id in E. cbv zeta in E. rewrite R1, R2 in E.
  destruct (Z.eqb_spec (if or_zero (k_field b 0 4) <? KNOWN_TYPES then or_zero (k_field b 0 4) else KNOWN_TYPES) (fst (kind_type p))) as [EQ|NE]; cbn [negb] in E; [|discriminate E].
  split.
  - unfold loaded_as. assert (exists t, k_field b 0 4 = Some t) as [t T]. { unfold k_field, k_bytes. destruct (Nat.leb_spec (0 + 4) (length b)); [eexists; reflexivity|lia]. }
    rewrite T in *. cbn [or_zero] in EQ. f_equal. destruct (t <? KNOWN_TYPES); [exact EQ|]. destruct p; vm_compute in EQ; discriminate.
  - destruct (k_progs k (or_zero (k_field b 4 4))) as [c|] eqn:C; [|discriminate E]. unfold from_bpf_prog_info in E. cbv zeta in E.
    destruct (get P "attach_btf_obj_id" (info_of P b) =? 0); [|destruct (k_btfs k (get P "attach_btf_obj_id" (info_of P b))); [|discriminate E]];
      (assert (forall (x y : phandle), Ret x = Ret y -> x = y) as X by congruence; apply X in E; subst h; cbn [h_kind h_obj]; split; [reflexivity|exists c; split; reflexivity]).
Qed.
Theorem info_without p : has_from_info p = false <->
  p = KLsmCgroup \/ p = KFlowDissector \/ (exists a, p = KCgroupSockAddr a) \/ (exists a, p = KCgroupSock a).
Proof.
  split; [|intros [-> | [-> | [(a & ->) | (a & ->)]]]; reflexivity].
  destruct p; intros H; cbn [has_from_info] in H; try discriminate H; eauto.
Qed.
Theorem info_kind p q : has_from_info p = true -> unsafe_from_info p = false -> p <> KIter -> p <> KLsm -> fst (kind_type q) = fst (kind_type p) -> same_kind p q.
Proof.
  intros H U NI NL. destruct p; try discriminate H; try discriminate U; try contradiction; destruct q; cbn; intros E; try exact I; discriminate E.
Qed.

(** * Maps and links *)

Lemma map_more b : whole_map2 b ->
  get M "type_" (info_of M b) = or_zero (k_field b 0 4) /\ get M "key_size" (info_of M b) = or_zero (k_field b 8 4) /\ get M "value_size" (info_of M b) = or_zero (k_field b 12 4) /\
  get M "max_entries" (info_of M b) = or_zero (k_field b 16 4) /\ get M "map_flags" (info_of M b) = or_zero (k_field b 20 4) /\
  get M "btf_key_type_id" (info_of M b) = or_zero (k_field b 68 4) /\ get M "btf_value_type_id" (info_of M b) = or_zero (k_field b 72 4) /\ get M "map_extra" (info_of M b) = or_zero (k_field b 80 8).
Proof.
  intros (W & A & B & C). unfold whole_map in W. rewrite !Forall_cons_iff in W. destruct W as (W0 & W4 & W8 & W12 & W16 & W20 & W24 & _). cbv beta iota in *.
  repeat split; (erewrite get_read; [reflexivity|vm_compute; reflexivity|apply Nat.leb_le; vm_compute; reflexivity|assumption]).
Qed.
Lemma map_inner o : whole_map2 (bytes_of o) -> map_said (bytes_of o) o (from_fd_inner o).
Proof.
  intros W. destruct (map_more (bytes_of o) W) as (E0 & E1 & E2 & E3 & E4 & E5 & E6 & E7). unfold map_said, from_fd_inner, info_by_fd. cbv zeta. cbn [m_obj m_type m_key m_value m_entries m_flags m_extra].
  rewrite E0, E1, E2, E3, E4, E5, E6, E7. repeat split. destruct (k_field (bytes_of o) 72 4) as [[|n|n]|]; reflexivity.
Qed.
Theorem map_pin path o k : pinned path o k -> whole_map2 (bytes_of o) -> exists h, map_from_pin path k = Ret h /\ map_said (bytes_of o) o h.
Proof. intros H W. unfold map_from_pin. rewrite nul_in by apply H. rewrite (get_pinned path o k H). eexists. split; [reflexivity|]. now apply map_inner. Qed.
Theorem map_id_handle n b k : k_maps k n = Some b -> whole_map2 b -> exists h, map_from_id n k = Ret h /\ map_said b (Map_ b) h.
Proof. intros H W. unfold map_from_id. rewrite H. eexists. split; [reflexivity|]. exact (map_inner (Map_ b) W). Qed.

Lemma made_for_iff l t : existsb (Z.eqb t) (link_types l) = true <-> made_for l t.
Proof. destruct l; cbn [link_types existsb made_for]; unfold LINK_XDP, LINK_TCX, LINK_PERF_EVENT, LINK_UPROBE_MULTI, LINK_ITER; rewrite ?orb_true_iff, ?Z.eqb_eq; intuition congruence. Qed.
Theorem link_convert l o t : whole_link (bytes_of o) -> k_field (bytes_of o) 0 4 = Some t -> (link_try_from l o = Ret o <-> made_for l t) /\ (~ made_for l t -> link_try_from l o = Fail EInvalidLink).
Proof.
  intros W T. destruct (link_reads (bytes_of o) W) as (E & _). unfold link_try_from, info_by_fd. rewrite E, T. cbn [or_zero]. clear. pose proof (made_for_iff l t) as I. destruct (existsb (Z.eqb t) (link_types l)).
  - split; [split; [intros _; now apply I|reflexivity]|]. intros N. exfalso. apply N. now apply I.
  - split; [split; [intros X; discriminate X|intros X; apply I in X; discriminate X]|reflexivity].
Qed.
Theorem link_info b t : whole_link b -> k_field b 0 4 = Some t -> 0 <= t ->
  link_type (info_of L b) = (if t <=? 13 then Ret t else Fail (EUnknownLinkType t)) /\ link_id (info_of L b) = or_zero (k_field b 4 4) /\ link_program (info_of L b) = or_zero (k_field b 8 4).
Proof.
  intros W T H. destruct (link_reads b W) as (E1 & E2 & E3). unfold link_type, link_id, link_program. cbv zeta. rewrite E1, T. cbn [or_zero]. split; [|split; assumption].
  destruct (Z.ltb_spec t 14); destruct (Z.leb_spec t 13); try reflexivity; lia.
Qed.
Theorem link_pin path o k : pinned path o k -> link_from_pin path k = Ret o.
Proof. intros H. unfold link_from_pin. rewrite nul_in by apply H. now rewrite (get_pinned path o k H). Qed.
Theorem nul_paths named p path k : In 0 path -> from_pin named p path k = Panic /\ link_from_pin path k = Panic /\ map_from_pin path k = Fail EInvalidPath.
Proof. intros H. unfold from_pin, link_from_pin, map_from_pin. now rewrite nul_there. Qed.

Theorem pin_name named p path b k n : pinned path (Prog b) k -> whole_prog b -> btf_there b k -> k_bytes b 64 16 = Some (stored_name n) -> good_name n -> n <> [] ->
  exists h, from_pin named p path k = Ret h /\ h_name h = Some n.
Proof.
  intros H W B N G NE. eexists. split; [exact (pin_program named p path b k H W B)|]. cbn [h_name]. exact (proj1 (proj2 (prog_name_exact b n (proj1 W) N G)) NE named).
Qed.
Theorem info_gone p b name k n : (8 <= length b)%nat -> k_field b 4 4 = Some n -> k_progs k n = None -> exists e, from_program_info p (info_of P b) name k = Fail e.
Proof.
  intros LB N G. destruct (prog_type_read b LB) as [R1 R2]. unfold from_program_info. destruct (PROGRAM_TYPE p) as [t|]; [|eexists; reflexivity]. unfold id. rewrite R2, N. cbn [or_zero]. rewrite G.
  destruct (negb (program_type (info_of P b) =? t)); eexists; reflexivity.
Qed.
Theorem btf_gone named p path b k n : pinned path (Prog b) k -> whole_prog b -> k_field b 220 4 = Some n -> n <> 0 -> k_btfs k n = None -> from_pin named p path k = Fail ESyscall.
Proof.
  intros H W N NZ G. unfold from_pin. rewrite nul_in by apply H. rewrite (get_pinned path (Prog b) k H). cbv zeta. unfold info_by_fd. cbn [bytes_of]. destruct (prog_more b W) as [E1 _].
  unfold from_bpf_prog_info. cbv zeta. rewrite E1, N. cbn [or_zero]. apply Z.eqb_neq in NZ. now rewrite NZ, G.
Qed.
Theorem map_none path n k : (nothing_pinned path k -> map_from_pin path k = Fail ESyscall /\ link_from_pin path k = Fail ESyscall) /\ (k_maps k n = None -> map_from_id n k = Fail ESyscall).
Proof.
  split.
  - intros [H N]. unfold map_from_pin, link_from_pin. rewrite nul_in by exact N. now rewrite get_not_pinned.
  - intros H. unfold map_from_id. now rewrite H.
Qed.
