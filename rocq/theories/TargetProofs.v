(** Proofs about the function an extension replaces. *)
From Coq Require Import String.
From Verif Require Import Base Text ProgModel BtfTypes BtfModel BtfProofs LayoutModel LayoutDecls InfoModel InfoSpec InfoProofs TargetModel TargetSpec ExternProofs2 BtfTypesProofs ProgProofs.
Import ListNotations.
Local Open Scope Z_scope.

Lemma answer_fits data buf : (length data <= length buf)%nat -> Z.of_nat (length buf) < 2 ^ 32 ->
  btf_answer data buf = (data ++ skipn (length data) buf, Z.of_nat (length data)).
Proof.
  intros H B. unfold btf_answer, u32, wrap. rewrite !Z.mod_small by lia. rewrite Z.min_r by lia. rewrite Nat2Z.id, firstn_all. reflexivity.
Qed.
Lemma answer_length data buf : Z.of_nat (length data) < 2 ^ 32 -> length (fst (btf_answer data buf)) = length buf \/ (length buf < length data)%nat.
Proof.
  intros H. unfold btf_answer. cbn [fst]. rewrite app_length, firstn_length, skipn_length. unfold u32, wrap. pose proof (Z.mod_le (Z.of_nat (length buf)) (2 ^ 32) ltac:(lia) ltac:(lia)).
  pose proof (Z.mod_pos_bound (Z.of_nat (length buf)) (2 ^ 32) ltac:(lia)). lia.
Qed.
Lemma answer_short data buf : Z.of_nat (length data) < 2 ^ 32 -> (length buf < length data)%nat -> length (fst (btf_answer data buf)) = length buf.
Proof.
  intros H S. unfold btf_answer. cbn [fst]. rewrite app_length, firstn_length, skipn_length. unfold u32, wrap. rewrite Z.mod_small by lia. lia.
Qed.
Lemma resize_length n l : length (resize n l) = n.
Proof. unfold resize. rewrite app_length, firstn_length, repeat_length. lia. Qed.
Lemma loop_fits fuel data buf : (length data <= length buf)%nat -> Z.of_nat (length buf) < 2 ^ 32 -> read_loop (S fuel) data buf = Some (data, 1%nat).
Proof.
  intros H B. cbn [read_loop]. rewrite answer_fits by assumption. rewrite app_length, skipn_length.
  destruct (Z.ltb_spec (Z.of_nat (length data + (length buf - length data))) (Z.of_nat (length data))); [lia|]. rewrite Nat2Z.id, firstn_app_exact by reflexivity. reflexivity.
Qed.
Theorem loop_reads fuel data buf : Z.of_nat (length data) < 2 ^ 32 -> Z.of_nat (length buf) < 2 ^ 32 -> (2 <= fuel)%nat ->
  read_loop fuel data buf = Some (data, if (length data <=? length buf)%nat then 1%nat else 2%nat).
Proof.
  intros H B F. destruct fuel as [|[|fuel]]; [lia|lia|]. destruct (Nat.leb_spec (length data) (length buf)) as [L|L]; [now apply loop_fits|].
  remember (S fuel) as f eqn:EF. cbn [read_loop]. pose proof (answer_short data buf H L) as A. assert (snd (btf_answer data buf) = Z.of_nat (length data)) as E by (unfold btf_answer, u32, wrap; cbn [snd]; apply Z.mod_small; lia).
  destruct (btf_answer data buf) as [b s]. cbn [fst snd] in A, E. subst s. destruct (Z.ltb_spec (Z.of_nat (length b)) (Z.of_nat (length data))); [|lia]. subst f.
  rewrite loop_fits; [reflexivity| |]; rewrite resize_length; lia.
Qed.

Lemma btf_id_read b : (132 <= length b \/ length b <= 128)%nat -> get P "btf_id" (info_of P b) = or_zero (k_field b 128 4).
Proof.
  intros H. apply (get_read P "btf_id" 128 4); [vm_compute; reflexivity|apply Nat.leb_le; vm_compute; reflexivity|unfold unbroken; lia].
Qed.
Theorem no_btf fuel k fd func : has_no_btf k fd -> get_btf_info fuel k fd func = Err TNoBtf.
Proof.
  intros (b & I & C). unfold get_btf_info. rewrite I. cbv zeta. rewrite btf_id_read by tauto.
  destruct C as [[C _]|C]; [rewrite C; reflexivity|]. replace (k_field b 128 4) with (@None Z); [reflexivity|]. unfold k_field, k_bytes. destruct (Nat.leb_spec (128 + 4) (length b)); [lia|reflexivity].
Qed.
Opaque FIRST_ROOM.
Lemma info_is fuel k fd func n bfd data : has_btf k fd n -> k_btf k n = Some (bfd, data) -> Z.of_nat (length data) < 2 ^ 32 -> (2 <= fuel)%nat ->
  get_btf_info fuel k fd func = match bind (btf_parse data) (fun b => id_by_type_name_kind b func KFunc) with Ok i => Ok (bfd, u32 i) | Err e => Err (TBtf e) end.
Proof.
  intros (NZ & b & I & LB & N) K H F. unfold get_btf_info. rewrite I. cbv zeta. rewrite btf_id_read by tauto. rewrite N. cbn [or_zero]. apply Z.eqb_neq in NZ. rewrite NZ, K.
  rewrite loop_reads; [reflexivity|exact H| |exact F]. rewrite repeat_length. Transparent FIRST_ROOM. unfold FIRST_ROOM. lia.
Qed.
Opaque FIRST_ROOM.
Lemma func_kind t : kind_of t = KFunc -> exists h, t = TFunc h.
Proof. destruct t; cbn; intros E; try discriminate E. eexists; reflexivity. Qed.
Lemma found_is b name i : 0 <= i -> id_by_type_name_kind b name KFunc = Ok i -> first_func b name (Z.to_nat i).
Proof.
  intros P0 H. unfold id_by_type_name_kind in H. apply find_name_kind_ok in H; [|lia]. destruct H as (j & t & -> & N & Kk & T & F). destruct (func_kind t Kk) as [h ->]. replace (Z.to_nat (0 + Z.of_nat j)) with j by lia.
  split; [exists h; split; assumption|]. intros j' L (h' & N' & T'). exact (F j' (TFunc h') L N' eq_refl T').
Qed.
Lemma found_first b name i : funcs_named b -> first_func b name i -> id_by_type_name_kind b name KFunc = Ok (Z.of_nat i).
Proof.
  intros FN [(h & N & T) F]. unfold id_by_type_name_kind. rewrite (find_name_kind_first b KFunc name (b_types b) 0 i (TFunc h) N eq_refl T); [f_equal; lia|].
  intros j t L Nj Kj. destruct (func_kind t Kj) as [h' ->]. destruct (FN j h' Nj) as [n' Tn]. exists n'. split; [exact Tn|]. intros ->. apply (F j L). exists h'. split; assumption.
Qed.
Lemma types_short b : btf_ok b -> Z.of_nat (length (b_types b)) <= Z.of_nat (length (btf_to_bytes b)).
Proof.
  intros (_ & _ & _ & _ & _ & ts & E & OKs & _). unfold btf_to_bytes. rewrite E, !app_length. cbn [skipn length]. unfold hdr_bytes. rewrite !app_length, !le_enc_length.
  assert (length ts <= length (types_bytes ts))%nat; [|lia]. clear E. induction OKs as [|t ts T _ IH]; [cbn; lia|]. unfold types_bytes in *. cbn [map concat length]. rewrite app_length, to_bytes_length by (now apply btype_ok_known).
  assert (1 <= type_info_size t)%nat by (destruct t; cbn; lia). lia.
Qed.
Theorem target_found fuel k fd func n bfd b i : (2 <= fuel)%nat -> has_btf k fd n -> k_btf k n = Some (bfd, btf_to_bytes b) -> small_btf b -> first_func b func i ->
  get_btf_info fuel k fd func = Ok (bfd, Z.of_nat i).
Proof.
  intros F B K (OKb & FN & SM) FF. rewrite (info_is fuel k fd func n bfd _ B K) by (try exact F; lia). rewrite parse_to_bytes by exact OKb. cbn [bind]. rewrite (found_first b func i FN FF). f_equal. f_equal.
  unfold u32, wrap. apply Z.mod_small. pose proof (types_short b OKb). destruct FF as [(h & N & _) _]. assert (i < length (b_types b))%nat by (apply nth_error_Some; congruence). lia.
Qed.
Theorem target_right fuel k fd func n bfd b fd' i : (2 <= fuel)%nat -> has_btf k fd n -> k_btf k n = Some (bfd, btf_to_bytes b) -> small_btf b -> get_btf_info fuel k fd func = Ok (fd', i) ->
  fd' = bfd /\ 0 <= i /\ first_func b func (Z.to_nat i).
Proof.
  intros F B K (OKb & FN & SM) G. rewrite (info_is fuel k fd func n bfd _ B K) in G by (try exact F; lia). rewrite parse_to_bytes in G by exact OKb. cbn [bind] in G.
  destruct (id_by_type_name_kind b func KFunc) as [j|e] eqn:E; [|discriminate G]. apply ok_inj in G. apply pair_equal_spec in G as [<- <-]. split; [reflexivity|].
  assert (0 <= j) as J. { unfold id_by_type_name_kind in E. apply find_name_kind_ok in E; [|lia]. destruct E as (j' & _ & -> & _). lia. }
  pose proof (found_is b func j J E) as FF. assert (u32 j = j) as ->. { unfold u32, wrap. apply Z.mod_small. pose proof (types_short b OKb). destruct FF as [(h & N & _) _]. assert (Z.to_nat j < length (b_types b))%nat by (apply nth_error_Some; congruence). lia. }
  split; assumption.
Qed.
Lemma first_exists b name i : func_at b name i -> funcs_named b -> exists j, (j <= i)%nat /\ first_func b name j.
Proof.
  intros FA FN. destruct FA as (h & N & T).
  assert (exists z, id_by_type_name_kind b name KFunc = Ok z) as [z Z0].
  { unfold id_by_type_name_kind. unfold funcs_named in FN. revert N FN. generalize (b_types b) 0. intros ts. revert i. induction ts as [|t ts IH]; intros i z N FN; [destruct i; discriminate N|]. cbn [find_name_kind].
    destruct (kind_eqb (kind_of t) KFunc) eqn:E.
    - assert (exists h', t = TFunc h') as [h' ->] by (apply func_kind; destruct (kind_of t); try discriminate E; reflexivity). destruct i as [|i].
      + cbn [nth_error] in N. apply some_inj in N. rewrite N, T. cbn [bind]. rewrite str_eqb_refl. eexists; reflexivity.
      + destruct (type_name b (TFunc h')) as [nm|e] eqn:TN; cbn [bind].
        * destruct (str_eqb nm name); [eexists; reflexivity|]. apply (IH i); [exact N|]. intros j. apply (FN (S j)).
        * destruct (FN 0%nat h' eq_refl) as [n' X]. congruence.
    - destruct i as [|i]; [cbn [nth_error] in N; apply some_inj in N; subst t; discriminate E|]. apply (IH i); [exact N|]. intros j. apply (FN (S j)). }
  assert (0 <= z) as PZ. { unfold id_by_type_name_kind in Z0. apply find_name_kind_ok in Z0; [|lia]. destruct Z0 as (j & _ & -> & _). lia. }
  exists (Z.to_nat z). pose proof (found_is b name z PZ Z0) as FF. split; [|exact FF]. destruct (Nat.le_gt_cases (Z.to_nat z) i) as [L|L]; [exact L|]. exfalso. apply (proj2 FF i L). exists h. split; assumption.
Qed.
Theorem target_missing fuel k fd func n bfd b : (2 <= fuel)%nat -> has_btf k fd n -> k_btf k n = Some (bfd, btf_to_bytes b) -> small_btf b -> (forall i, ~ func_at b func i) ->
  exists e, get_btf_info fuel k fd func = Err (TBtf e).
Proof.
  intros F B K S N. destruct (get_btf_info fuel k fd func) as [[fd' i]|e] eqn:E.
  - destruct (target_right fuel k fd func n bfd b fd' i F B K S E) as (_ & _ & FF & _). elim (N _ FF).
  - rewrite (info_is fuel k fd func n bfd _ B K) in E by (try exact F; destruct S as (_ & _ & S); lia). destruct (bind _ _) as [j|e']; [discriminate E|]. eexists. f_equal. 
    assert (forall x y : terr, @Err terr (Z * Z) x = Err y -> x = y) as X by congruence. apply X in E. now rewrite <- E.
Qed.

Theorem load_target fuel k l running fd func n bfd b i d q : (2 <= fuel)%nat -> has_btf k fd n -> k_btf k n = Some (bfd, btf_to_bytes b) -> small_btf b -> first_func b func i ->
  In q (snd (ext_load fuel k l running fd func d)) -> q_type q = 28 /\ q_target q = fd /\ q_btf_id q = Z.of_nat i /\ q_attach q = 0.
Proof.
  intros F B K S FF. unfold ext_load. rewrite (target_found fuel k fd func n bfd b i F B K S FF). intros Q. apply lp_requests in Q as (o & bb & O & ->). cbn. repeat split.
Qed.
Lemma lp_data l running ty eat d d' qs : load_program l running ty eat d = (Ok tt, d', qs) -> exists g, d' = with_fd (Some g) d.
Proof.
  unfold load_program. destruct (d_fd d); [discriminate|]. destruct (d_obj d) as [o|]; [|discriminate]. destruct (match d_name d with Some n => has_zero n | None => false end); [discriminate|].
  destruct (SysModel.retry_with_verifier_logs 10 _) as [r bufs]. destruct r as [[[g|e] log]|]; intros E; try discriminate E. apply pair_equal_spec in E as [E _]. apply pair_equal_spec in E as [_ <-]. eexists; reflexivity.
Qed.
Theorem load_attach fuel k l running fd func n bfd b i d d' qs link : (2 <= fuel)%nat -> has_btf k fd n -> k_btf k n = Some (bfd, btf_to_bytes b) -> small_btf b -> first_func b func i ->
  ext_load fuel k l running fd func d = (Ok tt, d', qs) -> exists g, d_fd d' = Some g /\ attach_req link KExtension SNone d' = Ok (ALinkCreate g (WFd fd) 0 0 (Some (Z.of_nat i))).
Proof.
  intros F B K S FF. unfold ext_load. rewrite (target_found fuel k fd func n bfd b i F B K S FF). intros E. apply lp_data in E as [g ->]. exists g. split; reflexivity.
Qed.
Theorem attach_other fuel k fd func n bfd b i d g : (2 <= fuel)%nat -> has_btf k fd n -> k_btf k n = Some (bfd, btf_to_bytes b) -> small_btf b -> first_func b func i -> d_fd d = Some g ->
  ext_attach_to fuel k fd func d = Ok (ALinkCreate g (WFd fd) 0 0 (Some (Z.of_nat i))).
Proof.
  intros F B K S FF G. unfold ext_attach_to. rewrite (target_found fuel k fd func n bfd b i F B K S FF), G. reflexivity.
Qed.
Theorem load_nothing fuel k l running fd func d e : get_btf_info fuel k fd func = Err e -> ext_load fuel k l running fd func d = (Err (perr_of e), d, []) /\ ext_attach_to fuel k fd func d = Err (perr_of e).
Proof. intros E. unfold ext_load, ext_attach_to. now rewrite E. Qed.
(** The loader of [ProgModel], given what is found. *)
Theorem load_as_before fuel k l running fd func d : (forall b, get_btf_info fuel k fd func <> Err b) ->
  exists bfd i, ext_load fuel k l running fd func d = load l running KExtension (TProgram fd func (Some (bfd, fun n t => if str_eqb n func && (t =? 12) then Some i else None))) d.
Proof.
  intros H. unfold ext_load. destruct (get_btf_info fuel k fd func) as [[bfd i]|e]; [|elim (H e eq_refl)]. exists bfd, i. unfold load. cbn [kind_type]. change BTF_FUNC with 12. rewrite str_eqb_refl. reflexivity.
Qed.
