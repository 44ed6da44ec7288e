(** Maps of maps: what the methods do. *)
From Verif Require Import Base Text MapModel TypedModel TypedSpec TypedProofs NestModel NestSpec NestProofs NestProofs2.
Import ListNotations.
Local Open Scope Z_scope.

Lemma le4 x : 0 <= x < 2 ^ 32 -> le_dec (le_enc 4 x) = x.
Proof. intros H. apply le_dec_enc_small. exact H. Qed.
Lemma firstn_same {A} n (l : list A) : length l = n -> firstn n l = l.
Proof. intros <-. apply firstn_all. Qed.

(** * Looking up the number *)

Lemma held_there s h meta k p : sane s -> is_for h meta s -> holds h k s = Some p ->
  exists i, map_at p s = Some i /\ m_meta i = None /\ meta_equal meta (m_shape i) = true.
Proof.
  intros [W _] (o & m & B & M & SH & ME & _) H. unfold holds in H. rewrite B, M in H. apply slot_in in H.
  apply (sn_slots s W o m meta M ME p). now apply (in_map snd) in H.
Qed.

(** The key as the kernel reads it. *)
Lemma key_read h meta k s o m : is_for h meta s -> behind (o_fd h) s = Some o -> map_at o s = Some m -> key_ok (o_handle h) k ->
  m_meta m = Some meta /\ hd_shape (o_handle h) = m_shape m /\
  ((hd_wrap (o_handle h) = WArrayOfMaps /\ (h_type (m_shape m) =? 12) = true /\ firstn 4 (key_bytes k) = key_bytes k /\
     exists i, k = UIndex i /\ le_dec (key_bytes k) = i) \/
   (hd_wrap (o_handle h) = WHashOfMaps /\ (h_type (m_shape m) =? 12) = false /\ firstn (Z.to_nat (h_key (m_shape m))) (key_bytes k) = key_bytes k /\
     exists b, k = UData b)).
Proof.
  intros (o' & m' & B & M & SH & ME & KIND) B' M' KO. assert (o' = o) by congruence. subst o'. assert (m' = m) by congruence. subst m'.
  split; [exact ME|]. split; [exact SH|]. unfold key_ok in KO. destruct KIND as [(E & TY & KS)|(E & TY & KS)]; rewrite E in *; rewrite TY; [left|right];
    (split; [reflexivity|]; split; [reflexivity|]); destruct k; try destruct KO; cbn [key_bytes].
  - split; [apply firstn_same, le_enc_length|]. exists i. split; [reflexivity|]. now apply le4.
  - split; [apply firstn_same; lia|]. eauto.
Qed.
Lemma index_ltb h k i : index_in h k -> k = UIndex i -> (i <? h_entries (hd_shape (o_handle h))) = true.
Proof. intros H ->. cbn in H. now apply Z.ltb_lt. Qed.

Lemma kcall_lookup h meta k flags n s : is_for h meta s -> key_ok (o_handle h) k -> index_in h k ->
  kcall (o_fd h) (lookup CLookup (Some (key_bytes k)) n flags) s = (if flags =? 0 then number (holds h k s) s else Err EINVAL, s).
Proof.
  intros F KO IX. assert (F' := F). destruct F' as (o & m & B & M & _). destruct (key_read h meta k s o m F B M KO) as (ME & SH & CASES).
  unfold holds, kcall. rewrite B, M, ME. destruct CASES as [(_ & TY & FS & i & K & LD)|(_ & TY & FS & b & K)]; rewrite TY.
  - unfold karray_of. cbn [q_cmd q_key q_value q_flags lookup]. rewrite FS, LD. rewrite <- SH, (index_ltb h k i IX K). now destruct (flags =? 0).
  - unfold khash_of. cbn [q_cmd q_key q_value q_flags lookup]. rewrite FS. now destruct (flags =? 0).
Qed.
Lemma plan_get f h meta k flags s : is_for h meta s -> key_ok (o_handle h) k -> index_in h k ->
  plan f 0 (o_handle h) (OGet k flags) = Ok (lookup CLookup (Some (key_bytes k)) 4 flags).
Proof.
  intros F KO IX. assert (F' := F). destruct F' as (o & m & B & M & _). destruct (key_read h meta k s o m F B M KO) as (ME & SH & CASES).
  unfold plan, check_key, value_space, value_size. destruct CASES as [(-> & _ & _ & i & K & _)|(-> & _ & _ & b & K)]; subst k.
  - cbn [methods meth_of existsb meth_eqb orb negb bounded per_cpu]. unfold check_bounds. cbn in IX.
    destruct (Z.leb_spec (h_entries (hd_shape (o_handle h))) i) as [L|L]; [lia|reflexivity].
  - reflexivity.
Qed.
Lemma is_wrap h meta s : is_for h meta s -> hd_wrap (o_handle h) = WArrayOfMaps \/ hd_wrap (o_handle h) = WHashOfMaps.
Proof. intros (o & m & _ & _ & _ & _ & [(E & _)|(E & _)]); auto. Qed.

Lemma find_spec f h meta k flags s : is_for h meta s -> key_ok (o_handle h) k -> index_in h k ->
  find linux f h k flags s =
    (if flags =? 0 then match number (holds h k s) s with Ok b => Ok (le_dec b) | Err e => Err (if e =? ENOENT then EKeyNotFound else ESyscall e) end
     else Err (ESyscall EINVAL), s).
Proof.
  intros F KO IX. unfold find, call. rewrite (plan_get f h meta k flags s F KO IX). cbn [linux s_map].
  rewrite (kcall_lookup h meta k flags 4 s F KO IX). destruct (flags =? 0); [|reflexivity].
  destruct (number (holds h k s) s) as [b|e]; cbn [answer]; [|reflexivity].
  unfold decode_value. destruct (is_wrap h meta s F) as [-> | ->]; reflexivity.
Qed.
Lemma find_ok f h meta k s p i : sane s -> is_for h meta s -> key_ok (o_handle h) k -> index_in h k -> holds h k s = Some p -> map_at p s = Some i ->
  find linux f h k 0 s = (Ok (m_id i), s).
Proof.
  intros W F KO IX H I. rewrite (find_spec f h meta k 0 s F KO IX). rewrite H. unfold number. rewrite I. cbn [Z.eqb]. rewrite le4; [reflexivity|].
  assert (X := sn_range s (proj1 W)). rewrite Forall_forall in X. specialize (X _ (map_at_in s p i I)). cbn in X. lia.
Qed.
Lemma find_empty f h meta k s : is_for h meta s -> key_ok (o_handle h) k -> index_in h k -> holds h k s = None ->
  find linux f h k 0 s = (Err EKeyNotFound, s).
Proof. intros F KO IX H. rewrite (find_spec f h meta k 0 s F KO IX). now rewrite H. Qed.
Lemma find_flags f h meta k flags s : is_for h meta s -> key_ok (o_handle h) k -> index_in h k -> flags <> 0 ->
  find linux f h k flags s = (Err (ESyscall EINVAL), s).
Proof. intros F KO IX H. rewrite (find_spec f h meta k flags s F KO IX). destruct (Z.eqb_spec flags 0); [congruence|reflexivity]. Qed.
Lemma find_outside f h meta i flags s : is_for h meta s -> key_ok (o_handle h) (UIndex i) -> ~ index_in h (UIndex i) ->
  find linux f h (UIndex i) flags s = (Err (EOutOfBounds i (h_entries (hd_shape (o_handle h)))), s).
Proof.
  intros (o & m & B & M & SH & ME & KIND) KO IX. unfold find, call, plan, check_key. unfold key_ok in KO. cbn in IX.
  destruct KIND as [(E & TY & KS)|(E & TY & KS)]; rewrite E in *; [|destruct KO].
  cbn [methods meth_of existsb meth_eqb orb negb bounded]. unfold check_bounds.
  destruct (Z.leb_spec (h_entries (hd_shape (o_handle h))) i); [reflexivity|lia].
Qed.

(** * From the number to the map *)

Lemma convert_iff f t sh : convert f t sh = Ok tt <-> suits f t sh.
Proof.
  unfold convert, suits. destruct t as [|w k v]; [tauto|]. rewrite <- handle_iff. split.
  - destruct (from_id f w k v sh) as [h|e]; cbn; [eauto|discriminate].
  - intros (h & ->). reflexivity.
Qed.
Lemma kopen_ok s p i : sane s -> map_at p s = Some i -> k_open s = None -> free_fd s < k_limit s ->
  kopen (m_id i) s = (Ok (free_fd s), with_fds ((free_fd s, p) :: k_fds s) s).
Proof.
  intros [W _] I O L. unfold kopen. rewrite O. rewrite (by_id_nodup (m_id i) (k_maps s) p i (sn_ids s W) (map_at_in s p i I) eq_refl).
  unfold new_fd. destruct (Z.leb_spec (k_limit s) (free_fd s)); [lia|reflexivity].
Qed.
Lemma close_opened s fd p : sane s -> behind fd s = None -> kclose fd (with_fds ((fd, p) :: k_fds s) s) = s.
Proof.
  intros W B. unfold kclose. cbn [k_fds with_fds filter fst]. rewrite Z.eqb_refl. cbn [negb]. rewrite (filter_none fd (k_fds s) B).
  transitivity (collect s); [|now apply collect_id]. now destruct s.
Qed.
Lemma kinfo_new s fd p i : k_info s = None -> map_at p s = Some i -> kinfo fd (with_fds ((fd, p) :: k_fds s) s) = Ok (m_shape i).
Proof. intros K I. unfold kinfo, behind. cbn. rewrite K, Z.eqb_refl. unfold map_at in *. cbn. now rewrite I. Qed.
Lemma info_same sh : from_info sh = sh.
Proof. now destruct sh. Qed.

(** Whatever the number: an open map of the type, or nothing happened. *)
Lemma open_any f t id s : sane s ->
  match map_from_id linux f t id s with
  | (Ok i, s') => exists p m, map_at p s = Some m /\ m_id m = id /\ i_fd i = free_fd s /\ i_shape i = m_shape m /\ i_type i = t /\
      suits f t (m_shape m) /\ s' = with_fds ((free_fd s, p) :: k_fds s) s /\ can_open s
  | (Err e, s') => s' = s
  end.
Proof.
  intros W. unfold map_from_id. cbn [linux s_open s_info s_close]. unfold kopen. destruct (k_open s) eqn:KO; [reflexivity|].
  destruct (by_id id (k_maps s)) as [p|] eqn:B; [|reflexivity]. apply by_id_in in B as (m & IN & ID).
  assert (M : map_at p s = Some m) by exact (at_nat_nodup p m _ (sn_maps s (proj1 W)) IN).
  unfold new_fd. destruct (Z.leb_spec (k_limit s) (free_fd s)) as [L|L]; [reflexivity|]. destruct (free_fd_free s) as [FA FB].
  destruct (k_info s) as [e|] eqn:KI.
  - unfold kinfo. cbn [k_info with_fds]. rewrite KI. now apply close_opened.
  - rewrite (kinfo_new s _ p m KI M). destruct (convert f t (m_shape m)) as [[]|e] eqn:C.
    + exists p, m. cbn. rewrite info_same. apply convert_iff in C. do 7 (split; [assumption || reflexivity|]). split; [exact KO|]. split; [exact KI|exact L].
    + now apply close_opened.
Qed.
Lemma open_ok f t s p m : sane s -> map_at p s = Some m -> can_open s -> suits f t (m_shape m) ->
  map_from_id linux f t (m_id m) s = (Ok {| i_fd := free_fd s; i_shape := m_shape m; i_type := t |}, with_fds ((free_fd s, p) :: k_fds s) s).
Proof.
  intros W M (KO & KI & L) SU. unfold map_from_id. cbn [linux s_open s_info s_close]. rewrite (kopen_ok s p m W M KO L).
  rewrite (kinfo_new s _ p m KI M). apply convert_iff in SU. rewrite SU. now rewrite info_same.
Qed.
Lemma same_number s p p' m m' : sane s -> map_at p s = Some m -> map_at p' s = Some m' -> m_id m = m_id m' -> p = p'.
Proof.
  intros [W _] M M' E. assert (A := by_id_nodup (m_id m) (k_maps s) p m (sn_ids s W) (map_at_in _ _ _ M) eq_refl).
  assert (B := by_id_nodup (m_id m) (k_maps s) p' m' (sn_ids s W) (map_at_in _ _ _ M') (eq_sym E)). congruence.
Qed.

(** * What [get] does *)

Lemma get_present f t h meta k s p i : sane s -> is_for h meta s -> key_ok (o_handle h) k -> index_in h k -> holds h k s = Some p -> map_at p s = Some i ->
  get linux f t h k 0 s = map_from_id linux f t (m_id i) s.
Proof. intros W F KO IX H I. unfold get. now rewrite (find_ok f h meta k s p i W F KO IX H I). Qed.

Lemma meta_suits f t meta sh : meta_equal meta sh = true -> (suits f t meta <-> suits f t sh).
Proof.
  unfold meta_equal. intros H. apply andb_prop in H as [H _]. apply andb_prop in H as [H H4]. apply andb_prop in H as [H H3]. apply andb_prop in H as [H1 H2].
  apply Z.eqb_eq in H1, H2, H3, H4. unfold suits, fits. destruct t; [tauto|]. rewrite H1, H2, H3, H4. tauto.
Qed.

(** Found: the map that is held. *)
Lemma get_held f t h meta k s p : sane s -> is_for h meta s -> key_ok (o_handle h) k -> index_in h k -> holds h k s = Some p -> can_open s -> suits f t meta ->
  exists i m, get linux f t h k 0 s = (Ok i, with_fds ((i_fd i, p) :: k_fds s) s) /\ behind (i_fd i) s = None /\ i_type i = t /\
    map_at p s = Some m /\ i_shape i = m_shape m.
Proof.
  intros W F KO IX H C SU. destruct (held_there s h meta k p W F H) as (m & M & NM & ME).
  exists {| i_fd := free_fd s; i_shape := m_shape m; i_type := t |}, m. cbn.
  rewrite (get_present f t h meta k s p m W F KO IX H M). rewrite (open_ok f t s p m W M C (proj1 (meta_suits f t meta _ ME) SU)).
  split; [reflexivity|]. split; [apply free_fd_free|]. auto.
Qed.
(** In any case: the map that is held, through a new descriptor, or nothing
    changed. *)
Lemma get_any f t h meta k flags s : sane s -> is_for h meta s -> key_ok (o_handle h) k ->
  match get linux f t h k flags s with
  | (Ok i, s') => exists p m, holds h k s = Some p /\ s' = with_fds ((i_fd i, p) :: k_fds s) s /\ behind (i_fd i) s = None /\
      map_at p s = Some m /\ i_shape i = m_shape m /\ i_type i = t /\ suits f t (m_shape m) /\ suits f t meta /\ flags = 0 /\ index_in h k
  | (Err e, s') => s' = s
  end.
Proof.
  intros W F KO.
  assert (IX : index_in h k \/ exists i, k = UIndex i /\ ~ index_in h k).
  { destruct k; cbn; auto. destruct (Z.lt_ge_cases i (h_entries (hd_shape (o_handle h)))) as [L|L]; [now left|right]. exists i. split; [reflexivity|lia]. }
  destruct IX as [IX|(i & -> & IX)].
  - destruct (Z.eq_dec flags 0) as [->|N].
    + destruct (holds h k s) as [p|] eqn:H.
      * destruct (held_there s h meta k p W F H) as (m & M & NM & ME). rewrite (get_present f t h meta k s p m W F KO IX H M).
        assert (OA := open_any f t (m_id m) s W). destruct (map_from_id linux f t (m_id m) s) as [[i|e] s']; [|exact OA].
        destruct OA as (p' & m' & M' & ID & FD & SH & TY & SU & -> & _).
        assert (p' = p) by exact (same_number s p' p m' m W M' M ID). subst p'. assert (m' = m) by congruence. subst m'.
        exists p, m. rewrite FD. split; [reflexivity|]. split; [reflexivity|]. split; [apply free_fd_free|]. split; [exact M|]. split; [exact SH|].
        split; [exact TY|]. split; [exact SU|]. split; [exact (proj2 (meta_suits f t meta _ ME) SU)|]. auto.
      * unfold get. now rewrite (find_empty f h meta k s F KO IX H).
    + unfold get. now rewrite (find_flags f h meta k flags s F KO IX N).
  - unfold get. now rewrite (find_outside f h meta i flags s F KO IX).
Qed.
Lemma get_absent f t h meta k s : is_for h meta s -> key_ok (o_handle h) k -> index_in h k -> holds h k s = None ->
  get linux f t h k 0 s = (Err EKeyNotFound, s).
Proof. intros F KO IX H. unfold get. now rewrite (find_empty f h meta k s F KO IX H). Qed.
Lemma get_outside f t h meta i flags s : is_for h meta s -> key_ok (o_handle h) (UIndex i) -> ~ index_in h (UIndex i) ->
  get linux f t h (UIndex i) flags s = (Err (EOutOfBounds i (h_entries (hd_shape (o_handle h)))), s).
Proof. intros F KO IX. unfold get. now rewrite (find_outside f h meta i flags s F KO IX). Qed.
(** The type is wrong for the maps in it. *)
Lemma get_unsuited f h meta w kk vv k s p : sane s -> is_for h meta s -> key_ok (o_handle h) k -> index_in h k -> holds h k s = Some p -> can_open s ->
  ~ In (h_type meta) (alias_types w) -> get linux f (VTyped w kk vv) h k 0 s = (Err (EInvalidMapType (h_type meta)), s).
Proof.
  intros W F KO IX H (CO & CI & L) NA. destruct (held_there s h meta k p W F H) as (m & M & NM & ME).
  rewrite (get_present f _ h meta k s p m W F KO IX H M). unfold map_from_id. cbn [linux s_open s_info s_close].
  rewrite (kopen_ok s p m W M CO L), (kinfo_new s _ p m CI M). assert (T : h_type meta = h_type (m_shape m)).
  { unfold meta_equal in ME. repeat (apply andb_prop in ME as [ME ?]). now apply Z.eqb_eq. }
  cbn [convert]. rewrite (handle_wrong_type f w kk vv (m_shape m)) by (now rewrite <- T). cbn [bind]. rewrite <- T.
  rewrite close_opened; [reflexivity|exact W|apply free_fd_free].
Qed.

Lemma release_opened f t h meta k flags s i s' : sane s -> is_for h meta s -> key_ok (o_handle h) k ->
  get linux f t h k flags s = (Ok i, s') -> release linux i s' = s.
Proof.
  intros W F KO G. assert (A := get_any f t h meta k flags s W F KO). rewrite G in A. destruct A as (p & m & H & -> & B & _).
  unfold release. cbn [linux s_close]. now apply close_opened.
Qed.
