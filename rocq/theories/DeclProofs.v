(** Proofs about declared maps. *)
From Coq Require Import String.
From Verif Require Import Base Text BtfTypes BtfModel BtfProofs2 BtfTypesProofs ObjModel ObjProofs4 UtilModel UtilSpec UtilProofs
  MapModel TypedModel TypedSpec TypedProofs DeclModel DeclSpec.
Local Open Scope Z_scope.

(** * Legacy declarations *)

Lemma lor_one x : u32_ok x -> u32_ok (Z.lor x 1).
Proof. intros H. apply (lor_word x 1); unfold word_ok; [exact H|lia]. Qed.

Lemma u32_id x : u32_ok x -> u32 x = x.
Proof. intros H. unfold u32, wrap. apply Z.mod_small. exact H. Qed.

Lemma legacy_iff d a : has_legacy d = true <-> exists l, legacy d a = Some l.
Proof. destruct d; cbn; (split; [intros H; try discriminate H; eauto|intros [l H]; first [discriminate H|reflexivity]]). Qed.

Lemma map_def_declared type key value entries flags pinned r : u32_ok type -> u32_ok key -> u32_ok value -> u32_ok entries -> u32_ok flags ->
  parse_map_def (enc_words (map_def type key value entries flags pinned) ++ r) =
  Ok {| md_type := type; md_key := key; md_value := value; md_entries := entries; md_flags := flags; md_extra := 0;
        md_pin := if pinned then 1 else 0; md_key_id := 0; md_value_id := 0; md_id := 0 |}.
Proof.
  intros T K V E F. rewrite map_def_spec.
  - unfold legacy_def, map_def. cbn [nth]. rewrite !u32_id by assumption. reflexivity.
  - cbn. lia.
  - unfold map_def. rewrite !u32_id by assumption. unfold u32_ok in *. repeat constructor; try lia; destruct pinned; lia.
  - cbn. destruct pinned; auto.
  - right. cbn. lia.
Qed.

Lemma legacy_declared d a l r : params_ok a -> (d = DStackTrace -> a_depth a = 127) -> legacy d a = Some l ->
  exists def, parse_map_def (enc_words l ++ r) = Ok def /\ is_declared false d a def /\ md_key_id def = 0 /\ md_value_id def = 0.
Proof.
  intros (K & K4 & V & E & F & _) S H. pose proof (lor_one _ F) as L.
  assert (u32_ok 0 /\ u32_ok 4 /\ u32_ok 8 /\ u32_ok 16 /\ u32_ok 1016) as (Z0 & Z4 & Z8 & Z16 & ZS) by (unfold u32_ok; lia).
  destruct d; cbn [legacy] in H; try discriminate H; apply some_inj in H; subst l;
    (eexists; split;
     [apply map_def_declared; first [assumption|unfold u32_ok, BPF_MAP_TYPE_ARRAY; vm_compute; split; congruence]
     |split; [|split; reflexivity]; unfold is_declared; cbn; repeat split; try rewrite S by reflexivity; try reflexivity]).
Qed.

(** * BTF declarations *)

Lemma num_field b id h h' e i n : type_by_id (b_types b) id = Ok (TPtr h) -> type_by_id (b_types b) (h_third h) = Ok (TArray h' e i n) ->
  get_map_field b id = Ok n.
Proof. intros A B. unfold get_map_field. rewrite A. cbn [liftb bind]. rewrite B. reflexivity. Qed.

Lemma type_field b id h d k n : type_by_id (b_types b) id = Ok (TPtr h) -> csize (b_types b) d k (h_third h) n -> (d < 32)%nat -> (k <= 1)%nat ->
  u32_ok n -> pointee b id = Ok (n, h_third h).
Proof.
  intros A C D K N. unfold pointee. rewrite A. cbn [liftb bind]. rewrite (type_size_ok _ _ _ _ _ C D K N). cbn [liftb bind]. now rewrite u32_id.
Qed.

Lemma resolve_self ts id t : type_by_id ts id = Ok t -> modifier t = None -> resolve_type ts id = Ok id.
Proof. intros A M. unfold resolve_type, MAX_RESOLVE_DEPTH. cbn [resolve_loop]. rewrite A. cbn [bind]. now rewrite M. Qed.

Lemma values_field b id h e i h' h'' ms : type_by_id (b_types b) id = Ok (TArray h e i 0) -> type_by_id (b_types b) e = Ok (TPtr h') ->
  type_by_id (b_types b) (h_third h') = Ok (TStruct h'' ms) -> inner_members b id = Ok ms.
Proof.
  intros A B C. unfold inner_members. rewrite A. cbn [liftb bind]. rewrite Z.eqb_refl, (resolve_self _ _ _ B eq_refl). cbn [liftb bind].
  rewrite B. cbn [liftb bind]. rewrite (resolve_self _ _ _ C eq_refl). cbn [liftb bind]. rewrite C. reflexivity.
Qed.

(** What one member does. *)
Lemma member_num inner b P m nm n f : field_is 1 b P m (nm, PtrArray n) -> assoc str_eqb nm field_names = Some f ->
  match f with FType | FKeySize | FValueSize | FEntries | FFlags | FExtra => True | _ => False end ->
  map_member inner b m = Ok (fun st => (match f with FType => set_type | FKeySize => set_key | FValueSize => set_value | FEntries => set_entries
                                        | FFlags => set_flags | _ => set_extra end n (fst st), snd st)).
Proof.
  intros (N & h & h' & e & i & A & B) F T. cbn [fst snd] in *. unfold map_member. rewrite N. cbn [liftb bind]. rewrite F.
  destruct f; try contradiction; cbn [field_effect]; rewrite (num_field _ _ _ _ _ _ _ A B); reflexivity.
Qed.
Lemma member_key inner b P m n : u32_ok n -> field_is 1 b P m (txt "key", PtrType n) ->
  exists id d k, csize (b_types b) d k id n /\
    map_member inner b m = Ok (fun st => (set_key_id id (set_key n (fst st)), snd st)).
Proof.
  intros U (N & h & d & k & A & C & D & K). cbn [fst snd] in *. exists (h_third h), d, k. split; [exact C|].
  unfold map_member. rewrite N. cbn [liftb bind]. change (assoc str_eqb (txt "key") field_names) with (Some FKey). cbn [field_effect].
  now rewrite (type_field _ _ _ _ _ _ A C D K U).
Qed.
Lemma member_value inner b P m n : u32_ok n -> field_is 1 b P m (txt "value", PtrType n) ->
  exists id d k, csize (b_types b) d k id n /\
    map_member inner b m = Ok (fun st => (set_value_id id (set_value n (fst st)), snd st)).
Proof.
  intros U (N & h & d & k & A & C & D & K). cbn [fst snd] in *. exists (h_third h), d, k. split; [exact C|].
  unfold map_member. rewrite N. cbn [liftb bind]. change (assoc str_eqb (txt "value") field_names) with (Some FValue). cbn [field_effect].
  now rewrite (type_field _ _ _ _ _ _ A C D K U).
Qed.

(** The first five fields. *)
Definition base_def (type entries flags key value kid vid : Z) : mapdef :=
  {| md_type := type; md_key := key; md_value := value; md_entries := entries; md_flags := flags; md_extra := 0; md_pin := 0;
     md_key_id := kid; md_value_id := vid; md_id := 0 |}.
Lemma five_fields inner b P type entries flags key value extra ms : u32_ok key -> u32_ok value ->
  Forall2 (field_is 1 b P) ms (btf_map type entries flags key value extra) ->
  exists kid vid d k d' k' ms', csize (b_types b) d k kid key /\ csize (b_types b) d' k' vid value /\
    Forall2 (field_is 1 b P) ms' extra /\
    map_members inner b ms (mapdef0, None) = map_members inner b ms' (base_def type entries flags key value kid vid, None).
Proof.
  intros K V H. unfold btf_map in H. cbn [app] in H.
  inversion H as [|m1 f1 ms1 fs1 H1 R1]; subst. inversion R1 as [|m2 f2 ms2 fs2 H2 R2]; subst. inversion R2 as [|m3 f3 ms3 fs3 H3 R3]; subst.
  inversion R3 as [|m4 f4 ms4 fs4 H4 R4]; subst. inversion R4 as [|m5 f5 ms5 fs5 H5 R5]; subst.
  destruct (member_key inner b P m2 key K H2) as (kid & d & k & C & E2). destruct (member_value inner b P m3 value V H3) as (vid & d' & k' & C' & E3).
  exists kid, vid, d, k, d', k', ms5. split; [exact C|]. split; [exact C'|]. split; [exact R5|].
  cbn [map_members]. rewrite (member_num inner b P m1 _ _ FType H1 eq_refl I). cbn [bind map_members]. rewrite E2. cbn [bind map_members]. rewrite E3. cbn [bind map_members].
  rewrite (member_num inner b P m4 _ _ FEntries H4 eq_refl I). cbn [bind map_members].
  rewrite (member_num inner b P m5 _ _ FFlags H5 eq_refl I). cbn [bind map_members]. reflexivity.
Qed.

Lemma fields_declared inner b P d a ms : of_maps d = false -> params_ok a -> Forall2 (field_is 1 b P) ms (btf_decl d a) ->
  exists def, map_members inner b ms (mapdef0, None) = Ok (def, None) /\ is_declared true d a def /\ ids_ok b d a def.
Proof.
  intros O (K & K4 & V & E & F & HF & D & _) H.
  assert (u32_ok 0 /\ u32_ok 4 /\ u32_ok 8 /\ u32_ok 16) as (Z0 & Z4 & Z8 & Z16) by (unfold u32_ok; lia).
  destruct d; try discriminate O; cbn [btf_decl] in H; apply (five_fields inner) in H; try assumption;
    destruct H as (kid & vid & n & k & n' & k' & ms' & C & C' & R & ->).
  2: { inversion R as [|m1 f1 ms1 fs1 H1 R1]; subst. inversion R1; subst. cbn [map_members].
       rewrite (member_num inner b P m1 _ _ FExtra H1 eq_refl I). cbn [bind map_members].
       eexists. split; [reflexivity|]. split; [repeat split; reflexivity|]. split; [exists n, k; exact C|intros _; exists n', k'; exact C']. }
  16: { inversion R as [|m1 f1 ms1 fs1 H1 R1]; subst. inversion R1; subst. cbn [map_members].
       rewrite (member_num inner b P m1 _ _ FValueSize H1 eq_refl I). cbn [bind map_members].
       eexists. split; [reflexivity|]. split; [repeat split; reflexivity|]. split; [exists n, k; exact C|congruence]. }
  all: inversion R; subst; cbn [map_members]; eexists; split; [reflexivity|]; split; [repeat split; reflexivity|];
    split; [exists n, k; exact C|intros _; exists n', k'; exact C'].
Qed.

Lemma plain_declared b d a ms : of_maps d = false -> params_ok a -> plain_struct 1 b d a ms ->
  exists def, map_struct b ms = Ok (def, None) /\ is_declared true d a def /\ ids_ok b d a def.
Proof. intros O A H. apply (fields_declared _ b _ d a ms O A H). Qed.

(** A map holding maps: only plain maps can be described by a struct without
    [values]. *)
Lemma no_inner_of_maps b d a ms : plain_struct 1 b d a ms -> of_maps d = false.
Proof.
  intros H. destruct d; try reflexivity; exfalso; unfold plain_struct in H; cbn in H;
    do 5 (match goal with H : Forall2 _ _ (_ :: _) |- _ => inversion H; clear H; subst end);
    match goal with H : Forall2 _ _ (_ :: _) |- _ => inversion H as [|m f l1 l2 F R]; clear H; subst end;
    destruct F as (_ & h & e & i & h' & h'' & ms' & _ & _ & _ & []).
Qed.
Lemma outer_declared b d a d' a' ms : of_maps d = true -> params_ok a -> params_ok a' -> outer_struct 1 b d a d' a' ms ->
  exists def def', map_struct b ms = Ok (def, Some def') /\ is_declared true d a def /\ ids_ok b d a def /\
    is_declared true d' a' def' /\ ids_ok b d' a' def'.
Proof.
  intros O (K & K4 & V & E & F & HF & D & _) A' H. assert (u32_ok 4) as Z4 by (unfold u32_ok; lia). unfold map_struct.
  destruct d; try discriminate O; unfold outer_struct in H; cbn [btf_decl] in H; apply (five_fields (Some (inner_def b))) in H; try assumption;
    destruct H as (kid & vid & n & k & n' & k' & ms' & C & C' & R & ->);
    inversion R as [|m1 f1 ms1 fs1 H1 R1]; subst; inversion R1; subst; cbn [map_members];
    destruct H1 as (N & h & e & i & h' & h'' & mi & T1 & T2 & T3 & H1); cbn [fst snd] in *;
    unfold map_member; rewrite N; cbn [liftb bind]; change (assoc str_eqb (txt "values") field_names) with (Some FValues); unfold field_effect; cbv zeta beta iota;
    rewrite (values_field _ _ _ _ _ _ _ _ T1 T2 T3); cbn [bind]; unfold inner_def;
    destruct (fields_declared None b _ d' a' mi (no_inner_of_maps _ _ _ _ H1) A' H1) as (def' & -> & D1 & D2); cbn [bind fst snd];
    eexists; exists def'; (split; [reflexivity|]); (split; [repeat split; reflexivity|]); (split; [split; [exists n, k; exact C|intros _; exists n', k'; exact C']|]);
    split; assumption.
Qed.

(** * What the kernel says *)

Lemma csize_not_void b d k n : type_by_id (b_types b) 0 = Ok TUnknown -> ~ csize (b_types b) d k 0 n.
Proof. intros V H. inversion H as [? ? ? T Z|? ? ? ? ? ? T Z|? ? ? ? ? ? ? ? T]; subst; rewrite V in T; apply ok_inj in T; subst; discriminate. Qed.

Lemma settle d a user cpus page cp dp e v def btf : is_declared btf d a def -> 0 < page -> 0 < cpus -> asked_ok d user ->
  (counted d = true -> 0 < a_entries a) ->
  map_sizes (md_type def) user (md_entries def) (md_value def) (Some cpus) page cp dp = Ok (e, v) ->
  v = settled_value cp dp d a /\
  match d with
  | DRingBuf => exists k, 0 <= k /\ e = page * 2 ^ k
  | DPerfEventArray | DPerfEventByteArray => 0 < e
  | _ => if counted d then 0 < e else e = 0
  end.
Proof.
  intros (T & K & V & E & F & X & P) PG CP U C H. rewrite T, E, V in H. clear T K V E F X P def.
  assert (counted d = true -> 0 < match user with Some u => u | None => meant_entries d a end) as W.
  { intros N. unfold meant_entries. rewrite N. destruct user as [u|]; [cbn in U; tauto|now apply C]. }
  unfold meant_type in H.
  destruct d; cbn [meant fst snd counted] in *;
    try (rewrite sizes_other in H by (unfold PERF_EVENT_ARRAY, RINGBUF, CPUMAP, DEVMAP, DEVMAP_HASH; lia);
         apply ok_inj, pair_equal_spec in H as [<- <-]; split; [reflexivity|]; first
           [exact (W eq_refl)|destruct user; [exfalso; cbn in U; destruct U as (_ & [? | [? | ?]]); discriminate|reflexivity]]).
  1,2: fold PERF_EVENT_ARRAY in H; rewrite sizes_perf in H; apply ok_inj, pair_equal_spec in H as [<- <-]; split; [reflexivity|];
    cbv zeta; destruct user as [u|]; cbn in U |- *; [destruct (Z.eqb_spec u 0); lia|exact CP].
  - fold RINGBUF in H. apply sizes_ringbuf in H as (-> & _ & S); [|exact PG]. split; [reflexivity|]. destruct (S (W eq_refl)) as (L & _). exact L.
  - unfold map_sizes in H; cbn [max_entries_override Z.eqb Pos.eqb andb] in H. apply ok_inj, pair_equal_spec in H as [<- <-].
    split; [reflexivity|exact (W eq_refl)].
  - unfold map_sizes in H; cbn [max_entries_override Z.eqb Pos.eqb andb] in H. apply ok_inj, pair_equal_spec in H as [<- <-].
    split; [reflexivity|exact (W eq_refl)].
  - unfold map_sizes in H; cbn [max_entries_override Z.eqb Pos.eqb andb] in H. apply ok_inj, pair_equal_spec in H as [<- <-].
    split; [reflexivity|exact (W eq_refl)].
Qed.

Lemma attr_fields btf def e v fd ifd :
  let t := create_attr btf (settled e v def) fd ifd in
  t_type t = md_type def /\ t_key t = md_key def /\ t_value t = v /\ t_entries t = e /\ t_flags t = md_flags def /\ t_extra t = md_extra def /\
  t_inner_fd t = match ifd with Some n => n | None => 0 end.
Proof.
  cbv zeta. unfold create_attr, settled, set_entries, set_value. cbn [md_type md_key md_value md_entries md_flags md_extra md_key_id md_value_id].
  destruct btf; [destruct (existsb _ _); [|destruct (_ =? _)]|]; repeat split; reflexivity.
Qed.

Lemma attr_sizes btf d a def user cpus page stack cp dp e v fd ifd :
  is_declared btf d a def -> params_ok a -> sized stack d a -> flagged btf d a -> asked_ok d user -> 0 < page -> 0 < cpus ->
  (btf = false -> has_legacy d = true) ->
  map_sizes (md_type def) user (md_entries def) (md_value def) (Some cpus) page cp dp = Ok (e, v) ->
  sizes_taken page stack (create_attr btf (settled e v def) fd ifd).
Proof.
  intros D A S FL U PG CP L H. destruct (settle d a user cpus page cp dp e v def btf D PG CP U) as (-> & E); [apply S|exact H|]. clear H U.
  destruct D as (T & K & _ & _ & F & _). destruct A as (K0 & _ & V0 & E0 & F0 & _). destruct S as (SK & SV & _ & SL & SH & ST).
  destruct FL as (_ & FL & _).
  unfold sizes_taken. cbv zeta.
  set (vv := settled_value cp dp d a) in *.
  destruct (attr_fields btf def e vv fd ifd) as (-> & -> & -> & -> & -> & _). rewrite T, K, F. unfold u32_ok in *. clear T K F def.
  destruct d; cbn [meant_type meant_key meant fst snd uses_key uses_value counted] in *; subst vv; cbn [settled_value meant_value meant snd]; specialize (SK eq_refl) || clear SK;
    specialize (SV eq_refl) || clear SV.
  all: try (intuition (try lia; try congruence); fail).
  all: try (destruct dp; intuition lia).
  all: try (destruct cp; intuition lia).
  - pose proof (SL eq_refl). split; [lia|]. split; [lia|]. split; [lia|]. cbn [meant_flags]. destruct btf; [now apply FL|].
    rewrite Z.lor_spec. cbn. apply orb_true_r.
  - pose proof (ST eq_refl). split; [reflexivity|]. split; [lia|]. split; [exists (a_depth a); lia|]. split; lia.
Qed.

Lemma attr_btf btf d a def b e v cp dp fd ifd : is_declared btf d a def ->
  (if btf then ids_ok b d a def /\ type_by_id (b_types b) 0 = Ok TUnknown else has_legacy d = true) ->
  v = settled_value cp dp d a ->
  btf_taken b (create_attr btf (settled e v def) fd ifd).
Proof.
  intros (T & K & _) B V. unfold btf_taken. cbv zeta. destruct (attr_fields btf def e v fd ifd) as (-> & -> & -> & _). rewrite T, K. subst v.
  unfold create_attr, settled, set_entries, set_value. cbn [md_type md_key md_value md_entries md_flags md_extra md_key_id md_value_id].
  rewrite T. clear T K. destruct btf.
  - destruct B as ((IK & IV) & VO).
    assert (forall n, (exists d k, csize (b_types b) d k (md_key_id def) n) -> md_key_id def <> 0) as NK.
    { intros n (i & j & C) Z. rewrite Z in C. exact (csize_not_void _ _ _ _ VO C). }
    assert (forall n, (exists d k, csize (b_types b) d k (md_value_id def) n) -> md_value_id def <> 0) as NV.
    { intros n (i & j & C) Z. rewrite Z in C. exact (csize_not_void _ _ _ _ VO C). }
    pose proof (NK _ IK) as NK'.
    destruct d; cbn [meant_type meant_key meant_value meant fst snd] in *; vm_compute (existsb _ _); vm_compute (_ =? _); cbn iota;
      cbn [t_key_id t_value_id];
      try (split; reflexivity);
      try (specialize (IV ltac:(discriminate)); pose proof (NV _ IV));
      try (right; split; split; assumption);
      try (split; split; assumption).
    split; [reflexivity|]. right. split; assumption.
  - cbn [t_key_id t_value_id]. destruct d; try discriminate B; cbn [meant_type meant fst]; auto.
Qed.

Lemma attr_taken btf d a def b user cpus page stack cp dp e v fd ifd :
  is_declared btf d a def -> params_ok a -> sized stack d a -> flagged btf d a -> asked_ok d user -> 0 < page -> 0 < cpus ->
  (if btf then ids_ok b d a def /\ type_by_id (b_types b) 0 = Ok TUnknown else has_legacy d = true) ->
  map_sizes (md_type def) user (md_entries def) (md_value def) (Some cpus) page cp dp = Ok (e, v) ->
  kernel_takes page stack b (create_attr btf (settled e v def) fd ifd).
Proof.
  intros D A S FL U PG CP B H.
  split; [|split; [|split]].
  - eapply attr_sizes; eauto. intros ->. exact B.
  - destruct (attr_fields btf def e v fd ifd) as (-> & _ & _ & _ & -> & _). destruct D as (-> & _ & _ & _ & -> & _). apply FL.
  - unfold extra_taken. destruct (attr_fields btf def e v fd ifd) as (-> & _ & _ & _ & _ & -> & _). destruct D as (-> & _ & _ & _ & _ & -> & _).
    destruct FL as (_ & _ & FL). destruct A as (_ & _ & _ & _ & _ & HF & _). unfold u32_ok in HF.
    destruct d; cbn; try reflexivity. destruct btf; [specialize (FL eq_refl)|]; lia.
  - apply (attr_btf btf d a def b e v cp dp fd ifd D B).
    now destruct (settle d a user cpus page cp dp e v def btf D PG CP U) as (-> & _); [apply S|exact H|].
Qed.

(** * Checks made while compiling *)

Lemma land_bit f i : 0 <= i -> (Z.land f (2 ^ i) =? 0) = negb (Z.testbit f i).
Proof.
  intros I. destruct (Z.testbit f i) eqn:E; cbn [negb].
  - apply Z.eqb_neq. intros H. assert (Z.testbit (Z.land f (2 ^ i)) i = true) as B by (rewrite Z.land_spec, E, Z.pow2_bits_true; auto).
    rewrite H, Z.bits_0 in B. discriminate.
  - apply Z.eqb_eq. apply Z.bits_inj. intros j. rewrite Z.land_spec, Z.bits_0, Z.pow2_bits_eqb by assumption.
    destruct (Z.eqb_spec i j) as [<-|]; [now rewrite E|apply andb_false_r].
Qed.

Lemma check_sized d a stack : params_ok a -> check d a = Some true -> (d = DStackTrace -> a_depth a <= stack) -> sized stack d a /\ aligned d a.
Proof.
  intros (K0 & _ & V0 & E0 & F0 & _ & _ & AL) C ST. unfold sized, aligned, u32_ok in *.
  destruct d; cbn [check] in C; try discriminate C; apply some_inj in C; unfold s_lpm_key, S_U32 in C;
    rewrite ?andb_true_iff, ?Z.ltb_lt, ?Z.leb_le, ?Z.eqb_eq in C; cbn [uses_key uses_value counted];
    (split; [|split; [intros H; intuition (try discriminate; try lia)|intros Q; try discriminate Q; try (apply Z.mod_divide; [lia|tauto])]]);
    repeat split; intros; try discriminate; try tauto; try lia; try (specialize (ST eq_refl)); intuition lia.
Qed.

Lemma check_complete d a stack : params_ok a -> sized stack d a -> aligned d a -> flagged true d a -> check d a = Some true \/ check d a = None.
Proof.
  intros (K0 & _ & V0 & E0 & F0 & _ & _ & AL) (SK & SV & SE & SL & SH & ST) (A8 & AD) (FK & _). unfold u32_ok in *.
  assert (forall i, 0 <= i -> Z.testbit (known_flags (meant_type d a)) i = false -> Z.testbit (meant_flags true d a) i = false) as OFF.
  { intros i I H. destruct (Z.testbit (meant_flags true d a) i) eqn:T; [|reflexivity]. rewrite (FK i I T) in H. discriminate H. }
  destruct d; cbn [check]; try (right; reflexivity); left; f_equal; cbn [uses_key uses_value counted meant_flags meant_type meant fst snd] in *;
    try specialize (SK eq_refl); try specialize (SV eq_refl); try specialize (SE eq_refl);
    unfold s_lpm_key, S_U32, BPF_F_NO_COMMON_LRU, BPF_F_NO_PREALLOC, BPF_F_STACK_BUILD_ID;
    rewrite ?andb_true_iff, ?Z.ltb_lt, ?Z.leb_le.
  all: try (assert (a_align a <= 8) by (apply A8; tauto)).
  all: repeat match goal with |- _ /\ _ => split end.
  all: try lia.
  all: try (apply SL; reflexivity).
  all: try (specialize (SL eq_refl); lia).
  all: try (specialize (SH eq_refl); lia).
  all: try (specialize (ST eq_refl); lia).
  all: try (apply Z.eqb_eq, Z.mod_divide; [lia|now apply AD]).
  all: match goal with |- (Z.land _ 1 =? _) = _ => change 1 with (2 ^ 0) | |- (Z.land _ 2 =? _) = _ => change 2 with (2 ^ 1) | _ => change 32 with (2 ^ 5) end;
    rewrite land_bit, negb_true_iff by lia; apply OFF; [lia|reflexivity].
Qed.

(** * Handles *)

Lemma opened btf d a def user cpus page stack cp dp e v :
  is_declared btf d a def -> params_ok a -> sized stack d a -> flagged btf d a -> asked_ok d user -> 0 < page -> 0 < cpus ->
  map_sizes (md_type def) user (md_entries def) (md_value def) (Some cpus) page cp dp = Ok (e, v) ->
  exists h, from_id {| f_cpumap := cp; f_devmap := dp |} (same_kind d) (a_key a) (a_value a) (reported (settled e v def)) = Ok h.
Proof.
  intros D A S FL U PG CP H. destruct (settle d a user cpus page cp dp e v def btf D PG CP U) as (-> & E); [apply S|exact H|]. clear H U.
  apply handle_iff. destruct D as (T & K & _ & _ & F & _). unfold reported, settled, set_entries, set_value.
  unfold fits. cbn [PinModel.h_type PinModel.h_key PinModel.h_value PinModel.h_flags md_type md_key md_value md_flags]. rewrite T, K, F.
  destruct S as (_ & _ & _ & _ & _ & ST). destruct FL as (FK & _). clear T K F def E.
  destruct d; cbn [same_kind alias_types sizes fst snd meant_type meant_key meant_value settled_value meant f_cpumap f_devmap];
    (split; [cbn [In]; tauto|]); (split; [intros n Q; try discriminate Q; apply some_inj in Q; subst n; reflexivity|]);
    (split; [intros n Q; try discriminate Q; apply some_inj in Q; subst n; reflexivity|]); intros Q; try discriminate Q.
  specialize (ST eq_refl). split; [lia|]. split; [exists (a_depth a); lia|].
  destruct (Z.testbit (a_flags a) 5) eqn:X; [|exact X]. pose proof (FK 5 ltac:(lia) X) as Y. discriminate Y.
Qed.

Lemma opened_only d a w f k v btf def e v' h : is_declared btf d a def ->
  from_id f w k v (reported (settled e v' def)) = Ok h -> w = same_kind d.
Proof.
  intros (T & _) H. assert (exists h, from_id f w k v (reported (settled e v' def)) = Ok h) as X by eauto. apply handle_iff in X as (I & _).
  unfold reported, settled, set_entries, set_value in I. cbn [PinModel.h_type md_type] in I. rewrite T in I. clear T H.
  destruct d, w; cbn in I |- *; try reflexivity; exfalso; intuition discriminate.
Qed.

(** * The two forms *)

Lemma forms_agree d a def def' : is_declared false d a def -> is_declared true d a def' ->
  (d = DLpmTrie -> Z.testbit (a_flags a) 0 = true) -> (d = DBloomFilter -> a_hash_funcs a = 0) ->
  md_type def = md_type def' /\ md_key def = md_key def' /\ md_value def = md_value def' /\ md_entries def = md_entries def' /\
  md_flags def = md_flags def' /\ md_extra def = md_extra def'.
Proof.
  intros (-> & -> & -> & -> & -> & -> & _) (-> & -> & -> & -> & -> & -> & _) L B. repeat split.
  - destruct d; try reflexivity. cbn. apply Z.bits_inj. intros i. rewrite Z.lor_spec. destruct (Z.eqb_spec i 0) as [->|N].
    + rewrite (L eq_refl). reflexivity.
    + replace (Z.testbit 1 i) with false; [apply orb_false_r|]. symmetry. destruct i as [|p|p]; [congruence|now destruct p|reflexivity].
  - destruct d; try reflexivity. cbn. symmetry. now apply B.
Qed.

Lemma sections : section_kind (map_section false) false 28 = KMaps /\ section_kind (map_section true) false 28 = KBtfMaps.
Proof. split; reflexivity. Qed.
