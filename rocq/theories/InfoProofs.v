(** Proofs about program and map information. *)
From Coq Require Import String.
From Verif Require Import Base Text TextParse LogModel LayoutModel LayoutDecls LayoutSpec LayoutProofs InfoModel InfoSpec.
Import ListNotations.
Local Open Scope Z_scope.

(** * Fields *)

Lemma filled_zero n : forall k, filled k (repeat 0 n) = map (fun i => nth i k 0) (seq 0 n).
Proof.
  unfold filled. rewrite repeat_length. induction n as [|n IH]; intros k; [now destruct k|]. destruct k as [|b k].
  - cbn [firstn app skipn length]. rewrite <- (repeat_length 0 (S n)) at 2. generalize 0%nat. induction (S n) as [|m IHm]; intros s; [reflexivity|].
    cbn [repeat length seq map]. rewrite <- IHm. now destruct s.
  - cbn [firstn repeat length skipn app seq map nth]. f_equal. rewrite IH. rewrite <- seq_shift, map_map. reflexivity.
Qed.
Lemma slice_map_seq {A} (f : nat -> A) n o s : (o + s <= n)%nat -> slice o s (map f (seq 0 n)) = map f (seq o s).
Proof.
  intros H. unfold slice. replace n with (o + (s + (n - o - s)))%nat by lia. rewrite seq_app, map_app, skipn_app_exact by now rewrite map_length, seq_length.
  cbn [Nat.add]. rewrite seq_app, map_app, firstn_app_exact; [reflexivity|]. now rewrite map_length, seq_length.
Qed.
Lemma seq_slice k s : forall o, (o + s <= length k)%nat -> map (fun i => nth i k 0) (seq o s) = slice o s k.
Proof.
  unfold slice. induction s as [|s IH]; intros o H; [reflexivity|]. cbn [seq map]. rewrite IH by lia.
  assert (skipn o k = nth o k 0 :: skipn (S o) k) as ->; [|reflexivity].
  clear IH. revert o H. induction k as [|b k IHk]; intros o H; [cbn in H; lia|]. destruct o as [|o]; [reflexivity|]. cbn [skipn nth]. apply IHk. cbn in H. lia.
Qed.
Lemma seq_past k s : forall o, (length k <= o)%nat -> map (fun i => nth i k 0) (seq o s) = repeat 0 s.
Proof. induction s as [|s IH]; intros o H; [reflexivity|]. cbn [seq map repeat]. rewrite IH by lia. f_equal. now apply nth_overflow. Qed.

Definition unbroken (k : list Z) (o s : nat) : Prop := (o + s <= length k \/ length k <= o)%nat.
Lemma bytes_read t f o s k : field [f] t = Some (Z.of_nat o, Z.of_nat s) -> (o + s <= Z.to_nat (size t))%nat -> unbroken k o s ->
  bytes_at t f (info_of t k) = match k_bytes k o s with Some l => l | None => repeat 0 s end.
Proof.
  intros F L U. unfold bytes_at, info_of. rewrite F, !Nat2Z.id, filled_zero, slice_map_seq by exact L. unfold k_bytes. destruct (Nat.leb_spec (o + s) (length k)) as [G|G].
  - now apply seq_slice.
  - apply seq_past. unfold unbroken in U. lia.
Qed.
Lemma le_dec_zeros n : le_dec (repeat 0 n) = 0.
Proof. induction n as [|n IH]; [reflexivity|]. cbn [repeat le_dec]. rewrite IH. reflexivity. Qed.
Lemma get_read t f o s k : field [f] t = Some (Z.of_nat o, Z.of_nat s) -> (o + s <= Z.to_nat (size t))%nat -> unbroken k o s ->
  get t f (info_of t k) = or_zero (k_field k o s).
Proof. intros F L U. unfold get, k_field. rewrite (bytes_read t f o s k F L U). destruct (k_bytes k o s); [reflexivity|]. apply le_dec_zeros. Qed.

Lemma whole_in k o s l : Forall (fun '(o, s) => (o + s <= length k \/ length k <= o)%nat) l -> In (o, s) l -> unbroken k o s.
Proof. intros W I. rewrite Forall_forall in W. exact (W _ I). Qed.
Lemma whole_check (k : list Z) (l : list (nat * nat)) : forallb (fun '(o, s) => (o + s <=? length k) || (length k <=? o))%nat l = true -> Forall (fun '(o, s) => (o + s <= length k \/ length k <= o)%nat) l.
Proof. intros H. apply Forall_forall. intros [o s] I. apply forallb_forall with (1 := H) in I. apply orb_true_iff in I as [I|I]; apply Nat.leb_le in I; lia. Qed.
Ltac rd W := erewrite get_read; [reflexivity|vm_compute; reflexivity|apply Nat.leb_le; vm_compute; reflexivity|eapply whole_in; [exact W|cbn; tauto]].
Lemma prog_reads k : whole k ->
  get P "type_" (info_of P k) = or_zero (k_field k 0 4) /\ get P "id" (info_of P k) = or_zero (k_field k 4 4) /\
  get P "jited_prog_len" (info_of P k) = or_zero (k_field k 16 4) /\ get P "xlated_prog_len" (info_of P k) = or_zero (k_field k 20 4) /\
  get P "load_time" (info_of P k) = or_zero (k_field k 40 8) /\ get P "created_by_uid" (info_of P k) = or_zero (k_field k 48 4) /\
  get P "nr_map_ids" (info_of P k) = or_zero (k_field k 52 4) /\ get P "btf_id" (info_of P k) = or_zero (k_field k 128 4) /\
  get P "run_time_ns" (info_of P k) = or_zero (k_field k 192 8) /\ get P "run_cnt" (info_of P k) = or_zero (k_field k 200 8) /\
  get P "verified_insns" (info_of P k) = or_zero (k_field k 216 4).
Proof. intros W. repeat split; rd W. Qed.
Lemma prog_bytes k : whole k ->
  bytes_at P "tag" (info_of P k) = match k_bytes k 8 8 with Some l => l | None => repeat 0 8 end /\
  bytes_at P "name" (info_of P k) = match k_bytes k 64 16 with Some l => l | None => repeat 0 16 end /\
  bytes_at P "_bitfield_1" (info_of P k) = match k_bytes k 84 4 with Some l => l | None => repeat 0 4 end.
Proof.
  intros W. split; [|split].
  - apply bytes_read; [vm_compute; reflexivity|apply Nat.leb_le; vm_compute; reflexivity|eapply whole_in; [exact W|cbn; tauto]].
  - apply bytes_read; [vm_compute; reflexivity|apply Nat.leb_le; vm_compute; reflexivity|eapply whole_in; [exact W|cbn; tauto]].
  - apply bytes_read; [vm_compute; reflexivity|apply Nat.leb_le; vm_compute; reflexivity|eapply whole_in; [exact W|cbn; tauto]].
Qed.
Lemma positive_zero v : positive (or_zero v) = some_positive v.
Proof. now destruct v. Qed.
Lemma load_time_pos k : (0 <? or_zero (k_field k 40 8)) = match some_positive (k_field k 40 8) with Some _ => true | None => false end.
Proof. destruct (k_field k 40 8) as [t|]; [|reflexivity]. cbn. now destruct (0 <? t). Qed.

Theorem prog_fields k : whole k -> let i := info_of P k in
  id i = or_zero (k_field k 4 4) /\ size_jitted i = or_zero (k_field k 16 4) /\ size_translated i = some_positive (k_field k 20 4) /\
  btf_id i = some_positive (k_field k 128 4) /\ run_time i = or_zero (k_field k 192 8) /\ run_count i = or_zero (k_field k 200 8) /\
  verified_instruction_count i = some_positive (k_field k 216 4) /\
  created_by_uid i = match some_positive (k_field k 40 8) with Some _ => Some (or_zero (k_field k 48 4)) | None => None end /\
  (forall boot, loaded_at boot i = option_map (Z.add boot) (some_positive (k_field k 40 8))) /\
  (or_zero (k_field k 0 4) < 33 -> program_type i = or_zero (k_field k 0 4)) /\ (33 <= or_zero (k_field k 0 4) -> program_type i = 33).
Proof.
  intros W i. destruct (prog_reads k W) as (E0 & E4 & E16 & E20 & E40 & E48 & E52 & E128 & E192 & E200 & E216). subst i.
  unfold id, size_jitted, size_translated, btf_id, run_time, run_count, verified_instruction_count, created_by_uid, loaded_at, program_type, KNOWN_TYPES.
  rewrite E0, E4, E16, E20, E40, E48, E128, E192, E200, E216, !positive_zero, !load_time_pos. do 7 (split; [reflexivity|]). split; [now destruct (some_positive (k_field k 40 8))|]. split.
  - intros boot. destruct (k_field k 40 8) as [t|]; [|reflexivity]. cbn. now destruct (0 <? t).
  - cbv zeta. split; intros H.
    + destruct (Z.ltb_spec (or_zero (k_field k 0 4)) 33); [reflexivity|lia].
    + destruct (Z.ltb_spec (or_zero (k_field k 0 4)) 33); [lia|reflexivity].
Qed.
Theorem map_fields k : whole_map k -> let i := info_of M k in
  map_type i = or_zero (k_field k 0 4) /\ map_id i = or_zero (k_field k 4 4) /\ map_key_size i = or_zero (k_field k 8 4) /\
  map_value_size i = or_zero (k_field k 12 4) /\ map_max_entries i = or_zero (k_field k 16 4) /\ map_flags i = or_zero (k_field k 20 4).
Proof. intros W i. subst i. unfold map_type, map_id, map_key_size, map_value_size, map_max_entries, map_flags. repeat split; rd W. Qed.

(** * Tag *)

Lemma hex_fixed_mod n : forall x, hex_fixed n x = hex_fixed n (x mod 16 ^ Z.of_nat n).
Proof.
  induction n as [|n IH]; intros x; [reflexivity|]. cbn [hex_fixed]. rewrite Nat2Z.inj_succ, Z.pow_succ_r by lia.
  assert (0 < 16 ^ Z.of_nat n) as B by (apply Z.pow_pos_nonneg; lia). rewrite (IH (x / 16)), (IH (x mod (16 * 16 ^ Z.of_nat n) / 16)).
  assert (x mod (16 * 16 ^ Z.of_nat n) = x mod 16 + 16 * ((x / 16) mod 16 ^ Z.of_nat n)) as -> by (apply Z.rem_mul_r; lia).
  pose proof (Z.mod_pos_bound x 16 ltac:(lia)) as M. set (q := (x / 16) mod _). set (r := x mod 16) in *.
  replace ((r + 16 * q) / 16) with q by (apply Z.div_unique with (r := r); lia). replace ((r + 16 * q) mod 16) with r by (apply Z.mod_unique with (q := q); lia).
  f_equal. subst q. now rewrite Z.mod_mod by lia.
Qed.
Lemma hex_fixed_app m : forall n x, hex_fixed (n + m) x = hex_fixed n (x / 16 ^ Z.of_nat m) ++ hex_fixed m x.
Proof.
  induction m as [|m IH]; intros n x.
  - rewrite Nat.add_0_r. cbn [hex_fixed Z.of_nat]. rewrite app_nil_r. change (16 ^ 0) with 1. now rewrite Z.div_1_r.
  - rewrite Nat.add_succ_r. cbn [hex_fixed]. rewrite IH, <- app_assoc. f_equal. f_equal. rewrite Nat2Z.inj_succ, Z.pow_succ_r by lia. apply Z.div_div; [lia|]. apply Z.pow_pos_nonneg; lia.
Qed.
Lemma be_hex l : Forall (fun b => 0 <= b < 256) l -> hex_fixed (2 * length l) (le_dec (rev l)) = flat_map (hex_fixed 2) l.
Proof.
  rewrite <- (rev_involutive l). generalize (rev l). clear l. intros l. rewrite rev_involutive, rev_length.
  induction l as [|b l IH]; intros H; [reflexivity|]. cbn [rev length] in *. rewrite Forall_app in H. destruct H as [H1 H2].
  pose proof (Forall_inv H2) as Hb. cbv beta in Hb. rewrite flat_map_app. cbn [flat_map]. rewrite app_nil_r, <- IH by exact H1.
  replace (2 * S (length l))%nat with (2 * length l + 2)%nat by lia. rewrite hex_fixed_app. change (16 ^ Z.of_nat 2) with 256. cbn [le_dec]. f_equal.
  - f_equal. symmetry. apply Z.div_unique with (r := b); lia.
  - rewrite hex_fixed_mod. change (16 ^ Z.of_nat 2) with 256. f_equal. symmetry. apply Z.mod_unique with (q := le_dec l); lia.
Qed.
Theorem tag_shown k t : whole k -> k_bytes k 8 8 = Some t -> Forall (fun b => 0 <= b < 256) t -> hex_fixed 16 (tag (info_of P k)) = tag_text t.
Proof.
  intros W T B. unfold tag, tag_text. rewrite (proj1 (prog_bytes k W)), T. rewrite <- (be_hex t B). f_equal.
  unfold k_bytes in T. destruct (Nat.leb_spec (8 + 8) (length k)); [|discriminate T]. apply some_inj in T. subst t. rewrite firstn_length, skipn_length. lia.
Qed.

(** * Names *)

Lemma name_len_zeros n : name_len (repeat 0 n) = 0%nat.
Proof. induction n as [|n IH]; [reflexivity|]. cbn [repeat name_len]. now rewrite IH. Qed.
Lemma name_len_app n z : Forall (fun c => 0 < c < 128) n -> name_len (n ++ repeat 0 z) = length n.
Proof.
  induction n as [|c n IH]; intros F; [apply name_len_zeros|]. inversion_clear F. cbn [app name_len length]. rewrite IH by assumption. destruct (length n); [|reflexivity].
  replace (c =? 0) with false by lia. reflexivity.
Qed.
Lemma name_exact n : good_name n -> bytes_of_bpf_name (stored_name n) = n.
Proof. intros [L F]. unfold bytes_of_bpf_name, stored_name. rewrite name_len_app by exact F. now apply firstn_app_exact. Qed.
Lemma utf8_ascii_all n : Forall (fun c => 0 < c < 128) n -> utf8 n = true.
Proof. induction 1 as [|c n H _ IH]; [reflexivity|]. cbn [utf8]. unfold cont at 1. replace ((0 <=? c) && (c <=? 127)) with true by lia. exact IH. Qed.
Theorem prog_name_exact k n : whole k -> k_bytes k 64 16 = Some (stored_name n) -> good_name n ->
  prog_name (info_of P k) = n /\ (n <> [] -> forall named, prog_name_as_str named (info_of P k) = Some n) /\ (n = [] -> forall named, prog_name_as_str named (info_of P k) = if named then Some [] else None).
Proof.
  intros W N G. assert (prog_name (info_of P k) = n) as E. { unfold prog_name. rewrite (proj1 (proj2 (prog_bytes k W))), N. now apply name_exact. }
  split; [exact E|]. unfold prog_name_as_str. rewrite E. unfold str_of_name. rewrite utf8_ascii_all by apply G. split.
  - intros NE named. destruct n; [contradiction|reflexivity].
  - intros -> named. now destruct named.
Qed.
Theorem prog_name_missing k : whole k -> k_bytes k 64 16 = None -> prog_name (info_of P k) = [] /\ prog_name_as_str false (info_of P k) = None.
Proof.
  intros W N. assert (prog_name (info_of P k) = []) as E. { unfold prog_name. rewrite (proj1 (proj2 (prog_bytes k W))), N. reflexivity. }
  split; [exact E|]. unfold prog_name_as_str. now rewrite E.
Qed.
Theorem map_name_exact k n : whole_map k -> k_bytes k 24 16 = Some (stored_name n) -> good_name n -> map_name (info_of M k) = n.
Proof.
  intros W N G. unfold map_name. rewrite bytes_read with (o := 24%nat) (s := 16%nat); [rewrite N; now apply name_exact|vm_compute; reflexivity|apply Nat.leb_le; vm_compute; reflexivity|].
  eapply whole_in; [exact W|cbn; tauto].
Qed.

(** * When loaded *)

Theorem loaded_close k load t1 t2 epoch : whole k -> k_field k 40 8 = Some load -> 0 < load -> t1 <= t2 ->
  exists at_, loaded_at (boot_time t1 (epoch + t2)) (info_of P k) = Some at_ /\ epoch + load <= at_ <= epoch + load + (t2 - t1).
Proof.
  intros W L P0 T. destruct (prog_fields k W) as (_ & _ & _ & _ & _ & _ & _ & _ & E & _). rewrite E, L. cbn [some_positive]. replace (0 <? load) with true by lia. cbn [option_map].
  eexists. split; [reflexivity|]. unfold boot_time. lia.
Qed.

(** * Caches *)

Lemma ids_exact maps more : ids_written (length maps) (maps ++ more) = maps.
Proof.
  unfold ids_written. rewrite firstn_app_exact by reflexivity. rewrite skipn_all2; [apply app_nil_r|]. rewrite repeat_length, app_length. lia.
Qed.
(** A call on a kernel that reports the maps: the program has [maps] and may
    have got more since. *)
Definition call_ok (c : option bool * list Z * res Z (list Z)) (maps : list Z) : Prop :=
  let '(probe, i, reply) := c in probe = Some true /\ get P "nr_map_ids" i = Z.of_nat (length maps) /\ exists more, reply = Ok (maps ++ more).
Lemma supported_true cache seen : cache <> Some false -> supported cache (Some true) seen = true.
Proof. destruct cache as [[|]|]; [reflexivity|intros H; now destruct H|intros _]. cbn. apply orb_true_r. Qed.
Lemma map_ids_run cache l maps : cache <> Some false -> Forall2 call_ok l maps -> map_ids_calls cache l = map (fun m => Ok (Some m)) maps.
Proof.
  intros C F. revert cache C. induction F as [|[[probe i] reply] m l maps (-> & N & more & ->) F IH]; intros cache C; [reflexivity|].
  cbn [map_ids_calls map_ids map]. rewrite supported_true by exact C. rewrite N, Nat2Z.id, ids_exact. f_equal. now apply IH.
Qed.
Lemma map_ids_old l : Forall (fun '(probe, i, _) => probe = Some false /\ get P "nr_map_ids" i = 0) l -> forall cache, cache <> Some true -> map_ids_calls cache l = map (fun _ => Ok None) l.
Proof.
  induction 1 as [|[[probe i] reply] l (-> & N) F IH]; intros cache C; [reflexivity|]. cbn [map_ids_calls map_ids map]. rewrite N. replace (0 <? 0) with false by reflexivity.
  assert (supported cache (Some false) false = false) as -> by (destruct cache as [[|]|]; [now destruct C|reflexivity|reflexivity]). f_equal. apply IH. discriminate.
Qed.
Lemma gpl_run cache l : cache <> Some false -> Forall (fun '(probe, _) => probe = Some true) l -> gpl_calls cache l = map (fun '(_, i) => Some (gpl_bit i)) l.
Proof.
  intros C F. revert cache C. induction F as [|[probe i] l -> F IH]; intros cache C; [reflexivity|]. cbn [gpl_calls gpl_compatible map]. rewrite supported_true by exact C. f_equal. apply IH. discriminate.
Qed.
Lemma gpl_old l : Forall (fun '(probe, i) => probe = Some false /\ gpl_bit i = false) l -> forall cache, cache <> Some true -> gpl_calls cache l = map (fun _ => None) l.
Proof.
  induction 1 as [|[probe i] l (-> & N) F IH]; intros cache C; [reflexivity|]. cbn [gpl_calls gpl_compatible map]. rewrite N.
  assert (supported cache (Some false) false = false) as -> by (destruct cache as [[|]|]; [now destruct C|reflexivity|reflexivity]). f_equal. apply IH. discriminate.
Qed.
(** Once a failed probe is remembered nothing is reported again. *)
Lemma map_ids_never l : map_ids_calls (Some false) l = map (fun _ => Ok None) l.
Proof. induction l as [|[[probe i] reply] l IH]; [reflexivity|]. cbn [map_ids_calls map_ids supported map]. now rewrite IH. Qed.
Lemma map_ids_spoiled i reply l : get P "nr_map_ids" i = 0 -> map_ids_calls None ((None, i, reply) :: l) = map (fun _ => Ok None) ((None, i, reply) :: l).
Proof. intros N. cbn [map_ids_calls map_ids supported map]. rewrite N. cbn. f_equal. apply map_ids_never. Qed.
Lemma gpl_bit_read k w : whole k -> k_field k 84 4 = Some w -> gpl_bit (info_of P k) = Z.testbit w 0.
Proof.
  intros W F. unfold gpl_bit. rewrite (proj2 (proj2 (prog_bytes k W))). unfold k_field, k_bytes in *. destruct (Nat.leb_spec (84 + 4) (length k)) as [L|]; [|discriminate F].
  cbn [option_map] in F. apply some_inj in F. subst w. destruct (firstn 4 (skipn 84 k)) as [|b r] eqn:E; [reflexivity|]. cbn [nth le_dec]. rewrite !Z.bit0_odd.
  now rewrite Z.odd_add_mul_even by now exists 128.
Qed.

Lemma nr_read k : whole k -> get P "nr_map_ids" (info_of P k) = or_zero (k_field k 52 4).
Proof. intros W. exact (proj1 (proj2 (proj2 (proj2 (proj2 (proj2 (proj2 (prog_reads k W)))))))). Qed.
Theorem map_ids_new cache calls : cache <> Some false -> Forall (fun '(k, maps, _) => whole k /\ k_field k 52 4 = Some (Z.of_nat (length maps))) calls ->
  map_ids_calls cache (map (fun '(k, maps, more) => (Some true, info_of P k, Ok (maps ++ more))) calls) = map (fun '(_, maps, _) => Ok (Some maps)) calls.
Proof.
  intros C F. rewrite (map_ids_run cache _ (map (fun '(_, maps, _) => maps) calls) C).
  - rewrite map_map. apply map_ext. now intros [[k maps] more].
  - clear C. induction F as [|[[k maps] more] calls (W & E) F IH]; cbn [map]; constructor; [|exact IH]. split; [reflexivity|]. split; [|now exists more]. now rewrite nr_read, E.
Qed.
Theorem map_ids_fails cache k n e : cache <> Some false -> whole k -> k_field k 52 4 = Some n ->
  map_ids_calls cache [(Some true, info_of P k, Err e)] = [Err e].
Proof.
  intros C W E. cbn [map_ids_calls]. unfold map_ids, supported.
  destruct cache as [[]|]; [reflexivity|destruct (C eq_refl)|]. destruct (0 <? get P "nr_map_ids" (info_of P k)); reflexivity.
Qed.
Theorem map_ids_missing cache calls : cache <> Some true -> Forall (fun '(k, _) => whole k /\ k_field k 52 4 = None) calls ->
  map_ids_calls cache (map (fun '(k, reply) => (Some false, info_of P k, reply)) calls) = map (fun _ => Ok None) calls.
Proof.
  intros C F. rewrite map_ids_old with (cache := cache); [now rewrite map_map| |exact C].
  clear C. induction F as [|[k reply] calls (W & E) F IH]; cbn [map]; constructor; [|exact IH]. split; [reflexivity|]. now rewrite nr_read, E.
Qed.
Theorem map_ids_lost k reply later : whole k -> k_field k 52 4 = Some 0 ->
  map_ids_calls None ((None, info_of P k, reply) :: later) = map (fun _ => Ok None) ((None, info_of P k, reply) :: later).
Proof. intros W E. apply map_ids_spoiled. now rewrite nr_read, E. Qed.
Theorem gpl_new cache calls : cache <> Some false -> Forall (fun '(k, w) => whole k /\ k_field k 84 4 = Some w) calls ->
  gpl_calls cache (map (fun '(k, _) => (Some true, info_of P k)) calls) = map (fun '(_, w) => Some (Z.odd w)) calls.
Proof.
  intros C F. rewrite gpl_run; [|exact C|clear; induction calls as [|[k w] calls IH]; cbn [map]; constructor; [reflexivity|exact IH]].
  rewrite map_map. clear C. induction F as [|[k w] calls (W & E) F IH]; [reflexivity|]. cbn [map]. rewrite IH. f_equal. now rewrite (gpl_bit_read k w W E), Z.bit0_odd.
Qed.
Theorem gpl_missing cache calls : cache <> Some true -> Forall (fun k => whole k /\ k_field k 84 4 = None) calls ->
  gpl_calls cache (map (fun k => (Some false, info_of P k)) calls) = map (fun _ => None) calls.
Proof.
  intros C F. rewrite gpl_old with (cache := cache); [now rewrite map_map| |exact C]. clear C. induction F as [|k calls (W & E) F IH]; cbn [map]; constructor; [|exact IH]. split; [reflexivity|].
  unfold gpl_bit. rewrite (proj2 (proj2 (prog_bytes k W))). unfold k_field in E. destruct (k_bytes k 84 4); [discriminate E|reflexivity].
Qed.
Theorem gpl_lost i later : gpl_bit i = false -> gpl_calls None ((None, i) :: later) = map (fun _ => None) ((None, i) :: later).
Proof.
  intros N. cbn [gpl_calls gpl_compatible supported map]. rewrite N. cbn [orb]. f_equal. induction later as [|[probe j] later IH]; [reflexivity|]. cbn [gpl_calls gpl_compatible supported map]. now rewrite IH.
Qed.

(** * fdinfo *)

Lemma begins_in key s : begins key s = true -> forall c, In c key -> In c s.
Proof.
  revert s. induction key as [|k key IH]; intros s B c I; [destruct I|]. destruct s as [|d s]; [discriminate B|]. cbn [begins] in B. apply andb_true_iff in B as [E B]. apply Z.eqb_eq in E as ->.
  destruct I as [<-|I]; [now left|]. right. exact (IH s B c I).
Qed.
Lemma contains_in key s : contains key s = true -> forall c, In c key -> In c s.
Proof.
  induction s as [|d s IH]; cbn [contains]; intros H c I; apply orb_true_iff in H as [H|H]; try (exact (begins_in _ _ H c I)); [discriminate H|]. right. exact (IH H c I).
Qed.
Lemma no_key key s c : In c key -> ~ In c s -> contains key s = false.
Proof. intros I N. destruct (contains key s) eqn:E; [|reflexivity]. exfalso. exact (N (contains_in key s E c I)). Qed.
Lemma begins_app key s : begins key (key ++ s) = true.
Proof. induction key as [|k key IH]; [reflexivity|]. cbn [app begins]. now rewrite Z.eqb_refl. Qed.
Lemma contains_app key s : contains key (key ++ s) = true.
Proof. destruct (key ++ s) eqn:E; cbn [contains]; rewrite <- E, begins_app; reflexivity. Qed.
Lemma after_tab_none s : ~ In 9 s -> after_tab s = None.
Proof. induction s as [|c s IH]; intros N; [reflexivity|]. cbn [after_tab]. cbn [In] in N. rewrite IH by tauto. destruct (Z.eqb_spec c 9); [subst; tauto|reflexivity]. Qed.
Lemma after_tab_last a s : ~ In 9 s -> after_tab (a ++ 9 :: s) = Some s.
Proof. intros N. induction a as [|c a IH]; cbn [app after_tab]; [now rewrite after_tab_none|now rewrite IH]. Qed.
Lemma dec_digits n : 0 <= n < 2 ^ 64 -> Forall (fun c => 48 <= c <= 57) (dec n).
Proof.
  intros H. destruct (dec_spec n) as (_ & F & _); [split; [lia|]; eapply Z.lt_trans; [apply H|reflexivity]|]. eapply Forall_impl; [|exact F]. cbn. intros c D. unfold is_digit in D. lia.
Qed.
Lemma hex_digits n x : Forall (fun c => 48 <= c <= 57 \/ 97 <= c <= 102) (hex_fixed n x).
Proof. apply hex_fixed_chars. Qed.
Definition small_line (k : string) (v : list Z) : Prop := Forall (fun c => 48 <= c <= 57 \/ 97 <= c <= 102) v.
Lemma row_no k v c : ~ In c (txt k) -> c <> 9 -> Forall (fun c => 48 <= c <= 57 \/ 97 <= c <= 102) v -> ~ (48 <= c <= 57 \/ 97 <= c <= 102) -> ~ In c (row k v).
Proof.
  intros K T V C I. unfold row in I. rewrite !in_app_iff in I. destruct I as [I|[I|I]]; [exact (K I)|cbn in I; lia|]. rewrite Forall_forall in V. exact (C (V _ I)).
Qed.
Lemma dec_small n : 0 <= n < 2 ^ 64 -> Forall (fun c => 48 <= c <= 57 \/ 97 <= c <= 102) (dec n).
Proof. intros H. eapply Forall_impl; [|exact (dec_digits n H)]. cbn. lia. Qed.
Lemma file_lines f : fd_numbers f -> lines (fdinfo_file f) =
  [row "pos:" (dec (fs_pos f)); row "flags:" (dec (fs_flags f)); row "mnt_id:" (dec (fs_mnt f)); row "ino:" (dec (fs_ino f));
    row "prog_type:" (dec (fs_type f)); row "prog_jited:" (dec (fs_jited f)); row "prog_tag:" (hex_fixed 16 (fs_tag f)); row "memlock:" (dec (fs_memlock f));
    row "prog_id:" (dec (fs_id f)); row "run_time_ns:" (dec (fs_time f)); row "run_cnt:" (dec (fs_cnt f)); row "recursion_misses:" (dec (fs_misses f));
    row "verified_insns:" (dec (fs_insns f))].
Proof.
  intros N. unfold fd_numbers in N. rewrite Forall_forall in N. unfold fdinfo_file. apply lines_unlines.
  repeat constructor; apply row_no; try lia; try (cbn; intuition lia); first [apply hex_digits|apply dec_small, N; cbn; tauto].
Qed.
Lemma digits_more radix m1 m2 s : m1 <= m2 -> forall acc v, digits_val radix m1 acc s = Some v -> digits_val radix m2 acc s = Some v.
Proof.
  intros H. induction s as [|c s IH]; intros acc v E; [exact E|]. cbn [digits_val] in *. destruct (digit_val radix c) as [d|]; [|discriminate E].
  cbv zeta in *. destruct (Z.ltb_spec (acc * radix + d) m1); [|discriminate E]. replace (acc * radix + d <? m2) with true by lia. now apply IH.
Qed.
Lemma parse_more m1 m2 s v : parse_uint 10 m1 s = Some v -> m1 <= m2 -> parse_uint 10 m2 s = Some v.
Proof.
  intros E H. unfold parse_uint in *. destruct s as [|c r]; [discriminate E|]. destruct (if c =? 43 then r else c :: r); [discriminate E|]. exact (digits_more 10 m1 m2 _ H _ _ E).
Qed.
Theorem memlock_read f : fd_numbers f -> memory_locked (fdinfo_file f) = if fs_memlock f <? 2 ^ 32 then Some (fs_memlock f) else None.
Proof.
  intros N. unfold memory_locked, get_fdinfo. rewrite file_lines by exact N. unfold fd_numbers in N. rewrite Forall_forall in N. cbn [fdinfo_value].
  assert (forall k v, ~ In 107 (txt k) -> Forall (fun c => 48 <= c <= 57 \/ 97 <= c <= 102) v -> contains (txt "memlock") (row k v) = false) as NK.
  { intros k v K V. apply no_key with (c := 107); [cbn; tauto|]. apply row_no; [exact K|lia|exact V|lia]. }
  rewrite (NK "pos:"%string (dec (fs_pos f)) ltac:(cbn; intuition lia) (dec_small _ (N (fs_pos f) ltac:(cbn; tauto)))).
  rewrite (NK "flags:"%string (dec (fs_flags f)) ltac:(cbn; intuition lia) (dec_small _ (N (fs_flags f) ltac:(cbn; tauto)))).
  rewrite (NK "mnt_id:"%string (dec (fs_mnt f)) ltac:(cbn; intuition lia) (dec_small _ (N (fs_mnt f) ltac:(cbn; tauto)))).
  rewrite (NK "ino:"%string (dec (fs_ino f)) ltac:(cbn; intuition lia) (dec_small _ (N (fs_ino f) ltac:(cbn; tauto)))).
  rewrite (NK "prog_type:"%string (dec (fs_type f)) ltac:(cbn; intuition lia) (dec_small _ (N (fs_type f) ltac:(cbn; tauto)))).
  rewrite (NK "prog_jited:"%string (dec (fs_jited f)) ltac:(cbn; intuition lia) (dec_small _ (N (fs_jited f) ltac:(cbn; tauto)))).
  rewrite (NK "prog_tag:"%string (hex_fixed 16 (fs_tag f)) ltac:(cbn; intuition lia) (hex_digits _ _)).
  assert (contains (txt "memlock") (row "memlock:" (dec (fs_memlock f))) = true) as ->. { apply (contains_app (txt "memlock") ([58] ++ [9] ++ dec (fs_memlock f))). }
  assert (0 <= fs_memlock f < 2 ^ 64) as B by (apply N; cbn; tauto).
  change (row "memlock:" (dec (fs_memlock f))) with (txt "memlock:" ++ 9 :: dec (fs_memlock f)). rewrite after_tab_last; [|intros I; pose proof (dec_digits _ B) as D; rewrite Forall_forall in D; specialize (D _ I); lia].
  destruct (Z.ltb_spec (fs_memlock f) (2 ^ 32)) as [L|G].
  - apply parse_dec; [|exact L]. split; [lia|]. eapply Z.lt_trans; [apply B|reflexivity].
  - destruct (dec_u32 (dec (fs_memlock f))) as [v|] eqn:E; [exfalso|reflexivity]. unfold dec_u32 in E.
    assert (parse_uint 10 (2 ^ 64) (dec (fs_memlock f)) = Some (fs_memlock f)) as E2 by (apply parse_dec; [split; [lia|]; eapply Z.lt_trans; [apply B|reflexivity]|lia]).
    rewrite (parse_more _ _ _ _ E) in E2 by lia. apply some_inj in E2. subst v. unfold parse_uint in E. destruct (dec (fs_memlock f)) as [|c r]; [discriminate E|].
    destruct (if c =? 43 then r else c :: r) as [|d s] eqn:S1; [discriminate E|]. apply digits_bound in E; lia.
Qed.
Theorem memlock_fits f : fd_numbers f -> program_pages f -> memory_locked (fdinfo_file f) = Some (fs_memlock f).
Proof.
  intros N (pages & sz & E & A & B). rewrite memlock_read by exact N. assert (fs_memlock f < 2 ^ 32) as L by (rewrite E; nia). apply Z.ltb_lt in L. now rewrite L.
Qed.
