(** Proofs about typed map handles: types, sizes and memory. *)
From Verif Require Import Base Text MapModel MapSpec MapProofs TypedModel TypedSpec.
Local Open Scope Z_scope.

(** * Types *)

Lemma type_cases (P : Z -> Prop) t : 0 <= t <= 33 ->
  P 0 -> P 1 -> P 2 -> P 3 -> P 4 -> P 5 -> P 6 -> P 7 -> P 8 -> P 9 -> P 10 -> P 11 -> P 12 -> P 13 -> P 14 -> P 15 -> P 16 -> P 17 ->
  P 18 -> P 19 -> P 20 -> P 21 -> P 22 -> P 23 -> P 24 -> P 25 -> P 26 -> P 27 -> P 28 -> P 29 -> P 30 -> P 31 -> P 32 -> P 33 -> P t.
Proof.
  intros B; intros.
  assert (t = 0 \/ t = 1 \/ t = 2 \/ t = 3 \/ t = 4 \/ t = 5 \/ t = 6 \/ t = 7 \/ t = 8 \/ t = 9 \/ t = 10 \/ t = 11 \/ t = 12 \/ t = 13
    \/ t = 14 \/ t = 15 \/ t = 16 \/ t = 17 \/ t = 18 \/ t = 19 \/ t = 20 \/ t = 21 \/ t = 22 \/ t = 23 \/ t = 24 \/ t = 25 \/ t = 26
    \/ t = 27 \/ t = 28 \/ t = 29 \/ t = 30 \/ t = 31 \/ t = 32 \/ t = 33) as C by lia.
  repeat (destruct C as [-> | C]; [assumption|]). now subst.
Qed.

Lemma from_info_eq sh : from_info sh = sh.
Proof. destruct sh. reflexivity. Qed.

Lemma alias_range w t : In t (alias_types w) -> 0 <= t <= 33.
Proof. destruct w; cbn [alias_types In]; lia. Qed.

Lemma map_type_some t : 0 <= t <= 33 -> map_type_of t = Some t.
Proof. intros H. unfold map_type_of. replace ((0 <=? t) && (t <=? 33)) with true by lia. reflexivity. Qed.

Lemma map_type_none t : ~ 0 <= t <= 33 -> map_type_of t = None.
Proof. intros H. unfold map_type_of. replace ((0 <=? t) && (t <=? 33)) with false by lia. reflexivity. Qed.

Lemma variant_iff w sh : (exists m, from_map_data sh = Ok m /\ accepts w m = true) <-> In (h_type sh) (alias_types w).
Proof.
  unfold from_map_data. destruct sh as [t k v e fl]. cbn [h_type].
  destruct (Z_le_gt_dec 0 t) as [A|A]; [destruct (Z_le_gt_dec t 33) as [B|B]|].
  - rewrite map_type_some by lia. revert t A B. intros t A B. pattern t. apply type_cases; [lia|..]; destruct w; cbn [alias_types In];
      (split; [intros (m & E & H); try discriminate E; apply ok_inj in E; subst m; try discriminate H; lia
              |intros H; try (exfalso; lia); eexists; split; reflexivity]).
  - rewrite map_type_none by lia. split; [intros (m & E & _); discriminate|]. intros I. apply alias_range in I. lia.
  - rewrite map_type_none by lia. split; [intros (m & E & _); discriminate|]. intros I. apply alias_range in I. lia.
Qed.

Lemma kv_iff k v sh : check_kv_size k v sh = Ok tt <-> h_key sh = k /\ h_value sh = v.
Proof.
  unfold check_kv_size. destruct (Z.eqb_spec k (h_key sh)); cbn [negb]; [|split; [discriminate|intros [? _]; congruence]].
  destruct (Z.eqb_spec v (h_value sh)); cbn [negb]; [|split; [discriminate|intros [_ ?]; congruence]]. split; auto.
Qed.

Lemma v_iff v sh : check_v_size v sh = Ok tt <-> h_value sh = v.
Proof. unfold check_v_size. destruct (Z.eqb_spec v (h_value sh)); cbn [negb]; split; auto; congruence. Qed.

Lemma land32 x : (Z.land x 32 =? 0) = negb (Z.testbit x 5).
Proof.
  change 32 with (2 ^ 5). destruct (Z.testbit x 5) eqn:T; cbn [negb].
  - apply Z.eqb_neq. intros E. assert (Z.testbit (Z.land x (2 ^ 5)) 5 = false) as F by (rewrite E; apply Z.bits_0).
    rewrite Z.land_spec, T, Z.pow2_bits_true in F by lia. discriminate.
  - apply Z.eqb_eq. apply Z.bits_inj'. intros n Hn. rewrite Z.bits_0, Z.land_spec. destruct (Z.eq_dec n 5) as [->|N].
    + now rewrite T.
    + rewrite Z.pow2_bits_false by congruence. apply andb_false_r.
Qed.

Lemma stack_iff sh : stack_trace_new sh = Ok tt <->
  h_key sh = 4 /\ h_value sh <> 0 /\ (8 | h_value sh) /\ Z.testbit (h_flags sh) 5 = false.
Proof.
  unfold stack_trace_new, BPF_F_STACK_BUILD_ID. rewrite land32, negb_involutive.
  rewrite <- Z.mod_divide by lia.
  destruct (Z.eqb_spec (h_key sh) 4); cbn [negb]; [|split; [discriminate|tauto]].
  destruct (Z.testbit (h_flags sh) 5); [split; [discriminate|intuition discriminate]|].
  destruct (Z.eqb_spec (h_value sh) 0); cbn [orb]; [split; [discriminate|tauto]|].
  destruct (Z.eqb_spec (h_value sh mod 8) 0); cbn [negb]; [|split; [discriminate|tauto]]. tauto.
Qed.

Lemma new_iff f w k v sh : new f w k v sh = Ok tt <-> fits f w k v sh.
Proof.
  unfold fits. destruct w; cbn [new sizes fst snd]; rewrite ?kv_iff, ?v_iff, ?stack_iff;
    (split; [intros H; repeat apply conj; try (intros n E; try discriminate E; apply some_inj in E; subst n); try discriminate; intuition lia
            |intros (A & B & C); try reflexivity]);
    try (split; [exact (A _ eq_refl)|exact (B _ eq_refl)]).
  - exact (B _ eq_refl).
  - pose proof (A _ eq_refl). destruct (C eq_refl) as (? & ? & ?). auto.
Qed.

Lemma new_cases f w k v sh : new f w k v sh = Ok tt \/ exists e, new f w k v sh = Err e.
Proof. destruct (new f w k v sh) as [[]|e]; eauto. Qed.

Lemma try_from_inv f w k v m sh h : try_from_map f w k v m sh = Ok h ->
  accepts w m = true /\ fits f w k v sh /\ h = {| hd_wrap := w; hd_k := k; hd_v := v; hd_shape := sh |}.
Proof.
  unfold try_from_map. destruct (accepts w m); [|discriminate]. destruct (new_cases f w k v sh) as [E|[e E]]; rewrite E; cbn [bind]; [|discriminate].
  intros H. apply ok_inj in H. subst h. apply new_iff in E. auto.
Qed.

Lemma handle_iff f w k v sh : (exists h, from_id f w k v sh = Ok h) <-> In (h_type sh) (alias_types w) /\ fits f w k v sh.
Proof.
  unfold from_id. rewrite from_info_eq. cbv zeta. rewrite <- variant_iff. split.
  - intros (h & H). destruct (from_map_data sh) as [m|]; [|discriminate]. cbn [bind] in H. apply try_from_inv in H as (A & F & _). eauto.
  - intros ((m & E & A) & F). rewrite E. cbn [bind]. unfold try_from_map. rewrite A. apply new_iff in F. rewrite F. cbn [bind]. eauto.
Qed.

Lemma from_map_data_err sh e : from_map_data sh = Err e -> e = EInvalidMapType (h_type sh).
Proof.
  unfold from_map_data. destruct sh as [t k v en fl]. cbn [h_type]. intros E.
  destruct (Z_le_gt_dec 0 t) as [A|A]; [destruct (Z_le_gt_dec t 33) as [B|B]|]; [|rewrite map_type_none in E by lia; congruence..].
  rewrite map_type_some in E by lia. revert E. pattern t. apply type_cases; [lia|..]; congruence.
Qed.

Lemma handle_wrong_type f w k v sh : ~ In (h_type sh) (alias_types w) -> from_id f w k v sh = Err (EInvalidMapType (h_type sh)).
Proof.
  intros N. unfold from_id. rewrite from_info_eq. cbv zeta. destruct (from_map_data sh) as [m|e] eqn:E; cbn [bind].
  - unfold try_from_map. destruct (accepts w m) eqn:A; [|reflexivity]. exfalso. apply N, variant_iff. eauto.
  - apply from_map_data_err in E. now subst.
Qed.

(** The table used when loading agrees with the one used for maps found
    elsewhere. *)
Lemma tables_agree sh allow m : parse_map sh allow = Ok m -> (m <> VUnsupported -> from_map_data sh = Ok m) /\
  (m = VUnsupported -> allow = true /\ (from_map_data sh = Ok VUnsupported \/ h_type sh = 0)).
Proof.
  unfold from_map_data, parse_map. destruct sh as [t k v en fl]. cbn [h_type].
  destruct (Z_le_gt_dec 0 t) as [A|A]; [destruct (Z_le_gt_dec t 33) as [B|B]|]; [|rewrite map_type_none by lia; discriminate..].
  rewrite map_type_some by lia. pattern t. apply type_cases; [lia|..]; destruct allow; intros E; try discriminate E; apply ok_inj in E; subst m;
    split; auto; try discriminate; intros []; reflexivity.
Qed.

Lemma tables_converse sh m : from_map_data sh = Ok m -> parse_map sh true = Ok m /\ (m <> VUnsupported -> parse_map sh false = Ok m).
Proof.
  unfold from_map_data, parse_map. destruct sh as [t k v en fl]. cbn [h_type].
  destruct (Z_le_gt_dec 0 t) as [A|A]; [destruct (Z_le_gt_dec t 33) as [B|B]|]; [|rewrite map_type_none by lia; discriminate..].
  rewrite map_type_some by lia. pattern t. apply type_cases; [lia|..]; intros E; try discriminate E; apply ok_inj in E; subst m;
    split; auto; intros []; reflexivity.
Qed.

Lemma create_ok f w k v entries flags sh : create_shape w k v entries flags = Some sh ->
  exists h, from_id f w k v sh = Ok h /\ hd_shape h = sh /\ h_entries sh = entries /\ h_flags sh = flags.
Proof.
  intros C.
  assert (In (h_type sh) (alias_types w) /\ fits f w k v sh /\ h_entries sh = entries /\ h_flags sh = flags) as (T & F & E & G).
  { destruct w; try discriminate C; apply some_inj in C; subst sh; cbn [PinModel.h_type alias_types In];
      (split; [tauto|]); (split; [|split; reflexivity]); apply new_iff; cbn [new]; rewrite ?kv_iff, ?v_iff; auto. }
  destruct (proj2 (handle_iff f w k v sh) (conj T F)) as [h H]. exists h. split; [exact H|]. split; [|auto].
  unfold from_id in H. rewrite from_info_eq in H. cbv zeta in H. destruct (from_map_data sh) as [m|]; [|discriminate]. cbn [bind] in H.
  apply try_from_inv in H as (_ & _ & ->). reflexivity.
Qed.

(** * Memory *)

Lemma variant_type m sh : from_map_data sh = Ok m -> forall w, accepts w m = true -> In (h_type sh) (alias_types w).
Proof. intros E w A. apply variant_iff. eauto. Qed.

Lemma build_length cpus size l mem : length l = cpus -> Forall (fun b => length b = size) l -> build_kernel_mem cpus size l = Ok mem ->
  length mem = (cpus * next_multiple_of_8 size)%nat.
Proof.
  intros L F E. destruct (write_values_ok size l 0 (alloc_kernel_mem cpus size) F) as (r & Er & Lr & _).
  { unfold alloc_kernel_mem. rewrite repeat_length. cbn [Nat.add]. now rewrite L. }
  unfold build_kernel_mem in E. rewrite E in Er. apply ok_inj in Er. subst r. unfold alloc_kernel_mem in Lr. now rewrite repeat_length in Lr.
Qed.

Lemma key_bytes_length h k f : key_ok h k -> fits f (hd_wrap h) (hd_k h) (hd_v h) (hd_shape h) -> kernel_ok (hd_shape h) ->
  In (h_type (hd_shape h)) (alias_types (hd_wrap h)) -> Z.of_nat (length (key_bytes k)) = h_key (hd_shape h).
Proof.
  intros K (F1 & F2 & F3) (_ & _ & Ko & Kz) T. unfold key_ok in K.
  destruct (hd_wrap h); cbn [sizes fst snd] in *; destruct k; try contradiction; cbn [key_bytes]; rewrite ?app_length, ?le_enc_length; cbn [length];
    try (pose proof (F1 _ eq_refl); lia).
  cbn [alias_types In] in T. destruct Ko as [E _]; [cbn [In]; lia|]. lia.
Qed.

Lemma values_space f cpus h : fits f (hd_wrap h) (hd_k h) (hd_v h) (hd_shape h) -> kernel_ok (hd_shape h) ->
  In (h_type (hd_shape h)) (alias_types (hd_wrap h)) -> In MGet (methods (hd_wrap h)) \/ In MPop (methods (hd_wrap h)) ->
  value_space f cpus h = copied cpus (hd_shape h) /\ (In MPop (methods (hd_wrap h)) -> value_size f h = copied cpus (hd_shape h)).
Proof.
  intros (F1 & F2 & F3) (V0 & V1 & Ko & Kz) T M. unfold value_space, copied.
  assert (hd_wrap h = WPerCpuArray \/ hd_wrap h = WPerCpuHashMap \/ hd_wrap h = WPerCpuCgroupStorage -> 0 <= hd_v h) as V2.
  { intros [E | [E | E]]; rewrite E in *; rewrite <- (F2 _ eq_refl); exact V1. }
  destruct (hd_wrap h) eqn:W; cbn [methods In] in M; try (exfalso; intuition discriminate); unfold value_size; rewrite W; cbn [per_cpu sizes fst snd alias_types In] in *;
    (split; [|cbn [methods In]; intros M'; try (exfalso; intuition discriminate)]);
    repeat match goal with H : _ \/ _ |- _ => destruct H as [H|H] | H : False |- _ => contradiction end;
    try discriminate; try subst;
    try match goal with H : _ = PinModel.h_type _ |- _ => rewrite <- H end; cbn [existsb Z.eqb Pos.eqb orb];
    try (pose proof (F2 _ eq_refl); lia);
    try (destruct (F3 eq_refl) as (? & [q Q] & ?); rewrite Q; rewrite Z.div_mul by lia; lia);
    try (rewrite (F2 _ eq_refl) in *; pose proof (stride_eq (Z.to_nat (hd_v h))) as S; unfold slot_size in S; rewrite Z2Nat.id in S by lia; nia).
Qed.

Lemma val_bytes_length f cpus h v b : val_ok cpus h v -> fits f (hd_wrap h) (hd_k h) (hd_v h) (hd_shape h) -> kernel_ok (hd_shape h) ->
  In (h_type (hd_shape h)) (alias_types (hd_wrap h)) -> val_bytes f cpus h v = Ok b -> Z.of_nat (length b) = copied cpus (hd_shape h).
Proof.
  intros V (F1 & F2 & F3) (V0 & V1 & Ko & Kz) T E. unfold copied.
  unfold val_ok in V.
  destruct (hd_wrap h) eqn:W; destruct v as [d|l|fd|t p]; try contradiction; cbn [val_bytes sizes fst snd alias_types In] in *; rewrite ?W in E;
    repeat match goal with H : _ \/ _ |- _ => destruct H as [H|H] | H : False |- _ => contradiction end;
    match goal with H : _ = PinModel.h_type _ |- _ => rewrite <- H in * end; cbn [existsb Z.eqb Pos.eqb orb];
    try (apply ok_inj in E; subst b; rewrite ?le_enc_length; try (pose proof (F2 _ eq_refl)); lia);
    try (pose proof (F2 _ eq_refl) as F; unfold xdp_bytes in E; destruct (f_cpumap f), (f_devmap f), p; try discriminate; apply ok_inj in E; subst b;
         rewrite ?app_length, ?le_enc_length; lia);
    try (rewrite (F2 _ eq_refl) in *; destruct V as [L F]; destruct (build_kernel_mem cpus (Z.to_nat (hd_v h)) l) as [m|] eqn:B; [|discriminate];
         apply ok_inj in E; subst m; apply (build_length cpus) in B; auto;
         [pose proof (stride_eq (Z.to_nat (hd_v h))) as S; unfold slot_size in S; rewrite Z2Nat.id in S by lia; nia
         |eapply Forall_impl; [|exact F]; intros x X; cbn beta in *; lia]).
Qed.

Lemma has_method o ms : existsb (meth_eqb (meth_of o)) ms = true -> In (meth_of o) ms.
Proof. intros E. apply existsb_exists in E as (m & I & H). destruct (meth_of o), m; try discriminate; exact I. Qed.

Lemma touches f cpus w k v m sh h o q : kernel_ok sh -> from_map_data sh = Ok m -> try_from_map f w k v m sh = Ok h ->
  op_ok cpus h o -> plan f cpus h o = Ok q -> touches_exactly cpus sh q.
Proof.
  intros Ko Em T Ho P. apply try_from_inv in T as (A & F & Eh). pose proof (variant_type _ _ Em _ A) as Ty.
  assert (hd_wrap h = w /\ hd_k h = k /\ hd_v h = v /\ hd_shape h = sh) as (E1 & E2 & E3 & E4) by (subst h; auto).
  rewrite <- E1, <- E2, <- E3, <- E4 in F. rewrite <- E1, <- E4 in Ty. rewrite <- E4 in Ko.
  rewrite <- E4. clear Eh Em A m E1 E2 E3 E4 w k v sh.
  unfold plan in P. destruct (existsb _ _) eqn:Me; cbn [negb] in P; [|discriminate]. apply has_method in Me.
  assert (forall k, key_ok h k -> Z.of_nat (length (key_bytes k)) = h_key (hd_shape h)) as KL.
  { intros k K. eapply key_bytes_length; eauto. }
  assert (forall v b, val_ok cpus h v -> val_bytes f cpus h v = Ok b -> Z.of_nat (length b) = copied cpus (hd_shape h)) as VL.
  { intros v b V B. eapply val_bytes_length; eauto. }
  assert (0 <= copied cpus (hd_shape h)) as CP.
  { unfold copied. destruct Ko as (? & ? & _). repeat destruct (existsb _ _); nia. }
  intros b n I. unfold accesses in I.
  destruct o as [k fl|k v fl|k|prev|v fl|fl|v fl]; cbn [op_ok meth_of] in *.
  - destruct (check_key h k) as [[]|]; [|discriminate]. apply ok_inj in P. subst q.
    cbn [lookup q_key q_value q_cmd] in I. destruct (values_space f cpus h F Ko Ty (or_introl Me)) as [S _].
    apply in_app_or in I as [I|I].
    + destruct (h_key (hd_shape h) =? 0); [contradiction|]. destruct I as [I|[]]. apply pair_equal_spec in I as [<- <-]. symmetry. auto.
    + destruct I as [I|[]]. apply pair_equal_spec in I as [<- <-]. rewrite repeat_length, S. lia.
  - destruct Ho as [K V]. destruct (check_key h k) as [[]|]; [|discriminate]. cbn [bind] in P.
    destruct (val_bytes f cpus h v) as [vb|] eqn:B; [|discriminate]. apply ok_inj in P. subst q. cbn [update q_key q_value q_cmd] in I.
    apply in_app_or in I as [I|I].
    + destruct (h_key (hd_shape h) =? 0); [contradiction|]. destruct I as [I|[]]. apply pair_equal_spec in I as [<- <-]. symmetry. auto.
    + destruct I as [I|[]]. apply pair_equal_spec in I as [<- <-]. symmetry. eauto.
  - destruct (check_key h k) as [[]|]; [|discriminate]. apply ok_inj in P. subst q. cbn [delete q_key q_value q_cmd] in I.
    rewrite app_nil_r in I. destruct (h_key (hd_shape h) =? 0); [contradiction|]. destruct I as [I|[]]. apply pair_equal_spec in I as [<- <-]. symmetry. auto.
  - apply ok_inj in P. subst q. cbn [next_key q_key q_value q_cmd] in I. apply in_app_or in I as [I|I].
    + destruct prev as [k|]; [|contradiction]. cbn [option_map] in I. destruct (h_key (hd_shape h) =? 0); [contradiction|].
      destruct I as [I|[]]. apply pair_equal_spec in I as [<- <-]. symmetry. auto.
    + destruct I as [I|[]]. apply pair_equal_spec in I as [<- <-]. rewrite repeat_length.
      destruct F as (F1 & _). destruct Ko as (Kp & _). unfold key_size.
      destruct (hd_wrap h); cbn [methods In sizes fst] in *; try (exfalso; intuition discriminate); pose proof (F1 _ eq_refl); lia.
  - destruct (val_bytes f cpus h v) as [vb|] eqn:B; [|discriminate]. apply ok_inj in P. subst q. cbn [push q_key q_value q_cmd app] in I.
    destruct I as [I|[]]. apply pair_equal_spec in I as [<- <-]. symmetry. eauto.
  - apply ok_inj in P. subst q. cbn [lookup q_key q_value q_cmd app] in I. destruct (values_space f cpus h F Ko Ty (or_intror Me)) as [_ S].
    destruct I as [I|[]]. apply pair_equal_spec in I as [<- <-]. rewrite repeat_length, (S Me). lia.
  - destruct (val_bytes f cpus h v) as [vb|] eqn:B; [|discriminate]. apply ok_inj in P. subst q. cbn [peek q_key q_value q_cmd app] in I.
    destruct I as [I|[]]. apply pair_equal_spec in I as [<- <-]. symmetry. eauto.
Qed.

(** An index past the end is refused before the kernel is asked. *)
Lemma out_of_bounds f cpus h i o : bounded (hd_wrap h) = true -> h_entries (hd_shape h) <= i ->
  In (meth_of o) (methods (hd_wrap h)) -> (exists fl, o = OGet (UIndex i) fl) \/ (exists v fl, o = OSet (UIndex i) v fl) \/ o = ORemove (UIndex i) ->
  plan f cpus h o = Err (EOutOfBounds i (h_entries (hd_shape h))).
Proof.
  intros B L M H. unfold plan.
  assert (existsb (meth_eqb (meth_of o)) (methods (hd_wrap h)) = true) as E.
  { apply existsb_exists. exists (meth_of o). split; [exact M|]. destruct (meth_of o); reflexivity. }
  rewrite E. cbn [negb].
  assert (check_key h (UIndex i) = Err (EOutOfBounds i (h_entries (hd_shape h)))) as C.
  { unfold check_key, check_bounds. rewrite B. replace (h_entries (hd_shape h) <=? i) with true by lia. reflexivity. }
  destruct H as [(fl & ->) | [(v & fl & ->) | ->]]; rewrite C; reflexivity.
Qed.
