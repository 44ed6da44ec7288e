(** Proofs about typed map handles: what the methods do to a map. *)
From Verif Require Import Base Text MapModel MapSpec MapProofs TypedModel TypedSpec TypedProofs.
Local Open Scope Z_scope.

Lemma eqb_sym a b : str_eqb a b = str_eqb b a.
Proof.
  destruct (str_eqb a b) eqn:E; symmetry.
  - apply str_eqb_eq in E. subst. apply str_eqb_refl.
  - destruct (str_eqb b a) eqn:F; [|reflexivity]. apply str_eqb_eq in F. subst. now rewrite str_eqb_refl in E.
Qed.

Lemma eqb_iff a b : str_eqb a b = true <-> a = b.
Proof. split; [apply str_eqb_eq|intros ->; apply str_eqb_refl]. Qed.

Lemma firstn_full {A} (l : list A) n : length l = n -> firstn n l = l.
Proof. intros <-. apply firstn_all. Qed.

Lemma firstn_full_z (l : list Z) n : Z.of_nat (length l) = n -> firstn (Z.to_nat n) l = l.
Proof. intros H. apply firstn_full. lia. Qed.

Lemma Forall2_same {A B} (R : A -> B -> Prop) l m : Forall2 R l m -> length l = length m.
Proof. intros F. induction F; cbn [length]; congruence. Qed.

(** * Values *)

Definition dec_rel (f : features) (h : handle) (v : uval) (b : list Z) : Prop := decode_value f h b = Ok (shown v).

(** Plain data and per-CPU values come back as they were written. *)
Lemma round_trip f cpus h v b : val_ok cpus h v -> 0 < hd_v h -> (exists d, v = WData d) \/ (exists l, v = WPerCpu l) ->
  val_bytes f cpus h v = Ok b -> dec_rel f h v b.
Proof.
  intros V P H E. unfold dec_rel, decode_value. destruct H as [[d ->]|[l ->]]; cbn [val_bytes shown] in *.
  - apply ok_inj in E. subst b. unfold val_ok in V. destruct (hd_wrap h); try contradiction; reflexivity.
  - destruct (build_kernel_mem cpus (Z.to_nat (hd_v h)) l) as [m|] eqn:B; [|discriminate]. apply ok_inj in E. subst m.
    assert (from_kernel_mem (Z.to_nat (hd_v h)) b = Ok l) as R.
    { unfold val_ok in V. assert (length l = cpus /\ Forall (fun b => Z.of_nat (length b) = hd_v h) l) as [L F].
      { destruct (hd_wrap h); try contradiction; exact V. }
      destruct (percpu_round cpus (Z.to_nat (hd_v h)) l) as (mem & B' & R).
      - lia.
      - unfold try_from. now rewrite L, Nat.eqb_refl.
      - eapply Forall_impl; [|exact F]. intros x X. cbn beta in *. lia.
      - rewrite B in B'. apply ok_inj in B'. now subst mem. }
    unfold val_ok in V. destruct (hd_wrap h); try contradiction; cbn [per_cpu]; now rewrite R.
Qed.

Lemma per_cpu_builds f cpus h v : val_ok cpus h v -> (exists d, v = WData d) \/ (exists l, v = WPerCpu l) -> 0 < hd_v h ->
  exists b, val_bytes f cpus h v = Ok b.
Proof.
  intros V [[d ->]|[l ->]] P; cbn [val_bytes]; [eauto|].
  assert (length l = cpus /\ Forall (fun b => Z.of_nat (length b) = hd_v h) l) as [L F].
  { unfold val_ok in V. destruct (hd_wrap h); try contradiction; exact V. }
  destruct (percpu_round cpus (Z.to_nat (hd_v h)) l) as (mem & B' & R).
  - lia.
  - unfold try_from. now rewrite L, Nat.eqb_refl.
  - eapply Forall_impl; [|exact F]. intros x X. cbn beta in *. lia.
  - rewrite B'. eauto.
Qed.

(** * Hash maps *)

Definition ent_rel (f : features) (h : handle) (a : list Z * uval) (b : list Z * list Z) : Prop := fst a = fst b /\ dec_rel f h (snd a) (snd b).

Lemma entry_rel f h k d l : Forall2 (ent_rel f h) d l ->
  match dict_get k d with Some v => exists b, entry k l = Some b /\ dec_rel f h v b | None => entry k l = None end.
Proof.
  intros F. induction F as [|[k1 v1] [k2 b2] d l [E R] F IH]; [reflexivity|]. cbn [fst snd] in *. subst k2.
  unfold dict_get. cbn [find fst entry]. rewrite (eqb_sym k1 k). destruct (str_eqb k k1); [cbn [option_map snd]; eauto|exact IH].
Qed.

Lemma dict_set_here k v v' d : ~ In k (map fst d) -> dict_set k v ((k, v') :: d) = (k, v) :: d.
Proof.
  intros N. unfold dict_set. cbn [existsb fst map]. rewrite str_eqb_refl. cbn [orb]. f_equal.
  rewrite <- (map_id d) at 2. apply map_ext_in. intros [k' w] I. cbn [fst]. destruct (str_eqb k' k) eqn:E; [|reflexivity].
  apply str_eqb_eq in E. subst k'. exfalso. apply N. apply in_map_iff. now exists (k, w).
Qed.

Lemma dict_set_there k k' v v' d : k' <> k -> dict_set k v ((k', v') :: d) = (k', v') :: dict_set k v d.
Proof.
  intros N. unfold dict_set. cbn [existsb fst map]. destruct (str_eqb k' k) eqn:E; [apply str_eqb_eq in E; congruence|]. cbn [orb].
  destruct (existsb _ d); reflexivity.
Qed.

Lemma put_rel f h k v b d l : Forall2 (ent_rel f h) d l -> NoDup (map fst d) -> dec_rel f h v b ->
  Forall2 (ent_rel f h) (dict_set k v d) (put k b l).
Proof.
  intros F N R. induction F as [|[k1 v1] [k2 b2] d l [E R'] F IH].
  - cbn. constructor; [now split|constructor].
  - cbn [fst snd map] in *. subst k2. apply NoDup_cons_iff in N as [N1 N2]. cbn [put]. destruct (str_eqb k k1) eqn:Ek.
    + apply str_eqb_eq in Ek. subst k1. rewrite dict_set_here by exact N1. constructor; [now split|exact F].
    + rewrite dict_set_there by (intros ->; now rewrite str_eqb_refl in Ek). constructor; [now split|auto].
Qed.

Lemma dict_set_keys k v d : incl (map fst (dict_set k v d)) (k :: map fst d) .
Proof.
  unfold dict_set. destruct (existsb _ d).
  - rewrite map_map. intros x I. apply in_map_iff in I as ([k' w] & <- & I). right. apply in_map_iff. exists (k', w). split; [|exact I].
    cbn [fst]. now destruct (str_eqb k' k).
  - rewrite map_app. cbn [map fst]. intros x I. apply in_app_or in I as [I|[<-|[]]]; [now right|now left].
Qed.

Lemma dict_set_nodup k v d : NoDup (map fst d) -> NoDup (map fst (dict_set k v d)).
Proof.
  induction d as [|[k1 v1] d IH]; intros N.
  - cbn. constructor; [intros []|constructor].
  - cbn [map fst] in N. apply NoDup_cons_iff in N as [N1 N2]. destruct (list_eq_dec Z.eq_dec k1 k) as [->|D].
    + rewrite dict_set_here by exact N1. cbn [map fst]. now constructor.
    + rewrite dict_set_there by exact D. cbn [map fst]. constructor; [|auto]. intros I. apply dict_set_keys in I as [->|I]; auto.
Qed.

Lemma drop_rel f h k d l : Forall2 (ent_rel f h) d l -> Forall2 (ent_rel f h) (dict_del k d) (drop k l).
Proof.
  intros F. induction F as [|[k1 v1] [k2 b2] d l [E R'] F IH]; [constructor|]. cbn [fst snd] in *. subst k2. unfold dict_del, drop.
  cbn [filter fst]. rewrite (eqb_sym k1 k). destruct (str_eqb k k1); cbn [negb]; [exact IH|]. constructor; [now split|exact IH].
Qed.

Lemma dict_del_nodup k d : NoDup (map fst d) -> NoDup (map fst (dict_del k d)).
Proof.
  unfold dict_del. induction d as [|[k1 v1] d IH]; intros N; [constructor|]. cbn [map fst] in N. apply NoDup_cons_iff in N as [N1 N2].
  cbn [filter fst]. destruct (negb _); [|auto]. cbn [map fst]. constructor; [|auto]. intros I. apply N1.
  apply in_map_iff in I as (x & E & I). apply filter_In in I as [I _]. apply in_map_iff. eauto.
Qed.

Lemma keys_rel f h d l : Forall2 (ent_rel f h) d l -> map fst d = map fst l.
Proof. intros F. induction F as [|a b d l [E _] F IH]; cbn [map]; [reflexivity|]. now rewrite E, IH. Qed.

Lemma other_flags {A} (fl : Z) (a b c d : A) : (fl <? 0) || (2 <? fl) = true -> match fl with 0 => a | 1 => b | 2 => c | _ => d end = d.
Proof. intros H. destruct fl as [|[p|[p|p|]|]|p]; try reflexivity; cbn in H; discriminate. Qed.

Lemma calls_sim {S T} (kernel : req -> S -> res Z (list Z) * S) f cpus h (step : op -> T -> res merr out * T) (R : T -> S -> Prop) (good : op -> Prop) :
  (forall o t s, good o -> R t s -> fst (call kernel f cpus h o s) = fst (step o t) /\ R (snd (step o t)) (snd (call kernel f cpus h o s))) ->
  forall l t s, Forall good l -> R t s -> fst (calls kernel f cpus h l s) = steps step l t.
Proof.
  intros St l. induction l as [|o l IH]; intros t s G Rts; [reflexivity|]. cbn [calls steps].
  specialize (St o t s (Forall_inv G) Rts) as [E R']. destruct (call kernel f cpus h o s) as [r s1]. destruct (step o t) as [r' t1]. cbn [fst snd] in *.
  specialize (IH t1 s1 (Forall_inv_tail G) R'). destruct (calls kernel f cpus h l s1) as [rs s2]. cbn [fst] in *. congruence.
Qed.

Definition hash_handle (h : handle) : Prop :=
  kernel_ok (hd_shape h) /\ 0 < hd_v h /\
  ((hd_wrap h = WHashMap /\ h_type (hd_shape h) = 1) \/ (hd_wrap h = WPerCpuHashMap /\ h_type (hd_shape h) = 5)) /\
  h_key (hd_shape h) = hd_k h /\ h_value (hd_shape h) = hd_v h.

Lemma hash_fits f h : hash_handle h -> fits f (hd_wrap h) (hd_k h) (hd_v h) (hd_shape h) /\ In (h_type (hd_shape h)) (alias_types (hd_wrap h)).
Proof.
  intros (_ & _ & [[W T]|[W T]] & K & V); rewrite W, T; (split; [|cbn [alias_types In]; tauto]); apply new_iff; cbn [new]; apply kv_iff; auto.
Qed.

Lemma hash_sim f cpus h o d l : hash_handle h -> op_ok cpus h o -> Forall2 (ent_rel f h) d l /\ NoDup (map fst d) ->
  fst (call (khash cpus (hd_shape h)) f cpus h o l) = fst (hash_step (h_entries (hd_shape h)) o d) /\
  (Forall2 (ent_rel f h) (snd (hash_step (h_entries (hd_shape h)) o d)) (snd (call (khash cpus (hd_shape h)) f cpus h o l)) /\
   NoDup (map fst (snd (hash_step (h_entries (hd_shape h)) o d)))).
Proof.
  intros H Ho (F & N). pose proof (hash_fits f h H) as (Fi & Ty). destruct H as (Ko & P & W & K & V).
  assert (methods (hd_wrap h) = [MGet; MSet; MRemove; MKeys] /\ bounded (hd_wrap h) = false) as [M B].
  { destruct W as [[-> _]|[-> _]]; auto. }
  assert (forall k, key_ok h k -> exists b, k = UData b /\ firstn (Z.to_nat (h_key (hd_shape h))) b = b) as KB.
  { intros k Hk. unfold key_ok in Hk. destruct W as [[W _]|[W _]]; rewrite W in Hk; destruct k; try contradiction; eexists; (split; [reflexivity|]);
      apply firstn_full_z; congruence. }
  assert (forall v, val_ok cpus h v -> exists b, val_bytes f cpus h v = Ok b /\ firstn (Z.to_nat (copied cpus (hd_shape h))) b = b /\ dec_rel f h v b) as VB.
  { intros v Hv. assert ((exists d, v = WData d) \/ (exists l, v = WPerCpu l)) as C.
    { unfold val_ok in Hv. destruct W as [[W _]|[W _]]; rewrite W in Hv; destruct v; try contradiction; eauto. }
    destruct (per_cpu_builds f cpus h v Hv C P) as [b E]. exists b. split; [exact E|]. split; [|eapply round_trip; eauto].
    apply firstn_full_z. eapply val_bytes_length; eauto. }
  assert (length d = length l) as Len by (eapply Forall2_same; eassumption).
  unfold call, plan. rewrite M. destruct o as [k fl|k v fl|k|prev|v fl|fl|v fl]; cbn [meth_of existsb meth_eqb orb negb op_ok] in *;
    try (cbn [hash_step fst snd]; auto).
  - destruct (KB k Ho) as (b & -> & Eb). cbn [check_key bind key_bytes lookup khash q_cmd q_key q_value q_flags]. unfold khash.
    cbn [q_cmd q_key q_value q_flags]. rewrite Eb. pose proof (entry_rel f h b d l F) as En. cbn [hash_step].
    destruct (Z.eqb_spec fl 0) as [->|Nz]; cbn [negb].
    + destruct (dict_get b d) as [v|]; [destruct En as (vb & -> & R)|rewrite En]; cbn [answer fst snd].
      * auto.
      * cbn [Z.eqb ENOENT Pos.eqb]. auto.
    + cbn [answer fst snd]. destruct fl; [congruence|auto..].
  - destruct Ho as [Hk Hv]. destruct (KB k Hk) as (b & -> & Eb). destruct (VB v Hv) as (vb & Ev & Evb & R).
    cbn [check_key bind key_bytes]. rewrite Ev. cbn [bind update]. unfold khash, update, delete, next_key, lookup. cbn [q_cmd q_key q_value q_flags]. rewrite Eb, Evb.
    pose proof (entry_rel f h b d l F) as En. cbn [hash_step]. rewrite Len.
    destruct ((fl <? 0) || (2 <? fl)) eqn:Of.
    + cbn [answer fst snd]. destruct (dict_get b d); destruct fl as [|[p|[p|p|]|]|p]; try (cbn in Of; discriminate); auto.
    + assert (fl = 0 \/ fl = 1 \/ fl = 2) as C by lia.
      destruct (dict_get b d) as [v0|]; [destruct En as (vb0 & -> & R0)|rewrite En].
      * destruct C as [-> | [-> | ->]]; cbn [Z.eqb Pos.eqb answer fst snd]; auto using put_rel, dict_set_nodup.
      * destruct (Z.leb_spec (h_entries (hd_shape h)) (Z.of_nat (length l))) as [Le|Le];
          [replace (Z.of_nat (length l) <? h_entries (hd_shape h)) with false by lia|replace (Z.of_nat (length l) <? h_entries (hd_shape h)) with true by lia];
          destruct C as [-> | [-> | ->]]; cbn [Z.eqb Pos.eqb answer fst snd]; auto using put_rel, dict_set_nodup.
  - destruct (KB k Ho) as (b & -> & Eb). cbn [check_key bind key_bytes delete]. unfold khash, update, delete, next_key, lookup. cbn [q_cmd q_key q_value q_flags]. rewrite Eb.
    pose proof (entry_rel f h b d l F) as En. cbn [hash_step].
    destruct (dict_get b d) as [v0|]; [destruct En as (vb0 & -> & R0)|rewrite En]; cbn [answer fst snd]; auto using drop_rel, dict_del_nodup.
  - unfold khash, next_key. cbn [q_cmd q_key q_value q_flags hash_step]. rewrite <- (keys_rel f h d l F).
    assert (option_map (firstn (Z.to_nat (h_key (hd_shape h)))) (option_map key_bytes prev) = match prev with Some (UData k) => Some k | _ => None end) as E.
    { destruct prev as [k|]; [|reflexivity]. destruct (KB k Ho) as (b & -> & Eb). cbn [option_map key_bytes]. now rewrite Eb. }
    rewrite E. destruct (next_of _ _ _); cbn [answer fst snd]; auto.
Qed.

Lemma hash_faithful f cpus h ops : hash_handle h -> Forall (op_ok cpus h) ops ->
  fst (calls (khash cpus (hd_shape h)) f cpus h ops []) = steps (hash_step (h_entries (hd_shape h))) ops [].
Proof.
  intros H G. apply (calls_sim _ f cpus h _ (fun d l => Forall2 (ent_rel f h) d l /\ NoDup (map fst d)) (op_ok cpus h)); auto.
  - intros o t s Go R. now apply hash_sim.
  - split; constructor.
Qed.

(** * Arrays *)

Lemma index_dec i : 0 <= i < 2 ^ 32 -> le_dec (firstn 4 (le_enc 4 i)) = i.
Proof. intros H. rewrite firstn_full by apply le_enc_length. rewrite le_dec_enc. apply Z.mod_small. exact H. Qed.

Lemma Forall2_upd {A B} (R : A -> B -> Prop) a l i x y : Forall2 R a l -> R x y -> (i < length a)%nat ->
  Forall2 R (firstn i a ++ [x] ++ skipn (S i) a) (upd i y l).
Proof.
  intros F. revert i. induction F as [|p q a l Rpq F IH]; intros i Rxy L; cbn [length] in L; [lia|].
  destruct i as [|i]; cbn [firstn skipn upd app]; [now constructor|]. constructor; [exact Rpq|]. apply IH; [exact Rxy|lia].
Qed.

Lemma set_length {A} (a : list A) i x : (i < length a)%nat -> length (firstn i a ++ [x] ++ skipn (S i) a) = length a.
Proof. intros L. rewrite !app_length, firstn_length, skipn_length. cbn [length]. lia. Qed.

Lemma Forall2_nth {A B} (R : A -> B -> Prop) a l i : Forall2 R a l ->
  match nth_error a i with Some x => exists y, nth_error l i = Some y /\ R x y | None => nth_error l i = None end.
Proof.
  intros F. revert i. induction F as [|p q a l Rpq F IH]; intros [|i]; cbn [nth_error]; eauto; apply IH.
Qed.

Definition array_handle (h : handle) : Prop :=
  kernel_ok (hd_shape h) /\ 0 < hd_v h /\ 0 <= h_entries (hd_shape h) < 2 ^ 32 /\
  ((hd_wrap h = WArray /\ h_type (hd_shape h) = 2) \/ (hd_wrap h = WPerCpuArray /\ h_type (hd_shape h) = 6)) /\
  h_key (hd_shape h) = 4 /\ h_value (hd_shape h) = hd_v h.

Lemma array_fits f h : array_handle h -> fits f (hd_wrap h) (hd_k h) (hd_v h) (hd_shape h) /\ In (h_type (hd_shape h)) (alias_types (hd_wrap h)).
Proof.
  intros (_ & _ & _ & [[W T]|[W T]] & K & V); rewrite W, T; (split; [|cbn [alias_types In]; tauto]); apply new_iff; cbn [new]; apply kv_iff; auto.
Qed.

Lemma array_sim f cpus h o a l : array_handle h -> op_ok cpus h o ->
  Forall2 (dec_rel f h) a l /\ Z.of_nat (length a) = h_entries (hd_shape h) ->
  fst (call (karray cpus (hd_shape h)) f cpus h o l) = fst (array_step o a) /\
  (Forall2 (dec_rel f h) (snd (array_step o a)) (snd (call (karray cpus (hd_shape h)) f cpus h o l)) /\
   Z.of_nat (length (snd (array_step o a))) = h_entries (hd_shape h)).
Proof.
  intros H Ho (F & N). pose proof (array_fits f h H) as (Fi & Ty). destruct H as (Ko & P & En & W & K & V).
  assert (methods (hd_wrap h) = [MGet; MSet] /\ bounded (hd_wrap h) = true) as [M B].
  { destruct W as [[-> _]|[-> _]]; auto. }
  assert (forall k, key_ok h k -> exists i, k = UIndex i /\ 0 <= i < 2 ^ 32) as KB.
  { intros k Hk. unfold key_ok in Hk. destruct W as [[W _]|[W _]]; rewrite W in Hk; destruct k; try contradiction; eauto. }
  assert (forall v, val_ok cpus h v -> exists b, val_bytes f cpus h v = Ok b /\ firstn (Z.to_nat (copied cpus (hd_shape h))) b = b /\ dec_rel f h v b) as VB.
  { intros v Hv. assert ((exists d, v = WData d) \/ (exists l, v = WPerCpu l)) as C.
    { unfold val_ok in Hv. destruct W as [[W _]|[W _]]; rewrite W in Hv; destruct v; try contradiction; eauto. }
    destruct (per_cpu_builds f cpus h v Hv C P) as [b E]. exists b. split; [exact E|]. split; [|eapply round_trip; eauto].
    apply firstn_full_z. eapply val_bytes_length; eauto. }
  assert (length a = length l) as Len by (eapply Forall2_same; eassumption).
  unfold call, plan. rewrite M. destruct o as [k fl|k v fl|k|prev|v fl|fl|v fl]; cbn [meth_of existsb meth_eqb orb negb op_ok] in *;
    try (cbn [array_step fst snd]; auto).
  - destruct (KB k Ho) as (i & -> & Hi). unfold array_step. cbn [check_key]. rewrite B. unfold check_bounds. rewrite N.
    destruct (Z.leb_spec (h_entries (hd_shape h)) i) as [Le|Le]; cbn [bind].
    + replace (i <? h_entries (hd_shape h)) with false by lia. cbn [fst snd]. auto.
    + replace (i <? h_entries (hd_shape h)) with true by lia. unfold karray, lookup, update. cbn [key_bytes q_cmd q_key q_value q_flags].
      rewrite index_dec by exact Hi. destruct (Z.eqb_spec fl 0) as [->|Nz]; cbn [negb].
      * pose proof (Forall2_nth _ a l (Z.to_nat i) F) as E. destruct (nth_error a (Z.to_nat i)) as [v|] eqn:Ea; [destruct E as (b & -> & R)|].
        -- cbn [answer fst snd]. auto.
        -- exfalso. apply nth_error_None in Ea. lia.
      * cbn [answer fst snd]. auto.
  - destruct Ho as [Hk Hv]. destruct (KB k Hk) as (i & -> & Hi). destruct (VB v Hv) as (vb & Ev & Evb & R).
    unfold array_step. cbn [check_key]. rewrite B. unfold check_bounds. rewrite N.
    destruct (Z.leb_spec (h_entries (hd_shape h)) i) as [Le|Le]; cbn [bind].
    + replace (i <? h_entries (hd_shape h)) with false by lia. cbn [fst snd]. auto.
    + replace (i <? h_entries (hd_shape h)) with true by lia. rewrite Ev. cbn [bind]. unfold karray, lookup, update. cbn [key_bytes q_cmd q_key q_value q_flags].
      rewrite index_dec by exact Hi. rewrite Evb. destruct ((fl <? 0) || (2 <? fl)) eqn:Of.
      * cbn [answer fst snd]. destruct fl as [|[p|[p|p|]|]|p]; try (cbn in Of; discriminate); auto.
      * replace (Z.of_nat (length l) <=? i) with false by lia.
        assert (fl = 0 \/ fl = 1 \/ fl = 2) as C by lia.
        destruct C as [-> | [-> | ->]]; cbn [Z.eqb Pos.eqb answer fst snd]; repeat split; auto; try (apply Forall2_upd; auto; lia);
          rewrite set_length by lia; exact N.
Qed.

(** An array starts out with zeroes. *)
Definition zero_value (cpus : nat) (h : handle) : uval :=
  if per_cpu (hd_wrap h) then WPerCpu (repeat (repeat 0 (Z.to_nat (hd_v h))) cpus) else WData (repeat 0 (Z.to_nat (hd_v h))).

Lemma kernel_zero n m k : (k <= m)%nat -> kernel_gives (repeat (repeat 0 k) n) (repeat (repeat 0 (m - k)) n) = repeat 0 (n * m).
Proof.
  intros L. unfold kernel_gives. induction n as [|n IH]; [reflexivity|]. cbn [repeat combine map concat fst snd Nat.mul]. rewrite IH.
  rewrite <- repeat_app, <- repeat_app. f_equal. lia.
Qed.

Lemma zero_rel f cpus h : array_handle h -> dec_rel f h (zero_value cpus h) (repeat 0 (Z.to_nat (copied cpus (hd_shape h)))).
Proof.
  intros (Ko & P & En & W & K & V). unfold dec_rel, zero_value, decode_value, copied. rewrite V.
  destruct W as [[-> T]|[-> T]]; cbn [per_cpu]; rewrite T; cbn [existsb Z.eqb Pos.eqb orb shown]; [reflexivity|].
  assert (from_kernel_mem (Z.to_nat (hd_v h)) (repeat 0 (Z.to_nat (8 * ((hd_v h + 7) / 8) * Z.of_nat cpus))) = Ok (repeat (repeat 0 (Z.to_nat (hd_v h))) cpus)) as E.
  { pose proof (stride_eq (Z.to_nat (hd_v h))) as S. unfold slot_size in S. rewrite Z2Nat.id in S by lia.
    pose proof (stride_ge (Z.to_nat (hd_v h))) as G.
    replace (Z.to_nat (8 * ((hd_v h + 7) / 8) * Z.of_nat cpus)) with (cpus * next_multiple_of_8 (Z.to_nat (hd_v h)))%nat by nia.
    rewrite <- (kernel_zero cpus _ (Z.to_nat (hd_v h)) G). apply from_given.
    - lia.
    - now rewrite !repeat_length.
    - apply Forall_forall. intros x I. apply repeat_spec in I. subst x. apply repeat_length.
    - apply Forall_forall. intros x I. apply repeat_spec in I. subst x. rewrite repeat_length. unfold slot_size. rewrite Z2Nat.id by lia. lia. }
  now rewrite E.
Qed.

Lemma Forall2_repeat {A B} (R : A -> B -> Prop) x y n : R x y -> Forall2 R (repeat x n) (repeat y n).
Proof. intros H. induction n; cbn [repeat]; constructor; auto. Qed.

Lemma array_faithful f cpus h ops : array_handle h -> Forall (op_ok cpus h) ops ->
  fst (calls (karray cpus (hd_shape h)) f cpus h ops (repeat (repeat 0 (Z.to_nat (copied cpus (hd_shape h)))) (Z.to_nat (h_entries (hd_shape h))))) =
  steps array_step ops (repeat (zero_value cpus h) (Z.to_nat (h_entries (hd_shape h)))).
Proof.
  intros H G.
  apply (calls_sim _ f cpus h _ (fun a l => Forall2 (dec_rel f h) a l /\ Z.of_nat (length a) = h_entries (hd_shape h)) (op_ok cpus h)); auto.
  - intros o t s Go R. now apply array_sim.
  - split; [apply Forall2_repeat, zero_rel, H|]. rewrite repeat_length. destruct H as (_ & _ & ? & _). lia.
Qed.
