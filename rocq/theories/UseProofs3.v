(** Proofs about maps used from programs and from user space: filters, tries,
    redirection, perf events, sockets. *)
From Verif Require Import Base Text MapModel MapSpec MapProofs TypedModel TypedSpec TypedProofs TypedProofs2 TypedProofs3 UseModel UseSpec UseProofs.
Import ListNotations.
Local Open Scope Z_scope.

(** * Bloom filters *)

Lemma bloom_turn extra f cpus h c l : bloom_handle h -> side_ok cpus h 0 adding c ->
  forall b, In b (snd (turn (kbloom extra (hd_shape h)) (fun _ => bloom_helpers extra (hd_shape h)) f cpus h c l)) <-> In b l \/ added_by b c.
Proof.
  intros H G b. unfold added_by. destruct c as [o|cpu p].
  - cbn [side_ok] in G. pose proof (bloom_push extra f cpus h o l H G b) as P. cbn [turn].
    destruct (call (kbloom extra (hd_shape h)) f cpus h o l) as [r s]. cbn [snd] in *. rewrite P. split.
    + intros [I | ->]; auto.
    + intros [I|[E|[cpu E]]]; [auto| |discriminate E]. right. congruence.
  - cbn [side_ok] in G. destruct G as (_ & K & O). destruct H as (W & T & V).
    destruct p as [k|k v|k v fl|k|v fl| |buf|v]; cbn [adding] in K; try contradiction; cbn [pcall_ok] in O; cbn [turn prog].
    + cbn [k_push bloom_helpers]. unfold kbloom, sys. cbn [q_cmd q_key q_value q_flags]. rewrite firstn_full_z by congruence.
      destruct (Z.eqb_spec fl 0) as [-> | Nz]; cbn [negb snd In].
      * split; [intros [-> | I]; eauto|]. intros [I|[E|[c E]]]; [auto|discriminate E|]. left. congruence.
      * split; [tauto|]. intros [I|[E|[c E]]]; [auto|discriminate E|congruence].
    + cbn [k_peek bloom_helpers snd]. split; [tauto|]. intros [I|[E|[c E]]]; [auto|discriminate E|discriminate E].
Qed.

Lemma bloom_turns extra f cpus h cs : bloom_handle h -> Forall (side_ok cpus h 0 adding) cs ->
  forall l b, In b (snd (turns (turn (kbloom extra (hd_shape h)) (fun _ => bloom_helpers extra (hd_shape h)) f cpus h) cs l)) <->
    In b l \/ Exists (added_by b) cs.
Proof.
  intros H. induction cs as [|c cs IH]; intros G l b; cbn [turns].
  - cbn [snd]. split; [auto|]. intros [I|E]; [exact I|inversion E].
  - pose proof (bloom_turn extra f cpus h c l H (Forall_inv G) b) as P.
    destruct (turn _ _ f cpus h c l) as [r s]. specialize (IH (Forall_inv_tail G) s b).
    destruct (turns _ cs s) as [rs s2]. cbn [snd] in *. rewrite IH, P, Exists_cons. tauto.
Qed.

Lemma bloom_both extra f cpus h cs cpu b : bloom_handle h -> Forall (side_ok cpus h 0 adding) cs -> Z.of_nat (length b) = hd_v h ->
  let t := turn (kbloom extra (hd_shape h)) (fun _ => bloom_helpers extra (hd_shape h)) f cpus h in
  let s := snd (turns t cs []) in
  let mine := fst (t (Program cpu (PContains b)) s) in
  let user := fst (t (User (OContains (WData b) 0)) s) in
  (Exists (added_by b) cs -> mine = RProgram POk /\ user = RUser (Ok RUnit)) /\
  (mine = RProgram POk /\ user = RUser (Ok RUnit) \/ mine = RProgram (PErr (-2)) /\ user = RUser (Err EElementNotFound)) /\
  ((forall l v, extra l v = false) -> ~ Exists (added_by b) cs -> mine = RProgram (PErr (-2)) /\ user = RUser (Err EElementNotFound)).
Proof.
  intros H G L t s mine user. pose proof (bloom_turns extra f cpus h cs H G [] b) as S. fold t in S. fold s in S. cbn [In] in S.
  assert (mine = RProgram (if existsb (str_eqb b) s || extra s b then POk else PErr (-2))) as ->.
  { unfold mine, t. cbn [turn prog k_peek bloom_helpers]. unfold kbloom, sys. cbn [q_cmd q_key q_value q_flags].
    destruct H as (W & T & V). rewrite firstn_full_z by congruence. now destruct (_ || _). }
  assert (user = RUser (if existsb (str_eqb b) s || extra s b then Ok RUnit else Err EElementNotFound)) as ->.
  { unfold user, t. cbn [turn]. pose proof (bloom_answer extra f cpus h s b 0 H L) as A.
    destruct (call (kbloom extra (hd_shape h)) f cpus h (OContains (WData b) 0) s) as [r l']. cbn [fst] in *. now rewrite A. }
  split; [|split].
  - intros A. assert (existsb (str_eqb b) s = true) as -> by (apply in_existsb; tauto). auto.
  - destruct (_ || _); auto.
  - intros X N. rewrite X, orb_false_r. destruct (existsb (str_eqb b) s) eqn:E; [|auto]. apply in_existsb in E. tauto.
Qed.

(** * Tries *)

Lemma lpm_key_bytes n a : lpm_key n a = key_bytes (ULpm n a). Proof. reflexivity. Qed.

Lemma ktrie_codes sh q l e l' : ktrie sh q l = (Err e, l') -> l' = l /\ In e [2; 14; 17; 22; 28].
Proof.
  unfold ktrie. destruct (q_cmd q); destruct (q_key q) as [k|]; try destruct (q_value q) as [v|]; intros H;
    repeat match type of H with
           | (if ?b then _ else _) = _ => destruct b
           | match ?x with _ => _ end = _ => destruct x
           | (_, _) = (_, _) => apply pair_equal_spec in H as [H <-]
           end; try discriminate H; split; try reflexivity; assert (E : forall (a b : Z), @Err Z (list Z) a = Err b -> a = b) by congruence;
    apply E in H; subst e; cbn; tauto.
Qed.

Lemma trie_same_calls f cpus h n a v fl l : trie_handle h ->
  let H := trie_helpers (hd_shape h) in
  let user o := call (ktrie (hd_shape h)) f cpus h o l in
  prog H (PInsert (lpm_key n a) v fl) l = (as_program (fst (user (OSet (ULpm n a) (WData v) fl))), snd (user (OSet (ULpm n a) (WData v) fl))) /\
  prog H (PRemove (lpm_key n a)) l = (as_program (fst (user (ORemove (ULpm n a)))), snd (user (ORemove (ULpm n a)))).
Proof.
  intros T. pose proof T as (W & _). cbn zeta. unfold call, plan. rewrite W.
  cbn [methods meth_of existsb meth_eqb orb negb check_key bind val_bytes prog k_update k_delete trie_helpers].
  rewrite !lpm_key_bytes. unfold sys, update, delete.
  assert (forall e, In e [2; 14; 17; 22; 28] -> zero_or_err (- e) = PErr (- e)) as Z.
  { intros e I. cbn in I. repeat destruct I as [<-|I]; try reflexivity. destruct I. }
  split.
  - destruct (ktrie (hd_shape h) {| q_cmd := CUpdate; q_key := Some (key_bytes (ULpm n a)); q_value := Some v; q_flags := fl |} l) as [[b|e] l'] eqn:E; cbn [ret_of answer fst snd as_program]; [reflexivity|].
    apply ktrie_codes in E as [-> I]. now rewrite Z.
  - destruct (ktrie (hd_shape h) {| q_cmd := CDelete; q_key := Some (key_bytes (ULpm n a)); q_value := None; q_flags := 0 |} l) as [[b|e] l'] eqn:E; cbn [ret_of answer fst snd as_program]; [reflexivity|].
    apply ktrie_codes in E as [-> I]. now rewrite Z.
Qed.

Lemma trie_prog_lookup (f : features) (cpus : nat) h rs n a : trie_handle h -> Forall (route_ok h) rs -> key_ok h (ULpm n a) -> n <= 8 * hd_k h ->
  (exists r, longest rs n a r /\ prog (trie_helpers (hd_shape h)) (PGet (lpm_key n a)) (map node rs) = (PSome (r_val r), map node rs)) \/
  ((forall r, In r rs -> ~ covers r n a) /\ prog (trie_helpers (hd_shape h)) (PGet (lpm_key n a)) (map node rs) = (PNone, map node rs)).
Proof.
  intros T F K L. pose proof T as (W & _). pose proof (trie_lookup f cpus h rs n a T F K L) as X.
  assert (call (ktrie (hd_shape h)) f cpus h (OGet (ULpm n a) 0) (map node rs) =
    (let (r, s) := ktrie (hd_shape h) (lookup CLookup (Some (key_bytes (ULpm n a))) (value_space f cpus h) 0) (map node rs) in
     (answer f h (OGet (ULpm n a) 0) r, s))) as E.
  { unfold call, plan. rewrite W. reflexivity. }
  rewrite E in X. cbn [prog k_lookup trie_helpers]. rewrite lpm_key_bytes.
  assert (ktrie (hd_shape h) (sys CLookup (Some (key_bytes (ULpm n a))) None 0) (map node rs) =
          ktrie (hd_shape h) (lookup CLookup (Some (key_bytes (ULpm n a))) (value_space f cpus h) 0) (map node rs)) as -> by reflexivity.
  destruct (ktrie (hd_shape h) (lookup CLookup (Some (key_bytes (ULpm n a))) (value_space f cpus h) 0) (map node rs)) as [[b|e] s]; cbn [answer fst found] in *.
  - unfold decode_value in X. rewrite W in X. cbn [per_cpu] in X. destruct X as [(r & Lo & X)|(N & X)]; apply pair_equal_spec in X as [X _].
    + left. exists r. split; [exact Lo|]. congruence.
    + discriminate X.
  - destruct X as [(r & Lo & X)|(N & X)]; apply pair_equal_spec in X as [X _].
    + discriminate X.
    + right. auto.
Qed.

(** * Redirection *)

Lemma cell_repeat n : map cell (repeat None n) = repeat None n.
Proof. induction n as [|n IH]; [reflexivity|]. cbn [repeat map cell]. now rewrite IH. Qed.

Lemma xdp_after f cpus h progs bad ops a : xdp_handle f h -> (forall fd id, progs fd = Some id -> 0 < id < 2 ^ 32) ->
  Forall (fun o => op_ok cpus h o /\ fds_above_0 o) ops ->
  Forall (cell_ok (xdp_supported f h)) a /\ Z.of_nat (length a) = h_entries (hd_shape h) ->
  snd (calls (kxdp progs bad (hd_shape h)) f cpus h ops (map cell a)) = map cell (after (xdp_step (xdp_supported f h) progs bad) ops a) /\
  Forall (cell_ok (xdp_supported f h)) (after (xdp_step (xdp_supported f h) progs bad) ops a).
Proof.
  intros H Pg. revert a. induction ops as [|o ops IH]; intros a G R; [cbn; tauto|]. cbn [calls after].
  destruct (xdp_sim f cpus h progs bad o a H Pg (Forall_inv G) R) as (E & R'). rewrite E.
  destruct (xdp_step _ progs bad o a) as [r a']. cbn [fst snd] in *. specialize (IH a' (Forall_inv_tail G) R').
  destruct (calls _ f cpus h ops (map cell a')) as [rs s]. cbn [snd] in *. exact IH.
Qed.

Lemma dev_read f h a i : xdp_handle f h -> Forall (cell_ok (xdp_supported f h)) a ->
  let x := nth (Z.to_nat i) a None in
  let r := kdev_lookup (hd_shape h) i (map cell a) in
  (xdp_supported f h = true -> dev_get r = Ok x) /\ dev_get_ifindex r = Ok (option_map fst x) /\ present r = present x.
Proof.
  intros (_ & Vs & _) C. cbn zeta. unfold kdev_lookup.
  assert (nth_error (map cell a) (Z.to_nat i) = option_map cell (nth_error a (Z.to_nat i))) as -> by apply nth_error_map.
  destruct (nth_error a (Z.to_nat i)) as [x|] eqn:E; cbn [option_map].
  - rewrite (nth_error_nth a _ None E). assert (cell_ok (xdp_supported f h) x) as O.
    { rewrite Forall_forall in C. apply C. now apply nth_error_In in E. }
    destruct x as [[t p]|]; [|cbn; auto]. cbn [cell cell_ok] in *. destruct O as [Ht Hp].
    assert (firstn 4 (le_enc 4 t ++ if h_value (hd_shape h) =? 8 then le_enc 4 (match p with Some id => id | None => 0 end) else []) = le_enc 4 t) as F4.
    { apply firstn_app_exact. now rewrite le_enc_length. }
    split; [|split].
    + intros S. rewrite S in Vs. rewrite Vs. cbn [Z.eqb Pos.eqb dev_get]. unfold read.
      set (v := le_enc 4 t ++ le_enc 4 _) at 1 2.
      assert (length v = 8%nat) as Lv by (unfold v; now rewrite app_length, !le_enc_length).
      rewrite Lv, (firstn_full v 8 Lv). change ((8 <=? 8)%nat) with true. cbn [bind]. unfold v. clear v Lv.
      assert (slice 4 4 (le_enc 4 t ++ le_enc 4 (match p with Some id => id | None => 0 end)) = le_enc 4 (match p with Some id => id | None => 0 end)) as ->.
      { unfold slice. rewrite skipn_app_exact by now rewrite le_enc_length. apply firstn_full, le_enc_length. }
      rewrite firstn_app_exact by now rewrite le_enc_length. rewrite !dec_le4; [|destruct p; lia|lia].
      destruct p as [id|]; [|reflexivity]. replace (id =? 0) with false by lia. reflexivity.
    + cbn [dev_get_ifindex]. unfold read. rewrite app_length, le_enc_length. cbn [Nat.add Nat.leb]. rewrite F4. cbn [bind]. rewrite dec_le4 by lia. reflexivity.
    + reflexivity.
  - rewrite nth_overflow by now apply nth_error_None. cbn. auto.
Qed.

(** What user space put into a device map is what programs find. *)
Lemma dev_both f cpus h progs bad ops i : xdp_handle f h -> (forall fd id, progs fd = Some id -> 0 < id < 2 ^ 32) ->
  Forall (fun o => op_ok cpus h o /\ fds_above_0 o) ops ->
  let empty {A : Type} := repeat (@None A) (Z.to_nat (h_entries (hd_shape h))) in
  let r := kdev_lookup (hd_shape h) i (snd (calls (kxdp progs bad (hd_shape h)) f cpus h ops empty)) in
  let x := nth (Z.to_nat i) (after (xdp_step (xdp_supported f h) progs bad) ops empty) None in
  (xdp_supported f h = true -> dev_get r = Ok x) /\ dev_get_ifindex r = Ok (option_map fst x) /\ present r = present x.
Proof.
  intros H Pg G. cbn zeta.
  destruct (xdp_after f cpus h progs bad ops (repeat None (Z.to_nat (h_entries (hd_shape h)))) H Pg G) as [E C].
  { split; [apply Forall_forall; intros x I; apply repeat_spec in I; now subst x|]. rewrite repeat_length. destruct H as (_ & _ & ?). lia. }
  rewrite cell_repeat in E. rewrite E. apply dev_read; assumption.
Qed.

Lemma redirect_spec known entry flags : 0 <= flags -> Z.ldiff flags (Z.lor 3 known) = 0 -> Z.testbit flags 3 = false ->
  try_redirect (kredirect known entry flags) = if entry then Ok 4 else Err (flags mod 4).
Proof.
  intros F K B. unfold kredirect. rewrite K, B. cbn [Z.eqb negb]. rewrite andb_true_r. destruct entry; cbn [negb]; [reflexivity|].
  change 3 with (Z.ones 2). rewrite Z.land_ones by lia. change (2 ^ 2) with 4. pose proof (Z.mod_pos_bound flags 4 ltac:(lia)) as M.
  assert (flags mod 4 = 0 \/ flags mod 4 = 1 \/ flags mod 4 = 2 \/ flags mod 4 = 3) as C by lia.
  destruct C as [-> | [-> | [-> | ->]]]; reflexivity.
Qed.
Lemma redirect_broadcast known entry flags : Z.ldiff flags (Z.lor 3 known) = 0 -> Z.testbit flags 3 = true ->
  try_redirect (kredirect known entry flags) = Ok 4.
Proof. intros K B. unfold kredirect. rewrite K, B. now rewrite andb_false_r. Qed.
Lemma redirect_unknown known entry flags : Z.ldiff flags (Z.lor 3 known) <> 0 -> try_redirect (kredirect known entry flags) = Err 0.
Proof. intros K. unfold kredirect. destruct (Z.eqb_spec (Z.ldiff flags (Z.lor 3 known)) 0); [contradiction|reflexivity]. Qed.
(** The result documented is the lowest two bits of the flags. *)
Lemma redirect_not_flags : exists known entry flags e, try_redirect (kredirect known entry flags) = Err e /\ e <> flags mod 4.
Proof. exists 0, true, 34, 0. split; [reflexivity|discriminate]. Qed.

(** * Perf events *)

Lemma output_words flags index : 0 <= flags < 2 ^ 32 -> 0 <= index < 2 ^ 32 -> Z.lor (Z.shiftl flags 32) index = flags * 2 ^ 32 + index.
Proof.
  intros F I. rewrite Z.shiftl_mul_pow2 by lia.
  assert (Z.land (flags * 2 ^ 32) index = 0) as D.
  { apply Z.bits_inj'. intros n Hn. rewrite Z.land_spec, Z.bits_0. destruct (Z.lt_ge_cases n 32) as [L|L].
    + rewrite Z.mul_pow2_bits_low by lia. reflexivity.
    + destruct (Z.eq_dec index 0) as [-> | Nz]; [now rewrite Z.bits_0, andb_false_r|].
      rewrite (Z.bits_above_log2 index n); [apply andb_false_r|lia|]. apply Z.log2_lt_pow2; [lia|]. apply Z.lt_le_trans with (2 ^ 32); [lia|]. apply Z.pow_le_mono_r; lia. }
  rewrite <- (Z.lxor_lor _ _ D), <- (Z.add_nocarry_lxor _ _ D). reflexivity.
Qed.

Lemma output_spec current index data flags : 0 <= flags < 2 ^ 32 -> 0 <= index < 2 ^ 32 - 1 ->
  let send r := koutput current (fst r) (snd r) in
  send (output data flags) = (if flags <? 2 ^ 20 then Some (current, flags, data) else None) /\
  send (output_at_index index data flags) = (if flags <? 2 ^ 20 then Some (index, flags, data) else None).
Proof.
  intros F I. cbn zeta. unfold output, output_at_index, koutput. cbn [fst snd].
  rewrite !output_words by (unfold BPF_F_CURRENT_CPU; lia).
  assert (forall i, 0 <= i < 2 ^ 32 -> (flags * 2 ^ 32 + i) mod 2 ^ 32 = i /\ (flags * 2 ^ 32 + i) / 2 ^ 32 = flags) as E.
  { intros i Hi. split; [rewrite Z.add_comm, Z.mod_add by lia; apply Z.mod_small; lia|]. rewrite Z.add_comm, Z.div_add by lia. rewrite Z.div_small by lia. reflexivity. }
  destruct (E BPF_F_CURRENT_CPU) as [-> ->]; [unfold BPF_F_CURRENT_CPU; lia|]. destruct (E index) as [-> ->]; [lia|].
  replace (2 ^ 20 <=? flags) with (negb (flags <? 2 ^ 20)) by lia. unfold BPF_F_CURRENT_CPU.
  rewrite Z.eqb_refl. replace (index =? 2 ^ 32 - 1) with false by lia. now destruct (flags <? 2 ^ 20).
Qed.

(** * Sockets *)

Lemma sk_spec found assign flags :
  let (calls, r) := redirect_sk_lookup found assign flags in
  match found with
  | None => calls = [] /\ r = Err (-2)
  | Some sk => refs sk 1 calls = 0 /\ calls = [SkAssign sk flags; SkRelease sk] /\
      (assign sk flags = 0 -> r = Ok tt) /\ (- 2 ^ 31 <= assign sk flags < 0 -> r = Err (assign sk flags))
  end.
Proof.
  unfold redirect_sk_lookup. destruct found as [sk|]; [|auto]. cbn [refs]. rewrite Z.eqb_refl. repeat split.
  - intros ->. reflexivity.
  - intros A. replace (assign sk flags =? 0) with false by lia. f_equal. unfold i32, swrap.
    rewrite <- (Z.mod_unique (assign sk flags) (2 ^ 32) (-1) (assign sk flags + 2 ^ 32)) by lia.
    replace (assign sk flags + 2 ^ 32 <? 2 ^ (32 - 1)) with false by lia. lia.
Qed.

Lemma results_spec ret :
  (under_cgroup ret = if ret =? 1 then Ok true else if ret =? 0 then Ok false else Err ret) /\
  (0 <= ret -> get_stackid ret = Ok ret) /\ (- 2 ^ 31 <= ret < 0 -> get_stackid ret = Err ret) /\
  (select_reuseport ret = Ok tt <-> ret = 0) /\
  storage_get = (None, 0) /\ (forall v, storage_get_or_insert v = (v, 1)).
Proof.
  split; [reflexivity|]. split; [|split; [|split; [|auto]]].
  - intros P. unfold get_stackid. now replace (ret <? 0) with false by lia.
  - intros P. unfold get_stackid. replace (ret <? 0) with true by lia. f_equal. unfold i32, swrap.
    rewrite <- (Z.mod_unique ret (2 ^ 32) (-1) (ret + 2 ^ 32)) by lia. replace (ret + 2 ^ 32 <? 2 ^ (32 - 1)) with false by lia. lia.
  - unfold select_reuseport. destruct (Z.eqb_spec ret 0); split; intros; try congruence; discriminate.
Qed.
