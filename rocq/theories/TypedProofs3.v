(** Proofs about typed map handles: queues, stacks, filters, tries, redirection
    maps and stack traces. *)
From Verif Require Import Base Text MapModel MapSpec MapProofs TypedModel TypedSpec TypedProofs TypedProofs2.
Local Open Scope Z_scope.

(** * Queues and stacks *)

Definition queue_handle (stack : bool) (h : handle) : Prop :=
  hd_wrap h = (if stack then WStack else WQueue) /\ h_type (hd_shape h) = (if stack then 23 else 22) /\ h_value (hd_shape h) = hd_v h.

Lemma last_rev (l : list (list Z)) v r : rev l = v :: r -> l <> [] /\ last l [] = v /\ removelast l = rev r.
Proof.
  intros H. assert (l = rev r ++ [v]) as ->.
  { rewrite <- (rev_involutive l), H. reflexivity. }
  split; [intros E; now apply app_eq_nil in E as [_ E]|]. split; [apply last_last|apply removelast_last].
Qed.

Lemma queue_sim stack f cpus h o l : queue_handle stack h -> op_ok cpus h o ->
  call (kqueue stack (hd_shape h)) f cpus h o l = queue_step stack (h_entries (hd_shape h)) o l.
Proof.
  intros (W & T & V) Ho.
  assert (methods (hd_wrap h) = [MPush; MPop]) as M by (rewrite W; now destruct stack).
  assert (forall b, decode_value f h b = Ok (RData b)) as D by (intros b; unfold decode_value; rewrite W; now destruct stack).
  unfold call, plan. rewrite M. destruct o as [k fl|k v fl|k|prev|v fl|fl|v fl]; cbn [meth_of existsb meth_eqb orb negb op_ok] in *; try reflexivity.
  - assert (exists b, v = WData b /\ Z.of_nat (length b) = hd_v h) as (b & -> & Lb).
    { unfold val_ok in Ho. rewrite W in Ho. destruct stack; destruct v; try contradiction; eauto. }
    cbn [val_bytes bind]. unfold kqueue, push. cbn [q_cmd q_key q_value q_flags queue_step].
    rewrite firstn_full_z by congruence.
    destruct ((fl =? 0) || (fl =? 2)) eqn:Of; cbn [negb].
    + assert (fl = 0 \/ fl = 2) as C by lia.
      destruct (Z.ltb_spec (Z.of_nat (length l)) (h_entries (hd_shape h))) as [Lt|Lt];
        [replace (h_entries (hd_shape h) <=? Z.of_nat (length l)) with false by lia|replace (h_entries (hd_shape h) <=? Z.of_nat (length l)) with true by lia];
        destruct C as [-> | ->]; cbn [Z.eqb Pos.eqb answer]; reflexivity.
    + cbn [answer]. destruct fl as [|[p|[p|p|]|]|p]; try (cbn in Of; discriminate); now destruct (h_entries (hd_shape h) <=? Z.of_nat (length l)).
  - unfold kqueue, lookup. cbn [q_cmd q_key q_value q_flags queue_step].
    destruct (Z.eqb_spec fl 0) as [->|Nz]; cbn [negb].
    + destruct stack.
      * destruct (rev l) as [|v r] eqn:R.
        -- assert (l = []) as -> by (rewrite <- (rev_involutive l), R; reflexivity). reflexivity.
        -- destruct (last_rev l v r R) as (Ne & <- & <-). destruct l as [|x l]; [congruence|]. cbn [answer]. now rewrite D.
      * destruct l as [|x l]; [reflexivity|]. cbn [answer]. now rewrite D.
    + cbn [answer]. destruct fl; [congruence|reflexivity..].
Qed.

Lemma queue_faithful stack f cpus h ops l : queue_handle stack h -> Forall (op_ok cpus h) ops ->
  fst (calls (kqueue stack (hd_shape h)) f cpus h ops l) = steps (queue_step stack (h_entries (hd_shape h))) ops l.
Proof.
  intros H G. apply (calls_sim _ f cpus h _ eq (op_ok cpus h)); auto.
  intros o t s Go <-. rewrite (queue_sim stack f cpus h o t H Go). auto.
Qed.

(** * Bloom filters *)

Definition bloom_handle (h : handle) : Prop :=
  hd_wrap h = WBloomFilter /\ h_type (hd_shape h) = 30 /\ h_value (hd_shape h) = hd_v h.
(** The values the calls [ops] add. *)
Definition added (ops : list op) (b : list Z) : Prop := In (OPush (WData b) 0) ops.

Lemma bloom_push extra f cpus h o l : bloom_handle h -> op_ok cpus h o ->
  forall b, In b (snd (call (kbloom extra (hd_shape h)) f cpus h o l)) <-> In b l \/ o = OPush (WData b) 0.
Proof.
  intros (W & T & V) Ho b.
  unfold call, plan. rewrite W. cbn [methods].
  destruct o as [k fl|k v fl|k|prev|v fl|fl|v fl]; cbn [meth_of existsb meth_eqb orb negb op_ok snd] in *;
    try (split; [tauto|intros [?|?]; [assumption|discriminate]]).
  - unfold val_ok in Ho. rewrite W in Ho. destruct v as [d|?|?|? ?]; try contradiction. cbn [val_bytes bind]. unfold kbloom, push.
    cbn [q_cmd q_key q_value q_flags]. rewrite firstn_full_z by congruence.
    destruct (Z.eqb_spec fl 0) as [->|Nz]; cbn [negb snd In].
    + split; [intros [->|?]; auto|intros [?|E]; auto]. left. congruence.
    + split; [tauto|intros [?|E]; [assumption|congruence]].
  - unfold val_ok in Ho. rewrite W in Ho. destruct v as [d|?|?|? ?]; try contradiction. cbn [val_bytes bind]. unfold kbloom, peek.
    cbn [q_cmd q_key q_value q_flags].
    destruct (_ || _); cbn [snd]; (split; [tauto|intros [?|?]; [assumption|discriminate]]).
Qed.

Lemma bloom_state extra f cpus h ops : bloom_handle h -> Forall (op_ok cpus h) ops ->
  forall l b, In b (snd (calls (kbloom extra (hd_shape h)) f cpus h ops l)) <-> In b l \/ added ops b.
Proof.
  intros H. induction ops as [|o ops IH]; intros G l b; cbn [calls].
  - cbn [snd]. unfold added. cbn [In]. tauto.
  - pose proof (bloom_push extra f cpus h o l H (Forall_inv G) b) as P.
    destruct (call (kbloom extra (hd_shape h)) f cpus h o l) as [r s]. specialize (IH (Forall_inv_tail G) s b).
    destruct (calls (kbloom extra (hd_shape h)) f cpus h ops s) as [rs s2]. cbn [snd] in *. rewrite IH, P. unfold added. cbn [In]. tauto.
Qed.

Lemma bloom_answer extra f cpus h l b fl : bloom_handle h -> Z.of_nat (length b) = hd_v h ->
  fst (call (kbloom extra (hd_shape h)) f cpus h (OContains (WData b) fl) l) =
  if existsb (str_eqb b) l || extra l b then Ok RUnit else Err EElementNotFound.
Proof.
  intros (W & T & V) L. unfold call, plan. rewrite W. cbn [methods meth_of existsb meth_eqb orb negb val_bytes bind].
  unfold kbloom, peek. cbn [q_cmd q_key q_value q_flags]. rewrite firstn_full_z by congruence. now destruct (_ || _).
Qed.

Lemma in_existsb b l : existsb (str_eqb b) l = true <-> In b l.
Proof.
  rewrite existsb_exists. split.
  - intros (x & I & E). apply str_eqb_eq in E. now subst.
  - intros I. exists b. split; [exact I|apply str_eqb_refl].
Qed.

(** A value that was added is always found, and a value that is not found was
    never added; without collisions the answer is exact. *)
Lemma bloom_faithful extra f cpus h ops b fl : bloom_handle h -> Forall (op_ok cpus h) ops -> Z.of_nat (length b) = hd_v h ->
  let r := fst (call (kbloom extra (hd_shape h)) f cpus h (OContains (WData b) fl) (snd (calls (kbloom extra (hd_shape h)) f cpus h ops []))) in
  (added ops b -> r = Ok RUnit) /\
  (r = Ok RUnit \/ r = Err EElementNotFound) /\
  ((forall l v, extra l v = false) -> ~ added ops b -> r = Err EElementNotFound).
Proof.
  intros H G L r. unfold r. rewrite (bloom_answer extra f cpus h _ b fl H L).
  pose proof (bloom_state extra f cpus h ops H G [] b) as S. cbn [In] in S.
  set (l := snd (calls _ f cpus h ops [])) in *. split; [|split].
  - intros A. assert (existsb (str_eqb b) l = true) as -> by (apply in_existsb; tauto). reflexivity.
  - destruct (_ || _); auto.
  - intros X N. rewrite X, orb_false_r. destruct (existsb (str_eqb b) l) eqn:E; [|reflexivity]. apply in_existsb in E. tauto.
Qed.

(** * Longest-prefix tries *)

Definition trie_handle (h : handle) : Prop :=
  hd_wrap h = WLpmTrie /\ h_type (hd_shape h) = 11 /\ h_key (hd_shape h) = 4 + hd_k h /\ h_value (hd_shape h) = hd_v h /\ 0 <= hd_k h.
Definition route_ok (h : handle) (r : route) : Prop := 0 <= r_len r <= 8 * hd_k h /\ r_len r < 2 ^ 32 /\ Z.of_nat (length (r_addr r)) = hd_k h.

Lemma trie_len_key n a : 0 <= n < 2 ^ 32 -> trie_len (key_bytes (ULpm n a)) = n.
Proof.
  intros H. unfold trie_len. cbn [key_bytes]. rewrite firstn_app_exact by (symmetry; apply le_enc_length). rewrite le_dec_enc. apply Z.mod_small. exact H.
Qed.

Lemma trie_addr_key n a : trie_addr (key_bytes (ULpm n a)) = a.
Proof. unfold trie_addr. cbn [key_bytes]. now rewrite skipn_app_exact by (symmetry; apply le_enc_length). Qed.

Lemma cut_key h n a : trie_handle h -> Z.of_nat (length a) = hd_k h ->
  firstn (Z.to_nat (h_key (hd_shape h))) (key_bytes (ULpm n a)) = key_bytes (ULpm n a).
Proof.
  intros (_ & _ & K & _ & P) L. apply firstn_full. cbn [key_bytes]. rewrite app_length, le_enc_length. lia.
Qed.

Lemma covers_iff h r n a : route_ok h r -> 0 <= n < 2 ^ 32 -> trie_covers (fst (node r)) (key_bytes (ULpm n a)) = true <-> covers r n a.
Proof.
  intros (R & R2 & _) H. unfold trie_covers, covers, node, prefix_of. cbn [fst]. rewrite !trie_len_key, !trie_addr_key by lia.
  destruct (list_eq_dec _ _ _) as [E|E]; rewrite ?andb_true_r, ?andb_false_r; split; try discriminate.
  - intros Le. split; [lia|exact E].
  - intros [Le _]. lia.
  - intros [_ E']. congruence.
Qed.

Lemma best_none h rs n a : Forall (route_ok h) rs -> 0 <= n < 2 ^ 32 -> trie_best (key_bytes (ULpm n a)) (map node rs) = None ->
  forall r, In r rs -> ~ covers r n a.
Proof.
  intros F H. induction rs as [|x rs IH]; intros B r; [intros []|]. cbn [map trie_best] in B.
  destruct (trie_covers (fst (node x)) _) eqn:C.
  - destruct (trie_best _ (map node rs)) as [b|]; [destruct (_ <? _)|]; discriminate.
  - intros [<-|I]; [|exact (IH (Forall_inv_tail F) B r I)]. intros Cv. apply (covers_iff h x n a (Forall_inv F) H) in Cv. congruence.
Qed.

Lemma best_some h rs n a e : Forall (route_ok h) rs -> 0 <= n < 2 ^ 32 -> trie_best (key_bytes (ULpm n a)) (map node rs) = Some e ->
  exists r, e = node r /\ longest rs n a r.
Proof.
  intros F H. revert e. induction rs as [|x rs IH]; intros e B; [discriminate|]. cbn [map trie_best] in B.
  pose proof (Forall_inv F) as Ox. pose proof (Forall_inv_tail F) as F'.
  assert (forall r, In r rs -> trie_len (fst (node r)) = r_len r) as Ln.
  { intros r I. apply trie_len_key. rewrite Forall_forall in F'. destruct (F' r I) as (? & ? & _). lia. }
  assert (trie_len (fst (node x)) = r_len x) as Lx by (apply trie_len_key; destruct Ox as (? & ? & _); lia).
  destruct (trie_covers (fst (node x)) _) eqn:C.
  - apply (covers_iff h x n a Ox H) in C. destruct (trie_best _ (map node rs)) as [b|] eqn:Bt.
    + destruct (IH F' b eq_refl) as (r & -> & I & Cv & Mx). rewrite Lx, (Ln r I) in B.
      destruct (Z.ltb_spec (r_len x) (r_len r)) as [Lt|Ge]; apply some_inj in B; subst e.
      * exists r. split; [reflexivity|]. split; [now right|]. split; [exact Cv|]. intros r' [<-|I'] C'; [lia|auto].
      * exists x. split; [reflexivity|]. split; [now left|]. split; [exact C|]. intros r' [<-|I'] C'; [lia|]. specialize (Mx r' I' C'). lia.
    + apply some_inj in B. subst e. exists x. split; [reflexivity|]. split; [now left|]. split; [exact C|].
      intros r' [<-|I'] C'; [lia|]. exfalso. exact (best_none h rs n a F' H Bt r' I' C').
  - destruct (IH F' e B) as (r & -> & I & Cv & Mx). exists r. split; [reflexivity|]. split; [now right|]. split; [exact Cv|].
    intros r' [<-|I'] C'; [|auto]. apply (covers_iff h x n a Ox H) in C'. congruence.
Qed.

(** A lookup gives the value of the longest prefix that covers the query. *)
Lemma trie_lookup f cpus h rs n a : trie_handle h -> Forall (route_ok h) rs -> key_ok h (ULpm n a) -> n <= 8 * hd_k h ->
  (exists r, longest rs n a r /\ call (ktrie (hd_shape h)) f cpus h (OGet (ULpm n a) 0) (map node rs) = (Ok (RData (r_val r)), map node rs)) \/
  ((forall r, In r rs -> ~ covers r n a) /\
   call (ktrie (hd_shape h)) f cpus h (OGet (ULpm n a) 0) (map node rs) = (Err EKeyNotFound, map node rs)).
Proof.
  intros H F Ky Ln. pose proof H as (W & T & K & V & P). unfold key_ok in Ky. rewrite W in Ky. destruct Ky as [Hn Ha].
  unfold call, plan. rewrite W. cbn [methods meth_of existsb meth_eqb orb negb check_key bind].
  unfold ktrie, lookup. cbn [q_cmd q_key q_value q_flags]. rewrite cut_key by assumption. rewrite trie_len_key by exact Hn.
  cbn [Z.eqb negb]. replace (8 * (h_key (hd_shape h) - 4) <? n) with false by lia.
  destruct (trie_best _ (map node rs)) as [e|] eqn:B.
  - left. destruct (best_some h rs n a e F Hn B) as (r & -> & Lg). exists r. split; [exact Lg|]. cbn [node snd answer].
    unfold decode_value. rewrite W. reflexivity.
  - right. split; [exact (best_none h rs n a F Hn B)|]. reflexivity.
Qed.

(** The same prefix: the same length and the same bits up to it. *)
Definition same_prefix (r : route) (n : Z) (a : list Z) : Prop := r_len r = n /\ prefix_of n (r_addr r) = prefix_of n a.

Lemma same_iff h r n a : route_ok h r -> 0 <= n < 2 ^ 32 -> trie_same (fst (node r)) (key_bytes (ULpm n a)) = true <-> same_prefix r n a.
Proof.
  intros (R & R2 & _) H. unfold trie_same, trie_covers, same_prefix, node, prefix_of. cbn [fst]. rewrite !trie_len_key, !trie_addr_key by lia.
  rewrite !andb_true_iff. split.
  - intros [[L1 E1] [L2 E2]]. assert (r_len r = n) as El by lia. rewrite El in E1. split; [exact El|]. destruct (list_eq_dec _ _ _) as [E|_] in E1; [exact E|discriminate].
  - intros [-> E]. split; (split; [lia|]); destruct (list_eq_dec _ _ _); congruence.
Qed.

Lemma others h rs n a : Forall (route_ok h) rs -> 0 <= n < 2 ^ 32 ->
  exists others, filter (fun e => negb (trie_same (fst e) (key_bytes (ULpm n a)))) (map node rs) = map node others /\
    forall r, In r others <-> In r rs /\ ~ same_prefix r n a.
Proof.
  intros F H. induction rs as [|x rs IH]; [exists []; split; [reflexivity|cbn [In]; tauto]|].
  destruct (IH (Forall_inv_tail F)) as (os & E & O). cbn [map filter].
  pose proof (same_iff h x n a (Forall_inv F) H) as Sx. destruct (trie_same (fst (node x)) _); cbn [negb].
  - exists os. split; [exact E|]. intros r. rewrite O. cbn [In]. split; [tauto|]. intros [[<-|I] N]; [|tauto]. exfalso. apply N, Sx. reflexivity.
  - exists (x :: os). split; [cbn [map]; now rewrite E|]. intros r. cbn [In]. rewrite O. split; [|tauto].
    intros [<-|?]; [|tauto]. split; [now left|]. intros C. apply Sx in C. discriminate.
Qed.

(** An insertion that succeeds leaves exactly one route for the prefix, the new
    one, and all other routes as they were; so does a removal, without it. *)
Lemma trie_insert f cpus h rs n a v fl r l : trie_handle h -> Forall (route_ok h) rs -> key_ok h (ULpm n a) -> val_ok cpus h (WData v) ->
  call (ktrie (hd_shape h)) f cpus h (OSet (ULpm n a) (WData v) fl) (map node rs) = (Ok r, l) ->
  exists others, l = map node ({| r_len := n; r_addr := a; r_val := v |} :: others) /\ r = RUnit /\
    route_ok h {| r_len := n; r_addr := a; r_val := v |} /\ forall x, In x others <-> In x rs /\ ~ same_prefix x n a.
Proof.
  intros H F Ky Va. pose proof H as (W & T & K & V & P). unfold key_ok in Ky. unfold val_ok in Va. rewrite W in Ky, Va. destruct Ky as [Hn Ha].
  unfold call, plan. rewrite W. cbn [methods meth_of existsb meth_eqb orb negb check_key bind val_bytes].
  unfold ktrie, update. cbn [q_cmd q_key q_value q_flags]. rewrite cut_key by assumption. rewrite trie_len_key by exact Hn.
  rewrite firstn_full_z by congruence.
  destruct ((fl <? 0) || (2 <? fl)); cbn [orb]; [cbn [answer]; discriminate|].
  destruct (Z.ltb_spec (8 * (h_key (hd_shape h) - 4)) n) as [|Le]; [cbn [answer]; discriminate|].
  destruct (_ && _); [cbn [answer]; discriminate|]. destruct (_ && _); [cbn [answer]; discriminate|].
  destruct (_ && _); [cbn [answer]; discriminate|]. cbn [answer]. intros E. apply pair_equal_spec in E as [E <-]. apply ok_inj in E.
  destruct (others h rs n a F Hn) as (os & Eo & O). exists os. rewrite Eo. split; [reflexivity|]. split; [congruence|].
  split; [|exact O]. unfold route_ok. cbn [r_len r_addr]. lia.
Qed.

Lemma trie_remove f cpus h rs n a r l : trie_handle h -> Forall (route_ok h) rs -> key_ok h (ULpm n a) ->
  call (ktrie (hd_shape h)) f cpus h (ORemove (ULpm n a)) (map node rs) = (Ok r, l) ->
  exists others, l = map node others /\ (exists x, In x rs /\ same_prefix x n a) /\ forall x, In x others <-> In x rs /\ ~ same_prefix x n a.
Proof.
  intros H F Ky. pose proof H as (W & T & K & V & P). unfold key_ok in Ky. rewrite W in Ky. destruct Ky as [Hn Ha].
  unfold call, plan. rewrite W. cbn [methods meth_of existsb meth_eqb orb negb check_key bind].
  unfold ktrie, delete. cbn [q_cmd q_key q_value q_flags]. rewrite cut_key by assumption. rewrite trie_len_key by exact Hn.
  destruct (_ <? _); [cbn [answer]; discriminate|].
  destruct (existsb _ _) eqn:Ex; [|cbn [answer]; discriminate]. cbn [answer]. intros E. apply pair_equal_spec in E as [_ <-].
  destruct (others h rs n a F Hn) as (os & Eo & O). exists os. rewrite Eo. split; [reflexivity|]. split; [|exact O].
  apply existsb_exists in Ex as (e & I & S). apply in_map_iff in I as (x & <- & I). exists x. split; [exact I|].
  rewrite Forall_forall in F. now apply (same_iff h x n a (F x I) Hn).
Qed.

(** * Redirection maps *)

Definition xdp_supported (f : features) (h : handle) : bool := match hd_wrap h with WCpuMap => f_cpumap f | _ => f_devmap f end.
Definition xdp_handle (f : features) (h : handle) : Prop :=
  (hd_wrap h = WCpuMap /\ h_type (hd_shape h) = 16 \/ hd_wrap h = WDevMap /\ h_type (hd_shape h) = 14) /\
  h_value (hd_shape h) = (if xdp_supported f h then 8 else 4) /\ 0 <= h_entries (hd_shape h) < 2 ^ 32.
(** Programs the caller can name: their descriptors are not 0. *)
Definition fds_above_0 (o : op) : Prop := match o with OSet _ (WXdp _ (Some fd)) _ => fd <> 0 | _ => True end.

Definition cell (x : option (Z * option Z)) : option (Z * Z) :=
  match x with Some (t, p) => Some (t, match p with Some id => id | None => 0 end) | None => None end.
Definition cell_ok (supported : bool) (x : option (Z * option Z)) : Prop :=
  match x with Some (t, p) => 0 <= t < 2 ^ 32 /\ match p with Some id => supported = true /\ 0 < id < 2 ^ 32 | None => True end | None => True end.

Lemma map_set {A B} (g : A -> B) a i x : (i < length a)%nat -> map g (firstn i a ++ [x] ++ skipn (S i) a) = upd i (g x) (map g a).
Proof.
  revert i. induction a as [|y a IH]; intros i L; cbn [length] in L; [lia|]. destruct i as [|i]; cbn [firstn skipn app map upd]; [reflexivity|].
  f_equal. apply IH. lia.
Qed.

Lemma Forall_set {A} (Q : A -> Prop) a i x : Forall Q a -> Q x -> Forall Q (firstn i a ++ [x] ++ skipn (S i) a).
Proof.
  intros F X. rewrite Forall_forall in *. intros y I. apply in_app_or in I as [I|I].
  - apply F. rewrite <- (firstn_skipn i a). apply in_or_app. now left.
  - apply in_app_or in I as [[<-|[]]|I]; [exact X|]. apply F. rewrite <- (firstn_skipn (S i) a). apply in_or_app. now right.
Qed.

Lemma dec_le4 t : 0 <= t < 2 ^ 32 -> le_dec (le_enc 4 t) = t.
Proof. intros H. rewrite le_dec_enc. apply Z.mod_small. exact H. Qed.

Lemma xdp_fd b fd : 0 <= fd < 2 ^ 31 -> length b = 4%nat -> i32 (le_dec (slice 4 4 (b ++ le_enc 4 fd))) = fd.
Proof.
  intros H L. unfold slice. rewrite skipn_app_exact by (symmetry; exact L). rewrite firstn_full by apply le_enc_length. rewrite dec_le4 by lia.
  unfold i32, swrap. rewrite Z.mod_small by lia. destruct (Z.ltb_spec fd (2 ^ (32 - 1))); lia.
Qed.

Lemma xdp_sim f cpus h progs bad o a : xdp_handle f h -> (forall fd id, progs fd = Some id -> 0 < id < 2 ^ 32) ->
  op_ok cpus h o /\ fds_above_0 o ->
  Forall (cell_ok (xdp_supported f h)) a /\ Z.of_nat (length a) = h_entries (hd_shape h) ->
  call (kxdp progs bad (hd_shape h)) f cpus h o (map cell a) =
    (let (r, a') := xdp_step (xdp_supported f h) progs bad o a in (r, map cell a')) /\
  Forall (cell_ok (xdp_supported f h)) (snd (xdp_step (xdp_supported f h) progs bad o a)) /\
  Z.of_nat (length (snd (xdp_step (xdp_supported f h) progs bad o a))) = h_entries (hd_shape h).
Proof.
  intros (W & Vs & En) Pg (Ho & Fd) (C & N).
  assert (methods (hd_wrap h) = [MGet; MSet] /\ bounded (hd_wrap h) = true) as [M B] by (destruct W as [[-> _]|[-> _]]; auto).
  assert (forall b, decode_value f h b = Ok (xdp_value (xdp_supported f h) b)) as D.
  { intros b. unfold decode_value, xdp_supported. destruct W as [[-> _]|[-> _]]; reflexivity. }
  assert (forall t p, val_bytes f cpus h (WXdp t p) = xdp_bytes (xdp_supported f h) t p) as Vb by reflexivity.
  assert (forall k, key_ok h k -> exists i, k = UIndex i /\ 0 <= i < 2 ^ 32) as KB.
  { intros k Hk. unfold key_ok in Hk. destruct W as [[W _]|[W _]]; rewrite W in Hk; destruct k; try contradiction; eauto. }
  unfold call, plan. rewrite M. destruct o as [k fl|k v fl|k|prev|v fl|fl|v fl]; cbn [meth_of existsb meth_eqb orb negb op_ok] in *;
    try (cbn [xdp_step snd]; auto).
  - destruct (KB k Ho) as (i & -> & Hi). unfold xdp_step. cbn [check_key]. rewrite B. unfold check_bounds. rewrite N.
    destruct (Z.leb_spec (h_entries (hd_shape h)) i) as [Le|Le]; cbn [bind snd]; [auto|].
    unfold kxdp, lookup. cbn [key_bytes q_cmd q_key q_value q_flags]. rewrite index_dec by exact Hi.
    destruct (Z.eqb_spec fl 0) as [->|Nz]; cbn [negb snd]; [|cbn [answer Z.eqb EINVAL ENOENT Pos.eqb]; auto].
    rewrite nth_error_map. assert (exists c, nth_error a (Z.to_nat i) = Some c) as [c Ec].
    { destruct (nth_error a (Z.to_nat i)) eqn:E; [eauto|]. apply nth_error_None in E. lia. }
    rewrite Ec. rewrite (nth_error_nth a _ None Ec). cbn [option_map].
    assert (cell_ok (xdp_supported f h) c) as Oc by (rewrite Forall_forall in C; eapply C, nth_error_In, Ec).
    destruct c as [[t p]|]; cbn [cell cell_ok] in *; [|cbn [answer snd]; auto].
    cbn [answer snd]. rewrite D. rewrite Vs. split; [|auto]. f_equal. unfold xdp_value.
    destruct (xdp_supported f h); cbn [Z.eqb Pos.eqb].
    + rewrite firstn_app_exact by (symmetry; apply le_enc_length). rewrite dec_le4 by lia. unfold slice. rewrite skipn_app_exact by (symmetry; apply le_enc_length).
      rewrite firstn_full by apply le_enc_length. destruct p as [id|].
      * rewrite dec_le4 by lia. now replace (id =? 0) with false by lia.
      * rewrite dec_le4 by lia. reflexivity.
    + rewrite app_nil_r, dec_le4 by lia. destruct p as [id|]; [|reflexivity]. destruct Oc as (_ & ? & _). discriminate.
  - destruct Ho as [Hk Hv]. destruct (KB k Hk) as (i & -> & Hi).
    assert (exists t p, v = WXdp t p /\ 0 <= t < 2 ^ 32 /\ match p with Some fd => 0 <= fd < 2 ^ 31 | None => True end) as (t & p & -> & Ht & Hp).
    { unfold val_ok in Hv. destruct W as [[W _]|[W _]]; rewrite W in Hv; destruct v; try contradiction; eauto. }
    unfold xdp_step. cbn [check_key fds_above_0] in *. rewrite B. unfold check_bounds. rewrite N.
    destruct (Z.leb_spec (h_entries (hd_shape h)) i) as [Le|Le]; cbn [bind snd]; [auto|]. rewrite Vb. unfold xdp_bytes.
    assert (Z.to_nat i < length a)%nat as Li by lia.
    assert (Z.of_nat (length (map cell a)) <=? i = false) as Lm by (rewrite map_length; lia).
    set (kern := kxdp progs bad (hd_shape h)).
    assert (forall vb, firstn 4 vb = le_enc 4 t -> (if h_value (hd_shape h) =? 8 then i32 (le_dec (slice 4 4 vb)) else 0) = match p with Some fd => fd | None => 0 end ->
      (xdp_supported f h = false -> p = None) ->
      let r := match fl with
          | 1 => (Err (ESyscall EEXIST), a)
          | 0 | 2 =>
              match t, p with
              | 0, Some _ => (Err (ESyscall EINVAL), a)
              | 0, None => (Ok RUnit, firstn (Z.to_nat i) a ++ [None] ++ skipn (S (Z.to_nat i)) a)
              | _, _ =>
                  match bad t, p with
                  | Some e, _ => (Err (ESyscall e), a)
                  | None, None => (Ok RUnit, firstn (Z.to_nat i) a ++ [Some (t, None)] ++ skipn (S (Z.to_nat i)) a)
                  | None, Some fd => match progs fd with Some id => (Ok RUnit, firstn (Z.to_nat i) a ++ [Some (t, Some id)] ++ skipn (S (Z.to_nat i)) a) | None => (Err (ESyscall EBADF), a) end
                  end
              end
          | _ => (Err (ESyscall EINVAL), a)
          end in
      (let (r0, s) := kern (update (Some (key_bytes (UIndex i))) vb fl) (map cell a) in (answer f h (OSet (UIndex i) (WXdp t p) fl) r0, s)) =
        (let (r1, a') := r in (r1, map cell a')) /\ Forall (cell_ok (xdp_supported f h)) (snd r) /\ Z.of_nat (length (snd r)) = h_entries (hd_shape h)) as Main.
    { intros vb E1 E2 Sp r. unfold kern, kxdp, update. cbn [key_bytes q_cmd q_key q_value q_flags]. rewrite index_dec by exact Hi. rewrite E1, E2, Lm.
      rewrite dec_le4 by exact Ht. unfold r. clear r kern Vb D.
      assert (forall x, cell_ok (xdp_supported f h) x ->
        map cell (firstn (Z.to_nat i) a ++ [x] ++ skipn (S (Z.to_nat i)) a) = upd (Z.to_nat i) (cell x) (map cell a) /\
        Forall (cell_ok (xdp_supported f h)) (firstn (Z.to_nat i) a ++ [x] ++ skipn (S (Z.to_nat i)) a) /\
        Z.of_nat (length (firstn (Z.to_nat i) a ++ [x] ++ skipn (S (Z.to_nat i)) a)) = h_entries (hd_shape h)) as St.
      { intros x Ox. split; [now apply map_set|]. split; [now apply Forall_set|]. now rewrite set_length. }
      destruct ((fl <? 0) || (2 <? fl)) eqn:Of.
      { cbn [answer]. destruct fl as [|[q|[q|q|]|]|q]; try (cbn in Of; discriminate); auto. }
      assert (fl = 0 \/ fl = 1 \/ fl = 2) as Cf by lia.
      assert (forall fl', fl' = 0 \/ fl' = 2 -> fl' =? 1 = false) as N1 by (intros; lia).
      destruct (Z.eqb_spec fl 1) as [->|Nf]; [cbn [answer]; auto|].
      assert (forall X (x y z : X), match fl with 0 | 2 => x | 1 => y | _ => z end = x) as Mf.
      { intros. destruct Cf as [-> | [-> | ->]]; [reflexivity|congruence|reflexivity]. }
      match goal with |- _ = (let (_, _) := ?m in _) /\ _ => assert (m =
              match t, p with
              | 0, Some _ => (Err (ESyscall EINVAL), a)
              | 0, None => (Ok RUnit, firstn (Z.to_nat i) a ++ [None] ++ skipn (S (Z.to_nat i)) a)
              | _, _ =>
                  match bad t, p with
                  | Some e, _ => (Err (ESyscall e), a)
                  | None, None => (Ok RUnit, firstn (Z.to_nat i) a ++ [Some (t, None)] ++ skipn (S (Z.to_nat i)) a)
                  | None, Some fd => match progs fd with Some id => (Ok RUnit, firstn (Z.to_nat i) a ++ [Some (t, Some id)] ++ skipn (S (Z.to_nat i)) a) | None => (Err (ESyscall EBADF), a) end
                  end
              end) as -> by (destruct Cf as [-> | [-> | ->]]; [reflexivity|congruence|reflexivity]) end.
      assert (forall fd, p = Some fd -> 0 < fd) as Pf by (intros fd ->; lia).
      destruct (Z.eqb_spec t 0) as [->|Nt].
      - destruct p as [fd|].
        + specialize (Pf fd eq_refl). replace (0 <? fd) with true by lia. cbn [answer snd]. auto.
        + cbn [Z.ltb Z.compare answer snd]. destruct (St None I) as (-> & ? & ?). auto.
      - assert (forall X (x y : X), match t with 0 => x | _ => y end = y) as Mt by (intros; destruct t; [congruence|reflexivity..]).
        assert (forall X (x y : option Z -> X), match t, p with 0, Some z => x (Some z) | 0, None => x None | _, _ => y p end = y p) as Mt2.
        { intros. destruct t; [congruence|reflexivity..]. }
        destruct t as [|tp|tp]; [congruence| |lia].
        destruct (bad (Zpos tp)) as [e|]; [cbn [answer snd]; auto|].
        destruct p as [fd|].
        + specialize (Pf fd eq_refl). replace (0 <? fd) with true by lia. destruct (progs fd) as [id|] eqn:Ep; cbn [answer snd]; [|auto].
          assert (xdp_supported f h = true) as Sv by (destruct (xdp_supported f h); [reflexivity|specialize (Sp eq_refl); discriminate]).
          destruct (St (Some (Zpos tp, Some id))) as (-> & ? & ?); [cbn [cell_ok]; specialize (Pg fd id Ep); auto|]. auto.
        + cbn [Z.ltb Z.compare answer snd]. destruct (St (Some (Zpos tp, None))) as (-> & ? & ?); [cbn [cell_ok]; auto|]. auto. }
    destruct (xdp_supported f h) eqn:Sv; cbn [bind].
    + assert (forall X (y : X), match p with Some _ => y | None => y end = y) as Mp by (intros; now destruct p).
      rewrite !Mp. apply Main.
      * rewrite firstn_app_exact by (symmetry; apply le_enc_length). reflexivity.
      * rewrite Vs. cbn [Z.eqb Pos.eqb]. apply xdp_fd; [destruct p; lia|apply le_enc_length].
      * discriminate.
    + destruct p as [fd|]; cbn [bind]; [cbn [snd]; auto|]. apply Main; [|rewrite Vs; reflexivity|auto]. apply firstn_full, le_enc_length.
Qed.

Lemma xdp_faithful f cpus h progs bad ops : xdp_handle f h -> (forall fd id, progs fd = Some id -> 0 < id < 2 ^ 32) ->
  Forall (fun o => op_ok cpus h o /\ fds_above_0 o) ops ->
  fst (calls (kxdp progs bad (hd_shape h)) f cpus h ops (repeat None (Z.to_nat (h_entries (hd_shape h))))) =
  steps (xdp_step (xdp_supported f h) progs bad) ops (repeat None (Z.to_nat (h_entries (hd_shape h)))).
Proof.
  intros H Pg G.
  apply (calls_sim _ f cpus h _ (fun a l => l = map cell a /\ Forall (cell_ok (xdp_supported f h)) a /\ Z.of_nat (length a) = h_entries (hd_shape h))
    (fun o => op_ok cpus h o /\ fds_above_0 o)); auto.
  - intros o t s Go (-> & R). destruct (xdp_sim f cpus h progs bad o t H Pg Go R) as (E & R'). rewrite E.
    destruct (xdp_step _ progs bad o t) as [r a']. cbn [fst snd] in *. auto.
  - split; [|split].
    + generalize (Z.to_nat (h_entries (hd_shape h))) as n. intros n. induction n as [|n IH]; [reflexivity|]. cbn [repeat map cell]. now rewrite <- IH.
    + apply Forall_forall. intros x I. apply repeat_spec in I. now subst x.
    + rewrite repeat_length. destruct H as (_ & _ & ?). lia.
Qed.

(** * Stack traces *)

(** The kernel stores the addresses of a trace one after the other and fills the
    rest with 0 (kernel/bpf/stackmap.c [bpf_stackmap_copy]). *)
Definition trace_bytes (n : nat) (ips : list Z) : list Z := flat_map (le_enc 8) (ips ++ repeat 0 (n - length ips)).

Lemma words_flat l rest : Forall (fun x => 0 <= x < 2 ^ 64) l -> words64 (length l) (flat_map (le_enc 8) l ++ rest) = l.
Proof.
  intros F. induction F as [|x l X F IH]; [reflexivity|]. cbn [length words64 flat_map]. rewrite <- app_assoc.
  rewrite firstn_app_exact by (symmetry; apply le_enc_length). rewrite skipn_app_exact by (symmetry; apply le_enc_length). rewrite IH. f_equal. rewrite le_dec_enc.
  apply Z.mod_small. exact X.
Qed.

Lemma take_all l n : Forall (fun x => x <> 0) l -> take_nonzero (l ++ repeat 0 n) = l.
Proof.
  intros F. induction F as [|x l X F IH]; cbn [app take_nonzero].
  - now destruct n.
  - replace (x =? 0) with false by lia. now rewrite IH.
Qed.

Lemma frames_faithful f h ips : hd_wrap h = WStackTraceMap -> fits f WStackTraceMap (hd_k h) (hd_v h) (hd_shape h) -> 0 <= h_value (hd_shape h) ->
  Forall (fun x => 0 < x < 2 ^ 64) ips -> 8 * Z.of_nat (length ips) <= h_value (hd_shape h) ->
  let b := trace_bytes (Z.to_nat (h_value (hd_shape h) / 8)) ips in
  Z.of_nat (length b) = h_value (hd_shape h) /\ answer f h (OGet (UIndex 0) 0) (Ok b) = Ok (RFrames ips).
Proof.
  intros W (_ & _ & S) P F L b. destruct (S eq_refl) as (_ & [q Q] & _).
  assert (h_value (hd_shape h) / 8 = q) as Dq by (rewrite Q; apply Z.div_mul; lia).
  set (l := ips ++ repeat 0 (Z.to_nat (h_value (hd_shape h) / 8) - length ips)).
  assert (length l = Z.to_nat q) as Ll by (unfold l; rewrite app_length, repeat_length, Dq; lia).
  assert (forall m : list Z, length (flat_map (le_enc 8) m) = (8 * length m)%nat) as Lf.
  { intros m. induction m as [|x m IH]; [reflexivity|]. cbn [flat_map length]. rewrite app_length, le_enc_length, IH. lia. }
  split.
  - unfold b, trace_bytes. fold l. rewrite Lf, Ll. lia.
  - cbn [answer]. unfold decode_value. rewrite W. unfold b, trace_bytes. fold l. rewrite Dq, <- Ll.
    rewrite <- (app_nil_r (flat_map _ l)), words_flat.
    + unfold l. rewrite take_all; [reflexivity|]. eapply Forall_impl; [|exact F]. intros x X. cbn beta in X. lia.
    + unfold l. apply Forall_app. split; [eapply Forall_impl; [|exact F]; intros x X; cbn beta in *; lia|].
      apply Forall_forall. intros x I. apply repeat_spec in I. subst x. lia.
Qed.
