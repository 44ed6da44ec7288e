From Verif Require Import Base HelpModel HelpSpec.
Import ListNotations.
Local Open Scope Z_scope.

Lemma u32_id x : 0 <= x < 2 ^ 32 -> u32 x = x.
Proof. intros. unfold u32, wrap. apply Z.mod_small. lia. Qed.

Lemma bytes_at_length f n : forall a l, bytes_at f a n = Some l -> length l = n.
Proof.
  induction n as [|n IH]; intros a l; cbn [bytes_at].
  - intros H. apply some_inj in H. now subst.
  - destruct (f a) as [b|]; [|discriminate]. destruct (bytes_at f (a + 1) n) as [l'|] eqn:E; [|discriminate].
    intros H. apply some_inj in H. subst. cbn. now rewrite (IH _ _ E).
Qed.

Lemma written_whole new old : length new = length old -> written new old = new.
Proof. intros H. unfold written. rewrite H, skipn_all. apply app_nil_r. Qed.
Lemma written_length new old : (length new <= length old)%nat -> length (written new old) = length old.
Proof. intros H. unfold written. rewrite app_length, skipn_length. lia. Qed.

Lemma probe_read_spec m s size src : 0 <= size < 2 ^ 32 ->
  probe_read (kernel_raw m) s size src =
  match bytes_at (seen m s src) src (Z.to_nat size) with Some l => Ok l | None => Err (Helper (-14)) end.
Proof.
  intros B. unfold probe_read, kernel_raw. cbn [probe]. unfold kernel_probe. rewrite (u32_id size B).
  destruct (bytes_at _ src (Z.to_nat size)) as [l|] eqn:E.
  - apply bytes_at_length in E. unfold value_of. replace (Z.of_nat (length l) =? size) with true by lia.
    destruct s; reflexivity.
  - destruct s; reflexivity.
Qed.

Lemma probe_read_buf_spec m s src dst : Z.of_nat (length dst) < 2 ^ 32 ->
  probe_read_buf (kernel_raw m) s src dst =
  match bytes_at (seen m s src) src (length dst) with
  | Some l => (Ok tt, l)
  | None => (Err (Helper (-14)), repeat 0 (length dst))
  end.
Proof.
  intros B. unfold probe_read_buf, kernel_raw. cbn [probe]. unfold kernel_probe. rewrite u32_id by lia. rewrite Nat2Z.id.
  destruct (bytes_at _ src (length dst)) as [l|] eqn:E.
  - apply bytes_at_length in E. rewrite written_whole by exact E. reflexivity.
  - rewrite written_whole by apply repeat_length. reflexivity.
Qed.

Lemma check_bounds_spec v lo up : check_bounds_signed v lo up = true <-> lo <= v <= up.
Proof.
  unfold check_bounds_signed. cbn [run].
  destruct (Z.ltb_spec v lo) as [A|A]; cbn [run skipn].
  - cbn. split; [discriminate|lia].
  - destruct (Z.ltb_spec up v) as [C|C]; cbn [run skipn]; cbn; (split; intros H; [try discriminate H|]; try reflexivity; lia).
Qed.

Lemma chars_of_tail f a b s : chars_of f a (b :: s) -> chars_of f (a + 1) s.
Proof.
  intros H i c N. specialize (H (S i) c N). replace (a + 1 + Z.of_nat i) with (a + Z.of_nat (S i)) by lia. exact H.
Qed.
Lemma chars_of_head f a b s : chars_of f a (b :: s) -> f a = Some b /\ b <> 0.
Proof. intros H. specialize (H 0%nat b eq_refl). now rewrite Z.add_0_r in H. Qed.

(** The characters of a string, cut at [n]. *)
Lemma chars_at_string f s : forall a n, string_at f a s ->
  chars_at f a n = Some (if (length s <? n)%nat then (s, true) else (firstn n s, false)).
Proof.
  induction s as [|b s IH]; intros a n [C T].
  - destruct n as [|n]; [reflexivity|]. cbn [chars_at]. cbn in T. rewrite Z.add_0_r in T. rewrite T. reflexivity.
  - destruct n as [|n]; [reflexivity|]. cbn [chars_at]. destruct (chars_of_head _ _ _ _ C) as [F N]. rewrite F.
    replace (b =? 0) with false by lia.
    rewrite (IH (a + 1) n).
    + cbn [length firstn]. change (S (length s) <? S n)%nat with (length s <? n)%nat. destruct (length s <? n)%nat; reflexivity.
    + split; [apply (chars_of_tail _ _ _ _ C)|]. rewrite <- T. f_equal. cbn [length]. lia.
Qed.
Lemma chars_at_long f s : forall a, chars_of f a s -> chars_at f a (length s) = Some (s, false).
Proof.
  induction s as [|b s IH]; intros a C; [reflexivity|]. cbn [length chars_at].
  destruct (chars_of_head _ _ _ _ C) as [F N]. rewrite F. replace (b =? 0) with false by lia.
  rewrite (IH (a + 1) (chars_of_tail _ _ _ _ C)). reflexivity.
Qed.
Lemma chars_at_fault f s : forall a n, chars_of f a s -> f (a + Z.of_nat (length s)) = None -> (length s < n)%nat -> chars_at f a n = None.
Proof.
  induction s as [|b s IH]; intros a n C X L; (destruct n as [|n]; [cbn in L; lia|]); cbn [chars_at].
  - cbn in X. rewrite Z.add_0_r in X. now rewrite X.
  - destruct (chars_of_head _ _ _ _ C) as [F N]. rewrite F. replace (b =? 0) with false by lia.
    rewrite (IH (a + 1) n); [reflexivity|apply (chars_of_tail _ _ _ _ C)| |cbn in L; lia].
    rewrite <- X. f_equal. cbn [length]. lia.
Qed.

Lemma i64_id x : 0 <= x < 2 ^ 63 -> i64 x = x.
Proof. intros. unfold i64, swrap. cbv zeta. rewrite Z.mod_small by lia. change (2 ^ (64 - 1)) with (2 ^ 63). destruct (Z.ltb_spec x (2 ^ 63)); lia. Qed.

(** What read_str_bytes makes of a count that the kernel can return. *)
Lemma read_str_bytes_spec len dest : 0 <= len <= Z.of_nat (length dest) -> Z.of_nat (length dest) < 2 ^ 32 ->
  read_str_bytes len dest = Ok (firstn (Z.to_nat len - 1) dest).
Proof.
  intros L B. unfold read_str_bytes. rewrite i64_id by lia.
  rewrite (proj2 (check_bounds_spec len 0 _)) by lia. cbn [negb].
  replace (len <? 0) with false by lia. cbv zeta.
  replace (Z.max 0 (len - 1) <=? Z.of_nat (length dest)) with true by lia.
  do 2 f_equal. lia.
Qed.

Lemma firstn_written n s old : (n <= length s)%nat -> firstn n (written s old) = firstn n s.
Proof. intros H. unfold written. rewrite firstn_app. replace (n - length s)%nat with 0%nat by lia. cbn [firstn]. apply app_nil_r. Qed.

Definition direct (s : space) : Prop := s = UserSpace \/ s = KernelSpace.

(** What the kernel leaves of a string in a buffer. *)
Definition kept (n : nat) (s : list Z) : list Z := firstn (n - 1) s.

Lemma kernel_str_string m sp a s n : string_at (seen m sp a) a s -> (0 < n)%nat ->
  exists len, kernel_probe_str m sp (Z.of_nat n) a = (len, kept n s ++ [0]) /\ 0 <= len <= Z.of_nat n /\
    (Z.to_nat len - 1 = length (kept n s))%nat /\
    (len = Z.of_nat (length (kept n s)) + 1 \/ (len = 0 /\ s = [])).
Proof.
  intros S N. unfold kernel_probe_str. replace (Z.of_nat n =? 0) with false by lia. rewrite Nat2Z.id.
  rewrite (chars_at_string _ _ _ n S). destruct (Nat.ltb_spec (length s) n) as [L|L].
  - set (user := match sp with UserSpace => true | KernelSpace => false | AnySpace => a <? limit m end).
    assert (K : kept n s = s) by (unfold kept; apply firstn_all2; lia). rewrite K.
    exists (if user && (match s with [] => true | _ => false end) then 0 else Z.of_nat (length s) + 1).
    split; [reflexivity|]. destruct (user && _)%bool eqn:E.
    + destruct s; [|now rewrite andb_false_r in E]. cbn. split; [lia|]. split; [reflexivity|]. now right.
    + split; [lia|]. split; [lia|]. now left.
  - exists (Z.of_nat n). unfold kept. rewrite firstn_firstn. replace (Nat.min (n - 1) n) with (n - 1)%nat by lia.
    rewrite firstn_length. split; [reflexivity|]. split; [lia|]. split; [lia|]. left. lia.
Qed.

Lemma str_bytes_string m sp a s dest :
  string_at (seen m sp a) a s -> Z.of_nat (length dest) < 2 ^ 32 ->
  let '(r, dest') := probe_read_str_bytes (kernel_raw m) sp a dest in
  r = Ok (firstn (length dest - 1) s) /\ length dest' = length dest /\
  (length dest <> 0%nat -> firstn (length (firstn (length dest - 1) s) + 1) dest' = firstn (length dest - 1) s ++ [0]).
Proof.
  intros S B. unfold probe_read_str_bytes, kernel_raw. cbn [probe_str]. rewrite u32_id by lia.
  destruct dest as [|d dest].
  - cbn [length]. unfold kernel_probe_str. replace (Z.of_nat 0 =? 0) with true by reflexivity.
    split; [|split; [reflexivity|intros []; reflexivity]]. rewrite read_str_bytes_spec by (cbn; lia). destruct s; reflexivity.
  - set (dst := d :: dest) in *. assert (N : (0 < length dst)%nat) by (cbn; lia).
    destruct (kernel_str_string m sp a s _ S N) as (len & -> & L & K & _).
    assert (KL : (length (kept (length dst) s) <= length dst - 1)%nat) by (unfold kept; rewrite firstn_length; lia).
    assert (W : length (written (kept (length dst) s ++ [0]) dst) = length dst) by (apply written_length; rewrite app_length; cbn [length] in *; lia).
    split; [|split; [exact W|]].
    + rewrite read_str_bytes_spec by (rewrite W; lia). f_equal. rewrite K.
      rewrite firstn_written by (rewrite app_length; lia). apply firstn_app_exact. reflexivity.
    + intros _. fold (kept (length dst) s). rewrite firstn_written by (rewrite app_length; cbn [length]; lia).
      rewrite <- (app_nil_r (kept (length dst) s ++ [0])) at 1. apply firstn_app_exact. rewrite app_length. reflexivity.
Qed.

Lemma str_bytes_long m sp a s dest :
  chars_of (seen m sp a) a s -> length s = length dest -> Z.of_nat (length dest) < 2 ^ 32 ->
  fst (probe_read_str_bytes (kernel_raw m) sp a dest) = Ok (firstn (length dest - 1) s).
Proof.
  intros C E B. unfold probe_read_str_bytes, kernel_raw. cbn [probe_str]. rewrite u32_id by lia.
  unfold kernel_probe_str. destruct (Z.eqb_spec (Z.of_nat (length dest)) 0) as [Z0|NZ].
  - destruct dest; [|cbn in Z0; lia]. cbn [fst length]. rewrite read_str_bytes_spec by (cbn; lia). destruct s; reflexivity.
  - rewrite Nat2Z.id, <- E, (chars_at_long _ _ _ C). cbn [fst].
    assert (KL : length (firstn (length s - 1) s) = (length s - 1)%nat) by (rewrite firstn_length; lia).
    assert (W : length (written (firstn (length s - 1) s ++ [0]) dest) = length dest) by (apply written_length; rewrite app_length; cbn [length] in *; lia).
    rewrite read_str_bytes_spec by (rewrite W; lia). f_equal. rewrite Nat2Z.id.
    rewrite firstn_written by (rewrite app_length; cbn [length]; lia).
    rewrite firstn_app, KL. replace (length s - 1 - (length s - 1))%nat with 0%nat by lia. cbn [firstn]. rewrite app_nil_r.
    rewrite firstn_firstn. f_equal. lia.
Qed.

Lemma str_bytes_fault m sp a s dest :
  chars_of (seen m sp a) a s -> seen m sp a (a + Z.of_nat (length s)) = None -> (length s < length dest)%nat -> Z.of_nat (length dest) < 2 ^ 32 ->
  probe_read_str_bytes (kernel_raw m) sp a dest = (Err (Helper (-1)), repeat 0 (length dest)) /\
  probe_read_str (kernel_raw m) sp a dest = (Err (Helper (-1)), repeat 0 (length dest)).
Proof.
  intros C X L B. unfold probe_read_str_bytes, probe_read_str, kernel_raw. cbn [probe_str]. rewrite u32_id by lia.
  unfold kernel_probe_str. replace (Z.of_nat (length dest) =? 0) with false by lia.
  rewrite Nat2Z.id, (chars_at_fault _ _ _ _ C X L). rewrite written_whole by apply repeat_length.
  split; reflexivity.
Qed.

Lemma str_count m sp a s dest :
  string_at (seen m sp a) a s -> (0 < length dest)%nat -> Z.of_nat (length dest) < 2 ^ 32 ->
  exists n, fst (probe_read_str (kernel_raw m) sp a dest) = Ok n /\
    (n = Z.of_nat (length (firstn (length dest - 1) s)) + 1 \/ (n = 0 /\ s = [])).
Proof.
  intros S N B. unfold probe_read_str, kernel_raw. cbn [probe_str]. rewrite u32_id by lia.
  destruct (kernel_str_string m sp a s _ S N) as (len & -> & L & K & D). cbn [fst].
  replace (len <? 0) with false by lia. rewrite Z.min_l by lia. exists len. split; [reflexivity|exact D].
Qed.

Lemma comm_spec comm : (length comm <= 15)%nat ->
  get_current_comm (kernel_comm comm) = Ok (comm ++ repeat 0 (16 - length comm)).
Proof.
  intros L. unfold get_current_comm, kernel_comm. cbv zeta.
  change (u32 (Z.of_nat (length (repeat 0 TASK_COMM_LEN)))) with 16. change (Z.to_nat 16) with 16%nat. change (16 - 1)%nat with 15%nat.
  rewrite (firstn_all2 comm) by lia. cbn [Z.eqb]. f_equal. apply written_whole.
  rewrite app_length, !repeat_length. unfold TASK_COMM_LEN. lia.
Qed.

Lemma ids_spec low high : 0 <= low < 2 ^ 32 -> 0 <= high < 2 ^ 32 ->
  pid (task_word low high) = low /\ tgid (task_word low high) = high /\ uid (task_word low high) = low /\ gid (task_word low high) = high.
Proof.
  intros L H. unfold pid, tgid, uid, gid, task_word.
  assert (A : u32 (high * 2 ^ 32 + low) = low).
  { unfold u32, wrap. rewrite Z.add_comm, Z.mod_add by lia. apply Z.mod_small. lia. }
  assert (C : u32 (Z.shiftr (high * 2 ^ 32 + low) 32) = high).
  { rewrite Z.shiftr_div_pow2 by lia. rewrite Z.add_comm, Z.div_add by lia. rewrite Z.div_small by lia. apply u32_id. lia. }
  repeat split; assumption.
Qed.

Lemma adj_room_spec len : 0 <= len -> adj_room_encap_l2 len = (len mod 256) * 2 ^ 56.
Proof.
  intros H. unfold adj_room_encap_l2. change 255 with (Z.ones 8). rewrite Z.land_ones by lia.
  rewrite Z.shiftl_mul_pow2 by lia. unfold u64, wrap. change (2 ^ 8) with 256.
  apply Z.mod_small. change (2 ^ 64) with (256 * 2 ^ 56). assert (0 <= len mod 256 < 256) by (apply Z.mod_pos_bound; lia). lia.
Qed.

Lemma printk_arg_signed x : - 2 ^ 63 <= x < 2 ^ 63 -> i64 (printk_arg true x) = x /\ 0 <= printk_arg true x < 2 ^ 64.
Proof.
  intros H. unfold printk_arg, u64, i64, wrap, swrap. change (2 ^ (64 - 1)) with (2 ^ 63). cbv zeta.
  split; [|apply Z.mod_pos_bound; lia].
  destruct (Z.le_gt_cases 0 x) as [P|P].
  - rewrite (Z.mod_small x) by lia. destruct (Z.ltb_spec x (2 ^ 63)); [|lia]. rewrite Z.mod_mod by lia. rewrite Z.mod_small by lia.
    destruct (Z.ltb_spec x (2 ^ 63)); lia.
  - assert (E : x mod 2 ^ 64 = x + 2 ^ 64) by (symmetry; apply Z.mod_unique with (q := -1); lia).
    rewrite E. destruct (Z.ltb_spec (x + 2 ^ 64) (2 ^ 63)); [lia|]. replace (x + 2 ^ 64 - 2 ^ 64) with x by lia.
    rewrite E. rewrite (Z.mod_small (x + 2 ^ 64)) by lia. destruct (Z.ltb_spec (x + 2 ^ 64) (2 ^ 63)); lia.
Qed.
Lemma printk_arg_unsigned x : 0 <= x < 2 ^ 64 -> printk_arg false x = x.
Proof. intros H. unfold printk_arg, u64, wrap. apply Z.mod_small, H. Qed.
Lemma printk_args_spec x :
  (- 2 ^ 63 <= x < 2 ^ 63 -> i64 (printk_arg true x) = x /\ 0 <= printk_arg true x < 2 ^ 64) /\
  (0 <= x < 2 ^ 64 -> printk_arg false x = x).
Proof. split; [apply printk_arg_signed|apply printk_arg_unsigned]. Qed.

Lemma printk_spec fmt args : Z.of_nat (length fmt) < 2 ^ 32 -> (length args <= 12)%nat ->
  printed (printk fmt args) = Some (fmt, args).
Proof.
  intros F L. unfold printk. cbv zeta. rewrite u32_id by lia.
  destruct args as [|a [|b [|c [|d args]]]]; cbn [printed]; rewrite ?Z.eqb_refl; try reflexivity.
  set (l := a :: b :: c :: d :: args) in *. rewrite u32_id by lia.
  assert (M : (Z.of_nat (length l) * 8) mod 8 = 0) by (apply Z.mod_mul; lia).
  assert (D : Z.of_nat (length l) * 8 / 8 = Z.of_nat (length l)) by (apply Z.div_mul; lia).
  rewrite M, D. replace (Z.of_nat (length l) * 8 <=? 96) with true by lia.
  rewrite Z.leb_refl, Nat2Z.id, firstn_all. reflexivity.
Qed.
(** More arguments than the kernel takes are refused by it. *)
Lemma printk_many fmt args : (12 < length args)%nat -> Z.of_nat (length args) < 2 ^ 29 -> printed (printk fmt args) = None.
Proof.
  intros L B. unfold printk. cbv zeta.
  destruct args as [|a [|b [|c [|d args]]]]; try (cbn in L; lia). cbn [printed].
  set (l := a :: b :: c :: d :: args) in *. rewrite (u32_id (Z.of_nat (length l) * 8)) by lia.
  replace (Z.of_nat (length l) * 8 <=? 96) with false by lia. rewrite andb_false_r. reflexivity.
Qed.

Lemma kernel_strncmp_spec n : forall s1 s2, bytes_ok s1 = true -> bytes_ok s2 = true ->
  (kernel_strncmp_n n s1 s2 ?= 0) = dictionary (firstn n (upto_nul s1)) (firstn n (upto_nul s2)).
Proof.
  induction n as [|n IH]; intros s1 s2 B1 B2; [reflexivity|]. cbn [kernel_strncmp_n].
  destruct s1 as [|x s1]; destruct s2 as [|y s2]; cbn [hd tl upto_nul firstn].
  - reflexivity.
  - rewrite bytes_ok_cons in B2. apply andb_true_iff in B2 as [Y _]. apply byte_ok_iff in Y.
    rewrite (Z.eqb_sym 0 y). destruct (Z.eqb_spec y 0) as [->|NY]; [reflexivity|]. cbn [negb].
    replace (0 <? y) with true by lia. reflexivity.
  - rewrite bytes_ok_cons in B1. apply andb_true_iff in B1 as [X _]. apply byte_ok_iff in X.
    destruct (Z.eqb_spec x 0) as [->|NX]; [reflexivity|]. cbn [negb].
    replace (x <? 0) with false by lia. reflexivity.
  - rewrite bytes_ok_cons in B1, B2. apply andb_true_iff in B1 as [X B1], B2 as [Y B2]. apply byte_ok_iff in X, Y.
    destruct (Z.eqb_spec x y) as [->|NE]; cbn [negb].
    + destruct (Z.eqb_spec y 0) as [->|NY]; [reflexivity|]. cbn [firstn dictionary]. rewrite Z.compare_refl. apply IH; assumption.
    + destruct (Z.eqb_spec x 0) as [->|NX]; destruct (Z.eqb_spec y 0) as [->|NY]; try lia; cbn [firstn dictionary].
      * replace (0 <? y) with true by lia. reflexivity.
      * replace (x <? 0) with false by lia. reflexivity.
      * destruct (Z.ltb_spec x y); [rewrite (proj2 (Z.compare_lt_iff x y)) by lia|rewrite (proj2 (Z.compare_gt_iff x y)) by lia]; reflexivity.
Qed.
Lemma upto_nul_length l : (length (upto_nul l) <= length l)%nat.
Proof. induction l as [|b l IH]; cbn [upto_nul length]; [lia|]. destruct (b =? 0); cbn [length]; lia. Qed.
Lemma strncmp_spec s1 s2 : bytes_ok s1 = true -> bytes_ok s2 = true -> Z.of_nat (length s1) < 2 ^ 32 ->
  strncmp kernel_strncmp s1 s2 = dictionary (upto_nul s1) (firstn (length s1) (upto_nul s2)).
Proof.
  intros B1 B2 L. unfold strncmp, kernel_strncmp. rewrite u32_id by lia. rewrite Nat2Z.id.
  rewrite kernel_strncmp_spec by assumption. rewrite (firstn_all2 (upto_nul s1)) by apply upto_nul_length. reflexivity.
Qed.

(** Packets. *)
Lemma load_spec pkt offset size : packet_ok pkt -> 0 <= offset < 2 ^ 32 -> 0 <= size < 2 ^ 32 ->
  load (kernel_skb pkt) offset size =
  if offset + size <=? Z.of_nat (length pkt) then Ok (slice (Z.to_nat offset) (Z.to_nat size) pkt) else Err (Helper (-14)).
Proof.
  intros P O S. unfold packet_ok, INT_MAX in P. unfold load, kernel_skb. cbn [load_bytes_raw]. rewrite !u32_id by assumption.
  unfold kernel_load_bytes, INT_MAX. destruct (Z.ltb_spec (2 ^ 31 - 1) offset) as [L|L].
  - replace (offset + size <=? Z.of_nat (length pkt)) with false by lia. reflexivity.
  - destruct (Z.leb_spec (offset + size) (Z.of_nat (length pkt))) as [I|I]; [|reflexivity].
    cbn [Z.eqb]. unfold value_of. rewrite slice_length by lia. replace (Z.of_nat (Z.to_nat size) =? size) with true by lia. reflexivity.
Qed.
Lemma load_wraps : exists pkt offset size r, packet_ok pkt /\ 0 <= offset < 2 ^ 64 /\ Z.of_nat (length pkt) < offset /\ load (kernel_skb pkt) offset size = Ok r.
Proof.
  exists [1; 2; 3; 4], (2 ^ 32), 2, [1; 2]. split; [unfold packet_ok, INT_MAX; cbn; lia|]. split; [lia|]. split; [cbn; lia|]. vm_compute. reflexivity.
Qed.

Lemma load_bytes_spec pkt offset dst : packet_ok pkt -> 0 <= offset < 2 ^ 64 ->
  load_bytes (kernel_skb pkt) offset dst =
  if offset <=? Z.of_nat (length pkt) then
    let n := Nat.min (length dst) (length pkt - Z.to_nat offset) in
    (Ok (Z.of_nat n), slice (Z.to_nat offset) n pkt ++ skipn n dst)
  else (Err (Helper (-1)), dst).
Proof.
  intros P O. unfold packet_ok, INT_MAX in P. unfold load_bytes, kernel_skb. cbn [skb_len load_bytes_raw]. cbv zeta.
  destruct (Z.ltb_spec (Z.of_nat (length pkt)) offset) as [L|L].
  - replace (offset <=? Z.of_nat (length pkt)) with false by lia. reflexivity.
  - replace (offset <=? Z.of_nat (length pkt)) with true by lia.
    set (len := Z.min (Z.of_nat (length pkt) - offset) (Z.of_nat (length dst))).
    assert (LE : len = Z.of_nat (Nat.min (length dst) (length pkt - Z.to_nat offset))) by lia.
    replace (2 ^ 32 <=? len) with false by lia. rewrite u32_id by lia.
    unfold kernel_load_bytes, INT_MAX. replace (2 ^ 31 - 1 <? offset) with false by lia.
    replace (offset + len <=? Z.of_nat (length pkt)) with true by lia. cbn [Z.eqb].
    rewrite LE, Nat2Z.id. unfold written. rewrite slice_length by lia. reflexivity.
Qed.

Lemma store_spec pkt offset v flags : packet_ok pkt -> 0 <= offset < 2 ^ 32 -> flags_known flags = true ->
  store (kernel_skb pkt) offset v flags =
  if offset + Z.of_nat (length v) <=? Z.of_nat (length pkt) then (Ok tt, splice (Z.to_nat offset) v pkt) else (Err (Helper (-14)), pkt).
Proof.
  intros P O F. unfold packet_ok, INT_MAX in P. unfold store, kernel_skb. cbn [store_bytes_raw]. rewrite u32_id by assumption.
  unfold kernel_store_bytes, INT_MAX. rewrite F. cbn [negb]. destruct (Z.ltb_spec (2 ^ 31 - 1) offset) as [L|L].
  - replace (offset + Z.of_nat (length v) <=? Z.of_nat (length pkt)) with false by lia. reflexivity.
  - destruct (_ <=? _); reflexivity.
Qed.
Lemma store_bad_flags pkt offset v flags : flags_known flags = false -> store (kernel_skb pkt) offset v flags = (Err (Helper (-22)), pkt).
Proof. intros F. unfold store, kernel_skb. cbn [store_bytes_raw]. unfold kernel_store_bytes. rewrite F. reflexivity. Qed.
Lemma store_wraps : exists pkt offset v flags pkt', packet_ok pkt /\ 0 <= offset < 2 ^ 64 /\ Z.of_nat (length pkt) < offset /\
  store (kernel_skb pkt) offset v flags = (Ok tt, pkt') /\ pkt' <> pkt.
Proof.
  exists [1; 2; 3; 4], (2 ^ 32), [9; 9], 0, [9; 9; 3; 4]. split; [unfold packet_ok, INT_MAX; cbn; lia|]. split; [lia|]. split; [cbn; lia|].
  split; [vm_compute; reflexivity|discriminate].
Qed.
