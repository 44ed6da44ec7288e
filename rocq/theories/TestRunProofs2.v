(** What runs do. *)
From Coq Require Import String.
From Verif Require Import Base LayoutModel LayoutDecls ProgModel TestRunModel TestRunSpec TestRunProofs.
Import ListNotations.
Local Open Scope Z_scope.

(** * Memory *)

Lemma store_out m a l x : ~ (a <= x < a + Z.of_nat (length l)) -> store m a l x = m x.
Proof. intros H. unfold store. destruct (Z.leb_spec a x); destruct (Z.ltb_spec x (a + Z.of_nat (length l))); cbn; try reflexivity. lia. Qed.
Lemma store_at m a l i : (i < length l)%nat -> store m a l (a + Z.of_nat i) = nth i l 0.
Proof.
  intros H. unfold store. destruct (Z.leb_spec a (a + Z.of_nat i)); [|lia]. destruct (Z.ltb_spec (a + Z.of_nat i) (a + Z.of_nat (length l))); [|lia]. cbn [andb].
  f_equal. lia.
Qed.
Lemma load_nth m a l : (forall i, (i < length l)%nat -> m (a + Z.of_nat i) = nth i l 0) -> load m a (length l) = l.
Proof.
  unfold load. intros H. apply nth_ext with (d := 0) (d' := 0); rewrite map_length, seq_length; [reflexivity|]. intros i I.
  rewrite nth_indep with (d' := m (a + Z.of_nat 0)) by now rewrite map_length, seq_length. rewrite map_nth with (d := 0%nat). rewrite seq_nth by exact I. cbn [Nat.add]. now apply H.
Qed.
Lemma load_stored m a l : load (store m a l) a (length l) = l.
Proof. apply load_nth. intros i I. now apply store_at. Qed.
Lemma load_length m a n : length (load m a n) = n.
Proof. unfold load. now rewrite map_length, seq_length. Qed.

(** * The end of a run *)

Lemma u4 x : is_u32 x -> x mod 256 ^ Z.of_nat 4 = x.
Proof. exact (u32_mod x). Qed.

Lemma data_finished r attr m e a m' : length attr = AL -> ran_ok r -> finish_data r attr m = (e, a, m') ->
  length a = AL /\ u_at 4 4 a = rn_ret r /\ u_at 36 4 a = rn_time r /\ u_at 12 4 a = Z.of_nat (length (rn_packet r)) /\ u_at 44 4 a = u_at 44 4 attr /\ u_at 56 8 a = u_at 56 8 attr.
Proof.
  intros L (R1 & R2 & R3 & R4) F. unfold finish_data in F. cbv zeta in F. apply pair_equal_spec in F as [F _]. apply pair_equal_spec in F as [_ <-].
  pose proof (splice_len 12 4 (Z.of_nat (length (rn_packet r))) _ L ltac:(lia)) as L1.
  pose proof (splice_len 4 4 (rn_ret r) _ L1 ltac:(lia)) as L2.
  split; [apply splice_len; [exact L2|lia]|]. split; [|split; [|split; [|split]]].
  - rewrite (splice_other 36) by (try exact L2; lia). rewrite splice_same by (try exact L1; lia). now apply u4.
  - rewrite splice_same by (try exact L2; lia). now apply u4.
  - rewrite (splice_other 36) by (try exact L2; lia). rewrite (splice_other 4) by (try exact L1; lia). rewrite splice_same by (try exact L; lia). now apply u4.
  - rewrite (splice_other 36) by (try exact L2; lia). rewrite (splice_other 4) by (try exact L1; lia). now rewrite splice_other by (try exact L; lia).
  - rewrite (splice_other 36) by (try exact L2; lia). rewrite (splice_other 4) by (try exact L1; lia). now rewrite splice_other by (try exact L; lia).
Qed.
Lemma ctx_kept r attr m e a m' : length attr = AL -> ran_ok r -> finish_ctx r attr m = (e, a, m') ->
  u_at 4 4 a = u_at 4 4 attr /\ u_at 36 4 a = u_at 36 4 attr /\ u_at 12 4 a = u_at 12 4 attr /\
  u_at 44 4 a = if u_at 56 8 attr =? 0 then u_at 44 4 attr else Z.of_nat (length (rn_ctx r)).
Proof.
  intros L (R1 & R2 & R3 & R4) F. unfold finish_ctx in F. cbv zeta in F. destruct (u_at 56 8 attr =? 0).
  - apply pair_equal_spec in F as [F _]. apply pair_equal_spec in F as [_ <-]. tauto.
  - apply pair_equal_spec in F as [F _]. apply pair_equal_spec in F as [_ <-].
    split; [now rewrite splice_other by (try exact L; lia)|]. split; [now rewrite splice_other by (try exact L; lia)|]. split; [now rewrite splice_other by (try exact L; lia)|].
    rewrite splice_same by (try exact L; lia). now apply u4.
Qed.

(** * What the kernel makes of the request *)

Lemma seen_parts a s : seen_in a = s ->
  u_at 0 4 a = s_fd s /\ u_at 4 4 a = s_retval s /\ u_at 8 4 a = s_data_size_in s /\ u_at 12 4 a = s_data_size_out s /\ u_at 16 8 a = s_data_in s /\ u_at 24 8 a = s_data_out s /\
  u_at 32 4 a = s_repeat s /\ u_at 36 4 a = s_duration s /\ u_at 40 4 a = s_ctx_size_in s /\ u_at 44 4 a = s_ctx_size_out s /\ u_at 48 8 a = s_ctx_in s /\ u_at 56 8 a = s_ctx_out s /\
  u_at 64 4 a = s_flags s /\ u_at 68 4 a = s_cpu s /\ u_at 72 4 a = s_batch s.
Proof. intros <-. cbn [seen_in s_fd s_retval s_data_size_in s_data_size_out s_data_in s_data_out s_repeat s_duration s_ctx_size_in s_ctx_size_out s_ctx_in s_ctx_out s_flags s_cpu s_batch]. repeat split. Qed.

Lemma lopsided_is b : given is_slice b -> lopsided (len b) (ptr b) = match b with Some b => b_len b mod 2 ^ 32 =? 0 | None => false end.
Proof.
  unfold lopsided. destruct b as [b|]; cbn [given len ptr]; [|reflexivity]. intros (P & _). destruct (Z.eqb_spec (b_ptr b) 0); [lia|]. now destruct (b_len b mod 2 ^ 32 =? 0).
Qed.
Definition refused (o : options) : bool :=
  match o_ctx_in o with Some b => b_len b mod 2 ^ 32 =? 0 | None => false end || match o_ctx_out o with Some b => b_len b mod 2 ^ 32 =? 0 | None => false end.
(** The packet and context as read. *)
Definition read (m : mem) (b : option buf) : list Z := load m (ptr b) (Z.to_nat (len b)).
Definition read_ctx (m : mem) (b : option buf) : option (list Z) := match b with Some _ => Some (read m b) | None => None end.
Definition runs_as (p : behaviour) (o : options) (m : mem) : res Z ran :=
  p (read m (o_data_in o)) (read_ctx m (o_ctx_in o)) (o_repeat o) (ra_flags (o_attrs o)) 0 (ra_batch (o_attrs o)).

Lemma kernel_run_request p fd o m : numbers fd o -> slices o ->
  kernel_run p (request fd o) m =
  if refused o then (Some EINVAL, request fd o, m)
  else match runs_as p o m with
       | Err e => (Some e, request fd o, m)
       | Ok r => match finish_data r (request fd o) m with (None, attr, m) => finish_ctx r attr m | x => x end
       end.
Proof.
  intros N S. destruct (request_seen fd o N S) as (_ & _ & E). apply seen_parts in E.
  cbn [s_fd s_retval s_data_size_in s_data_size_out s_data_in s_data_out s_repeat s_duration s_ctx_size_in s_ctx_size_out s_ctx_in s_ctx_out s_flags s_cpu s_batch] in E.
  destruct E as (_ & _ & E8 & E12 & E16 & E24 & E32 & E36 & E40 & E44 & E48 & E56 & E64 & E68 & E72). unfold kernel_run. cbv zeta.
  rewrite E40, E44, E48, E56, E16, E8, E32, E64, E68, E72. destruct S as (S1 & S2 & S3 & S4). rewrite !lopsided_is by assumption.
  fold (refused o).
  destruct (refused o); [reflexivity|]. unfold runs_as.
  assert ((if ptr (o_ctx_in o) =? 0 then None else Some (load m (ptr (o_ctx_in o)) (Z.to_nat (len (o_ctx_in o))))) = read_ctx m (o_ctx_in o)) as ->; [|reflexivity].
  unfold read_ctx, read. destruct (o_ctx_in o) as [b|]; cbn [given ptr] in *; [|reflexivity]. destruct (Z.eqb_spec (b_ptr b) 0); [destruct S3; lia|reflexivity].
Qed.

Lemma read_short m b : given is_slice b -> given short b -> read m b = input m b.
Proof.
  unfold read, input. destruct b as [b|]; cbn [given ptr len]; [|reflexivity]. intros (_ & L & _) H. unfold short in H. now rewrite Z.mod_small by lia.
Qed.
Lemma runs_short p o m : slices o -> all_short o -> runs_as p o m = runs p o m.
Proof.
  intros (S1 & _ & S3 & _) (H1 & _ & H3 & _). unfold runs_as, runs. rewrite (read_short m (o_data_in o)) by assumption. f_equal.
  unfold read_ctx, input_ctx. destruct (o_ctx_in o) as [b|]; [|reflexivity]. now rewrite (read_short m (Some b)).
Qed.

(** What [finish_data] stores. *)
Lemma data_stored r fd o m e a m' : numbers fd o -> slices o -> finish_data r (request fd o) m = (e, a, m') ->
  let full := Z.of_nat (length (rn_packet r)) in
  let clamp := negb (len (o_data_out o) =? 0) && (len (o_data_out o) <? full) in
  e = (if clamp then Some ENOSPC else None) /\
  m' = match o_data_out o with None => m | Some b => store m (b_ptr b) (firstn (Z.to_nat (if clamp then len (o_data_out o) else full)) (rn_packet r)) end.
Proof.
  intros N S F. destruct (request_seen fd o N S) as (_ & _ & E). apply seen_parts in E.
  cbn [s_fd s_retval s_data_size_in s_data_size_out s_data_in s_data_out s_repeat s_duration s_ctx_size_in s_ctx_size_out s_ctx_in s_ctx_out s_flags s_cpu s_batch] in E.
  destruct E as (_ & _ & _ & E12 & _ & E24 & _). unfold finish_data in F. cbv zeta in F. rewrite E12, E24 in F. apply pair_equal_spec in F as [F <-]. apply pair_equal_spec in F as [<- _].
  cbv zeta. split; [reflexivity|]. destruct S as (_ & S2 & _). destruct (o_data_out o) as [b|]; cbn [ptr given] in *; [|reflexivity]. destruct (Z.eqb_spec (b_ptr b) 0); [destruct S2; lia|reflexivity].
Qed.
Lemma ctx_stored r fd o attr m e a m' : numbers fd o -> slices o -> u_at 44 4 attr = u_at 44 4 (request fd o) -> u_at 56 8 attr = u_at 56 8 (request fd o) -> finish_ctx r attr m = (e, a, m') ->
  match o_ctx_out o with
  | None => e = None /\ m' = m
  | Some b =>
      let full := Z.of_nat (length (rn_ctx r)) in
      let clamp := len (o_ctx_out o) <? full in
      e = (if clamp then Some ENOSPC else None) /\ m' = store m (b_ptr b) (firstn (Z.to_nat (if clamp then len (o_ctx_out o) else full)) (rn_ctx r))
  end.
Proof.
  intros N S A44 A56 F. destruct (request_seen fd o N S) as (_ & _ & E). apply seen_parts in E.
  cbn [s_fd s_retval s_data_size_in s_data_size_out s_data_in s_data_out s_repeat s_duration s_ctx_size_in s_ctx_size_out s_ctx_in s_ctx_out s_flags s_cpu s_batch] in E.
  destruct E as (_ & _ & _ & _ & _ & _ & _ & _ & _ & E44 & _ & E56 & _). unfold finish_ctx in F. cbv zeta in F. rewrite A44, A56, E44, E56 in F. destruct S as (_ & _ & _ & S4).
  destruct (o_ctx_out o) as [b|]; cbn [ptr given] in *.
  - destruct (Z.eqb_spec (b_ptr b) 0); [destruct S4; lia|]. apply pair_equal_spec in F as [F <-]. apply pair_equal_spec in F as [<- _]. cbv zeta. split; reflexivity.
  - apply pair_equal_spec in F as [F <-]. apply pair_equal_spec in F as [<- _]. split; reflexivity.
Qed.

(** ** Only the buffers change *)
Theorem run_memory p fd o m r m' : run_lengths p -> numbers fd o -> slices o -> given nonempty (o_data_out o) -> test_run (kernel_run p) (Some fd) o m = (r, m') ->
  forall x, m' x <> m x -> in_some (o_data_out o) x \/ in_some (o_ctx_out o) x.
Proof.
  intros RL N S NE. unfold test_run. rewrite kernel_run_request by assumption.
  assert (forall (t : option Z * list Z * mem), (let '(_, _, m2) := t in forall x, m2 x <> m x -> in_some (o_data_out o) x \/ in_some (o_ctx_out o) x) ->
    match t with (Some e, _, m) => (Err (ESys e), m) | (None, a, m) => (Ok {| t_ret := fetch "retval" a; t_time := fetch "duration" a; t_data_size := fetch "data_size_out" a; t_ctx_size := fetch "ctx_size_out" a |}, m) end = (r, m') ->
    forall x, m' x <> m x -> in_some (o_data_out o) x \/ in_some (o_ctx_out o) x) as W.
  { intros [[e a] m2] H. destruct e; intros Q; apply pair_equal_spec in Q as [_ <-]; exact H. }
  apply W. clear W r m'. destruct (refused o) eqn:RF; [intros x H; contradiction|].
  destruct (runs_as p o m) as [r|e] eqn:RN; [|intros x H; contradiction]. pose proof (RL _ _ _ _ _ _ _ RN) as RO.
  destruct (finish_data r (request fd o) m) as [[e a] m1] eqn:FD. pose proof (data_stored r fd o m e a m1 N S FD) as [E1 M1]. cbv zeta in E1, M1.
  assert (forall x, m1 x <> m x -> in_some (o_data_out o) x) as D1.
  { intros x H. destruct (o_data_out o) as [b|] eqn:OD; [|now rewrite M1 in H]. cbn [in_some given len] in *. destruct RO as (_ & _ & RP & _). unfold is_u32 in RP. unfold nonempty in NE.
    destruct S as (_ & S2 & _). rewrite OD in S2. cbn [given] in S2. destruct S2 as (P1 & P2 & P3). unfold within.
    assert (b_ptr b <= x < b_ptr b + Z.of_nat (length (firstn (Z.to_nat (if negb (b_len b mod 2 ^ 32 =? 0) && (b_len b mod 2 ^ 32 <? Z.of_nat (length (rn_packet r))) then b_len b mod 2 ^ 32 else Z.of_nat (length (rn_packet r)))) (rn_packet r)))) as G.
    { destruct (Z_le_gt_dec (b_ptr b) x) as [G1|G1]; [destruct (Z_lt_ge_dec x (b_ptr b + Z.of_nat (length (firstn (Z.to_nat (if negb (b_len b mod 2 ^ 32 =? 0) && (b_len b mod 2 ^ 32 <? Z.of_nat (length (rn_packet r))) then b_len b mod 2 ^ 32 else Z.of_nat (length (rn_packet r)))) (rn_packet r))))) as [G2|G2]; [lia|]|];
        exfalso; apply H; rewrite M1; apply store_out; lia. }
    rewrite firstn_length in G. pose proof (Z.mod_pos_bound (b_len b) (2 ^ 32) ltac:(lia)) as MB. pose proof (Z.mod_le (b_len b) (2 ^ 32) ltac:(lia) ltac:(lia)) as ML.
    destruct (Z.eqb_spec (b_len b mod 2 ^ 32) 0) as [Z0|Z0]; cbn [negb andb] in G.
    - assert (2 ^ 32 <= b_len b) as BIG. { destruct (Z_lt_ge_dec (b_len b) (2 ^ 32)) as [LT|GE]; [rewrite Z.mod_small in Z0 by lia; lia|lia]. } lia.
    - destruct (Z.ltb_spec (b_len b mod 2 ^ 32) (Z.of_nat (length (rn_packet r)))); lia. }
  destruct e as [e|]; [intros x H; left; now apply D1|].
  pose proof (data_finished r (request fd o) m None a m1 (proj1 (request_seen fd o N S)) RO FD) as (L1 & _ & _ & _ & K44 & K56).
  destruct (finish_ctx r a m1) as [[e2 a2] m2] eqn:FC. pose proof (ctx_stored r fd o a m1 e2 a2 m2 N S K44 K56 FC) as C.
  destruct (o_ctx_out o) as [b|] eqn:OC; [|destruct C as [_ ->]; intros x H; left; now apply D1]. cbv zeta in C. destruct C as [_ M2]. intros x H. cbn [in_some len].
  destruct S as (_ & _ & _ & S4). rewrite OC in S4. cbn [given] in S4. destruct S4 as (P1 & P2 & P3). pose proof (Z.mod_pos_bound (b_len b) (2 ^ 32) ltac:(lia)) as MB. pose proof (Z.mod_le (b_len b) (2 ^ 32) ltac:(lia) ltac:(lia)) as ML.
  destruct (Z_le_gt_dec (b_ptr b) x) as [G1|G1]; [destruct (Z_lt_ge_dec x (b_ptr b + b_len b)) as [G2|G2]; [right; unfold within; lia|]|];
    left; apply D1; intros X; apply H; rewrite M2, <- X; apply store_out; rewrite firstn_length; cbn [len]; destruct (Z.ltb_spec (b_len b mod 2 ^ 32) (Z.of_nat (length (rn_ctx r)))); lia.
Qed.

(** ** Runs that are not done *)
Theorem run_unloaded k o m : test_run k None o m = (Err ENotLoaded, m).
Proof. reflexivity. Qed.
Theorem run_refused p fd o m b : numbers fd o -> slices o -> o_ctx_in o = Some b \/ o_ctx_out o = Some b -> b_len b = 0 ->
  test_run (kernel_run p) (Some fd) o m = (Err (ESys EINVAL), m).
Proof.
  intros N S H Z. unfold test_run. rewrite kernel_run_request by assumption. assert (refused o = true) as ->; [|reflexivity]. unfold refused. destruct H as [-> | ->]; rewrite Z; [reflexivity|apply orb_true_r].
Qed.
Lemma not_refused o : slices o -> all_short o -> given nonempty (o_ctx_in o) -> given nonempty (o_ctx_out o) -> refused o = false.
Proof.
  intros (_ & _ & S3 & S4) (_ & _ & H3 & H4) N3 N4. unfold refused.
  assert (forall b, given is_slice b -> given short b -> given nonempty b -> match b with Some b => b_len b mod 2 ^ 32 =? 0 | None => false end = false) as X.
  { intros [b|]; cbn [given]; [|reflexivity]. unfold short, nonempty. intros (_ & L & _) ? ?. rewrite Z.mod_small by lia. destruct (Z.eqb_spec (b_len b) 0); [lia|reflexivity]. }
  now rewrite !X.
Qed.
Theorem run_fails p fd o m e : numbers fd o -> slices o -> all_short o -> given nonempty (o_ctx_in o) -> given nonempty (o_ctx_out o) -> runs p o m = Err e ->
  test_run (kernel_run p) (Some fd) o m = (Err (ESys e), m).
Proof.
  intros N S H N3 N4 R. unfold test_run. rewrite kernel_run_request, not_refused, runs_short, R by assumption. reflexivity.
Qed.

(** ** Runs that are done *)
Lemma len_short b : is_slice b -> short b -> len (Some b) = b_len b.
Proof. intros (_ & L & _) H. unfold short in H. cbn [len]. now rewrite Z.mod_small by lia. Qed.
Lemma firstn_len {A} (l : list A) : firstn (Z.to_nat (Z.of_nat (length l))) l = l.
Proof. rewrite Nat2Z.id. apply firstn_all. Qed.

Lemma fetched a : fetch "retval" a = u_at 4 4 a /\ fetch "duration" a = u_at 36 4 a /\ fetch "data_size_out" a = u_at 12 4 a /\ fetch "ctx_size_out" a = u_at 44 4 a.
Proof. repeat split; apply fetch_is; field_in. Qed.

Definition done (r : ran) (o : options) : result :=
  {| t_ret := rn_ret r; t_time := rn_time r; t_data_size := Z.of_nat (length (rn_packet r)); t_ctx_size := match o_ctx_out o with Some _ => Z.of_nat (length (rn_ctx r)) | None => 0 end |}.

Lemma run_ok p fd o m r : numbers fd o -> slices o -> refused o = false -> runs_as p o m = Ok r -> ran_ok r ->
  (negb (len (o_data_out o) =? 0) && (len (o_data_out o) <? Z.of_nat (length (rn_packet r)))) = false ->
  match o_ctx_out o with Some _ => Z.of_nat (length (rn_ctx r)) <= len (o_ctx_out o) | None => True end ->
  test_run (kernel_run p) (Some fd) o m =
    (Ok (done r o),
     let m := match o_data_out o with None => m | Some b => store m (b_ptr b) (rn_packet r) end in
     match o_ctx_out o with None => m | Some b => store m (b_ptr b) (rn_ctx r) end).
Proof.
  intros N S RF RN RO CL CC. unfold test_run. rewrite kernel_run_request, RF, RN by assumption.
  destruct (finish_data r (request fd o) m) as [[e a] m1] eqn:FD. pose proof (data_stored r fd o m e a m1 N S FD) as [E1 M1]. cbv zeta in E1, M1. rewrite CL in E1, M1. subst e. rewrite firstn_len in M1.
  pose proof (data_finished r (request fd o) m None a m1 (proj1 (request_seen fd o N S)) RO FD) as (L1 & U4 & U36 & U12 & K44 & K56).
  destruct (finish_ctx r a m1) as [[e2 a2] m2] eqn:FC. pose proof (ctx_stored r fd o a m1 e2 a2 m2 N S K44 K56 FC) as C. pose proof (ctx_kept r a m1 e2 a2 m2 L1 RO FC) as (V4 & V36 & V12 & V44).
  destruct (request_seen fd o N S) as (_ & _ & E). apply seen_parts in E.
  cbn [s_fd s_retval s_data_size_in s_data_size_out s_data_in s_data_out s_repeat s_duration s_ctx_size_in s_ctx_size_out s_ctx_in s_ctx_out s_flags s_cpu s_batch] in E.
  destruct E as (_ & _ & _ & _ & _ & _ & _ & _ & _ & E44 & _ & E56 & _).
  destruct (fetched a2) as (F1 & F2 & F3 & F4). destruct S as (_ & _ & _ & S4). destruct (o_ctx_out o) as [b|] eqn:OC; cbn [given] in S4.
  - cbv zeta in C. assert ((len (Some b) <? Z.of_nat (length (rn_ctx r))) = false) as X by (apply Z.ltb_ge; exact CC). rewrite X in C. destruct C as [-> ->]. rewrite firstn_len.
    rewrite F1, F2, F3, F4, V4, V36, V12, V44, K56, E56, U4, U36, U12. cbn [ptr]. destruct (Z.eqb_spec (b_ptr b) 0); [destruct S4; lia|]. unfold done. rewrite OC, M1. reflexivity.
  - destruct C as [-> ->]. rewrite F1, F2, F3, F4, V4, V36, V12, V44, K56, E56, U4, U36, U12, K44, E44. cbn [ptr len]. unfold done. rewrite OC, M1. reflexivity.
Qed.

Theorem run_done p fd o m r : numbers fd o -> slices o -> all_short o -> given nonempty (o_data_out o) -> given nonempty (o_ctx_in o) -> given nonempty (o_ctx_out o) ->
  disjoint (o_data_out o) (o_ctx_out o) -> runs p o m = Ok r -> ran_ok r -> given (room_for (rn_packet r)) (o_data_out o) -> given (room_for (rn_ctx r)) (o_ctx_out o) ->
  exists m', test_run (kernel_run p) (Some fd) o m =
      (Ok {| t_ret := rn_ret r; t_time := rn_time r; t_data_size := Z.of_nat (length (rn_packet r)); t_ctx_size := match o_ctx_out o with Some _ => Z.of_nat (length (rn_ctx r)) | None => 0 end |}, m') /\
    given (holds (rn_packet r) m m') (o_data_out o) /\ given (holds (rn_ctx r) m m') (o_ctx_out o).
Proof.
  intros N S H N2 N3 N4 D R RO P C. pose proof S as (S1 & S2 & S3 & S4). pose proof H as (H1 & H2 & H3 & H4). eexists. split; [apply run_ok; try eassumption|].
  - now apply not_refused.
  - now rewrite runs_short.
  - destruct (o_data_out o) as [b|]; cbn [given] in *; [|reflexivity]. rewrite len_short by assumption. unfold room_for in P. destruct (Z.ltb_spec (b_len b) (Z.of_nat (length (rn_packet r)))); [lia|apply andb_false_r].
  - destruct (o_ctx_out o) as [b|]; cbn [given] in *; [|exact I]. rewrite len_short by assumption. exact C.
  - cbv zeta. destruct (o_data_out o) as [b|]; destruct (o_ctx_out o) as [c|]; cbn [given] in *; unfold holds, room_for in *; (split; [try exact I|try exact I]).
    + split.
      * apply load_nth. intros i I. rewrite store_out; [now apply store_at|]. intros X. apply (D (b_ptr b + Z.of_nat i)); cbn [in_some]; unfold within; lia.
      * intros x X. rewrite store_out by (intros Y; apply (D x); cbn [in_some]; unfold within; lia). apply store_out. lia.
    + split; [apply load_stored|]. intros x X. rewrite store_out by lia. apply store_out. intros Y. apply (D x); cbn [in_some]; unfold within; lia.
    + split; [apply load_stored|]. intros x X. apply store_out. lia.
    + split; [apply load_stored|]. intros x X. apply store_out. lia.
Qed.

Theorem run_no_room p fd o m r b : numbers fd o -> slices o -> all_short o -> given nonempty (o_ctx_in o) -> given nonempty (o_ctx_out o) ->
  runs p o m = Ok r -> ran_ok r -> o_data_out o = Some b -> 0 < b_len b < Z.of_nat (length (rn_packet r)) ->
  exists m', test_run (kernel_run p) (Some fd) o m = (Err (ESys ENOSPC), m') /\ load m' (b_ptr b) (Z.to_nat (b_len b)) = firstn (Z.to_nat (b_len b)) (rn_packet r).
Proof.
  intros N S H N3 N4 R RO OB BL. pose proof S as (S1 & S2 & S3 & S4). pose proof H as (H1 & H2 & H3 & H4). unfold test_run. rewrite kernel_run_request, not_refused, runs_short, R by assumption.
  destruct (finish_data r (request fd o) m) as [[e a] m1] eqn:FD. pose proof (data_stored r fd o m e a m1 N S FD) as [E1 M1]. cbv zeta in E1, M1. rewrite OB in *. cbn [given] in *.
  rewrite len_short in E1, M1 by assumption. destruct (Z.eqb_spec (b_len b) 0); [lia|]. destruct (Z.ltb_spec (b_len b) (Z.of_nat (length (rn_packet r)))); [|lia]. cbn [negb andb] in E1, M1.
  subst e. eexists. split; [reflexivity|]. subst m1. pose proof (load_stored m (b_ptr b) (firstn (Z.to_nat (b_len b)) (rn_packet r))) as X. rewrite firstn_length, Nat.min_l in X by lia. exact X.
Qed.
Theorem run_no_room_ctx p fd o m r b : numbers fd o -> slices o -> all_short o -> given nonempty (o_data_out o) -> given nonempty (o_ctx_in o) ->
  runs p o m = Ok r -> ran_ok r -> given (room_for (rn_packet r)) (o_data_out o) -> o_ctx_out o = Some b -> 0 < b_len b < Z.of_nat (length (rn_ctx r)) ->
  exists m', test_run (kernel_run p) (Some fd) o m = (Err (ESys ENOSPC), m').
Proof.
  intros N S H N2 N3 R RO P OB BL. pose proof S as (S1 & S2 & S3 & S4). pose proof H as (H1 & H2 & H3 & H4). unfold test_run.
  rewrite kernel_run_request, not_refused, runs_short, R by (try assumption; rewrite OB; unfold nonempty; cbn; lia).
  destruct (finish_data r (request fd o) m) as [[e a] m1] eqn:FD. pose proof (data_stored r fd o m e a m1 N S FD) as [E1 _]. cbv zeta in E1.
  pose proof (data_finished r (request fd o) m e a m1 (proj1 (request_seen fd o N S)) RO FD) as (L1 & U4 & U36 & U12 & K44 & K56).
  assert (e = None) as ->.
  { subst e. destruct (o_data_out o) as [c|]; cbn [given] in *; [|reflexivity]. rewrite len_short by assumption. unfold room_for in P. destruct (Z.ltb_spec (b_len c) (Z.of_nat (length (rn_packet r)))); [lia|]. now rewrite andb_false_r. }
  destruct (finish_ctx r a m1) as [[e2 a2] m2] eqn:FC. pose proof (ctx_stored r fd o a m1 e2 a2 m2 N S K44 K56 FC) as C. rewrite OB in *. cbn [given] in *. cbv zeta in C. rewrite len_short in C by assumption.
  destruct (Z.ltb_spec (b_len b) (Z.of_nat (length (rn_ctx r)))); [|lia]. destruct C as [-> ->]. eexists. reflexivity.
Qed.

(** ** An empty buffer for the packet *)
Theorem run_empty p fd o m r b : numbers fd o -> slices o -> all_short o -> given nonempty (o_ctx_in o) -> o_ctx_out o = None ->
  runs p o m = Ok r -> ran_ok r -> o_data_out o = Some b -> b_len b = 0 ->
  exists t m', test_run (kernel_run p) (Some fd) o m = (Ok t, m') /\ load m' (b_ptr b) (length (rn_packet r)) = rn_packet r /\ forall x, ~ within b x.
Proof.
  intros N S H N3 OC R RO OB BL. do 2 eexists. split; [apply run_ok; try eassumption|].
  - apply not_refused; try assumption. now rewrite OC.
  - now rewrite runs_short.
  - rewrite OB. cbn [len]. rewrite BL. reflexivity.
  - now rewrite OC.
  - cbv zeta. rewrite OB, OC. split; [apply load_stored|]. intros x. unfold within. lia.
Qed.

(** * Raw tracepoints and tracing *)

Lemma words_bytes args : Forall (fun x => 0 <= x < 2 ^ 64) args ->
  length (concat (map (le_enc 8) args)) = (8 * length args)%nat /\ map (fun n => le_dec (slice (8 * n) 8 (concat (map (le_enc 8) args)))) (seq 0 (length args)) = args.
Proof.
  induction args as [|x args IH]; intros F; [split; reflexivity|]. apply Forall_cons_iff in F as [F1 F2]. destruct (IH F2) as [L M]. cbn [map concat length]. split; [rewrite app_length, le_enc_length, L; lia|].
  cbn [seq map]. f_equal.
  - unfold slice. rewrite Nat.mul_0_r. cbn [skipn]. rewrite firstn_app_exact by now rewrite le_enc_length. apply le_dec_enc_small. exact F1.
  - rewrite <- M at 2. rewrite <- seq_shift, map_map. apply map_ext. intros n. f_equal. unfold slice. replace (8 * S n)%nat with (8 + 8 * n)%nat by lia. rewrite <- skipn_skipn'.
    now rewrite skipn_app_exact by now rewrite le_enc_length.
Qed.

Lemma request_raw_seen fd ptr args cpu : is_u32 fd -> 0 < ptr < 2 ^ 64 -> length args = 12%nat -> match cpu with Some c => is_u32 c | None => True end ->
  length (request_raw_tp fd ptr args cpu) = AL /\ clean (request_raw_tp fd ptr args cpu) /\
  seen_in (request_raw_tp fd ptr args cpu) =
    {| s_fd := fd; s_retval := 0; s_data_size_in := 0; s_data_size_out := 0; s_data_in := 0; s_data_out := 0; s_repeat := 0; s_duration := 0;
       s_ctx_size_in := 96; s_ctx_size_out := 0; s_ctx_in := ptr; s_ctx_out := 0; s_flags := match cpu with Some _ => 1 | None => 0 end; s_cpu := match cpu with Some c => c | None => 0 end; s_batch := 0 |}.
Proof.
  intros F P L C. unfold request_raw_tp. cbv zeta. rewrite L. change (8 * Z.of_nat 12) with 96. puts.
  pose proof (splice_len 0 4 fd zeroed zeroed_length ltac:(lia)) as K1.
  pose proof (splice_len 48 8 ptr _ K1 ltac:(lia)) as K2.
  pose proof (splice_len 40 4 96 _ K2 ltac:(lia)) as K3.
  set (a1 := splice 0 (le_enc 4 fd) zeroed) in *. set (a2 := splice 48 _ a1) in *. set (a3 := splice 40 _ a2) in *.
  assert (forall o' s', (4 <= o')%nat -> (o' + s' <= 48 \/ 56 <= o')%nat -> (o' + s' <= 40 \/ 44 <= o')%nat -> u_at o' s' a3 = 0) as Z3.
  { intros o' s' H1 H2 H3. unfold a3. rewrite (splice_other 40) by (try exact K2; lia). unfold a2. rewrite (splice_other 48) by (try exact K1; lia). unfold a1. rewrite (splice_other 0) by (try exact zeroed_length; lia). apply u_at_zeroed. }
  assert (u_at 0 4 a3 = fd) as V0.
  { unfold a3. rewrite (splice_other 40) by (try exact K2; lia). unfold a2. rewrite (splice_other 48) by (try exact K1; lia). unfold a1. rewrite splice_same by (try exact zeroed_length; lia). now apply u4. }
  assert (u_at 48 8 a3 = ptr) as V48.
  { unfold a3. rewrite (splice_other 40) by (try exact K2; lia). unfold a2. rewrite splice_same by (try exact K1; lia). apply Z.mod_small. change (256 ^ Z.of_nat 8) with (2 ^ 64). lia. }
  assert (u_at 40 4 a3 = 96) as V40.
  { unfold a3. rewrite splice_same by (try exact K2; lia). reflexivity. }
  assert (skipn 76 a3 = skipn 76 zeroed) as C3.
  { unfold a3. rewrite (splice_clean 40) by (try exact K2; lia). unfold a2. rewrite (splice_clean 48) by (try exact K1; lia). unfold a1. apply splice_clean; [exact zeroed_length|lia]. }
  clearbody a3. clear a1 a2 K1 K2. destruct cpu as [c|].
  - pose proof (splice_len 68 4 c _ K3 ltac:(lia)) as K4. assert (u_at 64 4 (splice 68 (le_enc 4 c) a3) = 0) as V64. { rewrite (splice_other 68) by (try exact K3; lia). apply Z3; lia. }
    puts. rewrite (fetch_is "flags" 64 4) by field_in. rewrite V64. change (Z.lor 0 ON_CPU) with 1. pose proof (splice_len 64 4 1 _ K4 ltac:(lia)) as K5.
    assert (forall o' s', (o' + s' <= 64 \/ 72 <= o')%nat -> u_at o' s' (splice 64 (le_enc 4 1) (splice 68 (le_enc 4 c) a3)) = u_at o' s' a3) as X.
    { intros o' s' H. rewrite (splice_other 64) by (try exact K4; lia). now rewrite (splice_other 68) by (try exact K3; lia). }
    split; [exact K5|]. split; [apply (clean_same _ zeroed); [|exact clean_zeroed]; rewrite (splice_clean 64) by (try exact K4; lia); rewrite (splice_clean 68) by (try exact K3; lia); exact C3|].
    unfold seen_in. rewrite (X 0%nat 4%nat), (X 4%nat 4%nat), (X 8%nat 4%nat), (X 12%nat 4%nat), (X 16%nat 8%nat), (X 24%nat 8%nat), (X 32%nat 4%nat), (X 36%nat 4%nat), (X 40%nat 4%nat), (X 44%nat 4%nat), (X 48%nat 8%nat), (X 56%nat 8%nat), (X 72%nat 4%nat) by (clear; lia). rewrite V0, V48, V40. rewrite !Z3 by (clear; lia).
    rewrite (splice_same 64) by (try exact K4; lia). rewrite (splice_other 64 4 1 _ 68) by (try exact K4; lia). rewrite (splice_same 68) by (try exact K3; lia). rewrite (u4 c C). reflexivity.
  - split; [exact K3|]. split; [apply (clean_same _ zeroed); [exact C3|exact clean_zeroed]|]. unfold seen_in. rewrite V0, V48, V40. rewrite !Z3 by (clear; lia). reflexivity.
Qed.

Theorem raw_tp_done largest online p fd a args cpu m : is_u32 fd -> 0 < a -> a + 96 <= 2 ^ 64 -> length args = 12%nat -> Forall (fun x => 0 <= x < 2 ^ 64) args ->
  match cpu with Some c => is_u32 c | None => True end -> largest <= 96 -> (forall c u, is_u32 (p c u)) ->
  exists ctx, arguments ctx = args /\ length ctx = 96%nat /\
    test_run_raw_tp (kernel_raw_tp largest online p) (Some fd) a args cpu m =
      (match cpu with Some c => if online c then Ok (p ctx cpu) else Err (ESys ENXIO) | None => Ok (p ctx None) end, store m a ctx).
Proof.
  intros F A1 A2 L W C LG PO. destruct (words_bytes args W) as [BL BW]. set (ctx := concat (map (le_enc 8) args)) in *. exists ctx. rewrite L in BW, BL. split; [exact BW|]. split; [exact BL|].
  destruct (request_raw_seen fd a args cpu F ltac:(lia) L C) as (LR & _ & E). apply seen_parts in E.
  cbn [s_fd s_retval s_data_size_in s_data_size_out s_data_in s_data_out s_repeat s_duration s_ctx_size_in s_ctx_size_out s_ctx_in s_ctx_out s_flags s_cpu s_batch] in E.
  destruct E as (_ & _ & E8 & E12 & E16 & E24 & E32 & E36 & E40 & E44 & E48 & E56 & E64 & E68 & E72). unfold test_run_raw_tp. fold ctx. unfold kernel_raw_tp. cbv zeta.
  rewrite E16, E24, E32, E36, E40, E44, E48, E56, E64, E68, E72. unfold lopsided. destruct (Z.eqb_spec a 0); [lia|].
  change (96 =? 0) with false. change (0 =? 0) with true. change (Bool.eqb false false) with true. change (Bool.eqb true true) with true. cbn [negb orb andb].
  destruct (Z.ltb_spec 96 largest); [lia|]. change (96 <? 96) with false. cbn [orb].
  pose proof (load_stored m a ctx) as LS. rewrite BL in LS. change (Z.to_nat 96) with 96%nat. change (8 * 12)%nat with 96%nat in LS. rewrite LS.
  destruct cpu as [c|].
  - change (Z.testbit 1 0) with true. cbn [negb andb]. destruct (online c); cbn [negb]; [|reflexivity].
    rewrite (fetch_is "retval" 4 4) by field_in. rewrite splice_same by (try exact LR; lia). rewrite u4 by apply PO. reflexivity.
  - change (Z.testbit 0 0) with false. change (0 =? 0) with true. cbn [negb andb]. rewrite (fetch_is "retval" 4 4) by field_in. rewrite splice_same by (try exact LR; lia). rewrite u4 by apply PO. reflexivity.
Qed.
Theorem tracing_done err fd m : is_u32 fd -> u_at 0 4 (request_tracing fd) = fd /\ clean (request_tracing fd) /\
  test_run_tracing (kernel_tracing err) (Some fd) m = (match err with Some e => Err (ESys e) | None => Ok tt end, m).
Proof.
  intros F. unfold request_tracing. puts. split; [rewrite splice_same by (try exact zeroed_length; lia); now apply u4|].
  split; [apply (clean_same _ zeroed); [apply splice_clean; [exact zeroed_length|lia]|exact clean_zeroed]|].
  unfold test_run_tracing, request_tracing. puts. unfold kernel_tracing. rewrite !(splice_other 0) by (try exact zeroed_length; lia). rewrite !u_at_zeroed. change (0 =? 0) with true. cbn [negb andb]. now destruct err.
Qed.

(** * Attributes and kinds *)

Theorem attrs_made a : made a -> (ra_flags a = 0 /\ ra_batch a = 0) \/ (ra_flags a = 2 /\ is_u32 (ra_batch a)).
Proof.
  induction 1 as [|n a M IH U]; [left; split; reflexivity|]. right. cbn [xdp_live_frames ra_flags ra_batch]. split; [|exact U]. destruct IH as [[-> _]|[-> _]]; reflexivity.
Qed.
Theorem implemented k h : implements k = Some h -> kernel_has (fst (kind_type k)) h.
Proof. destruct k; cbn; intros E; try discriminate; apply some_inj in E; subst h; cbn; tauto. Qed.
Theorem implemented_all k : implements k <> None <-> offered (fst (kind_type k)) (snd (kind_type k)).
Proof.
  destruct k; cbn; unfold offered; cbn; split; intros H; try (now elim H); try (intros E; discriminate E); try tauto;
    try (destruct H as [H|[H E]]; [|try discriminate H; discriminate E]; repeat (destruct H as [H|H]; [discriminate H|]); destruct H).
Qed.
