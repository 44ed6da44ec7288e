(** Proofs about running programs with test data. *)
From Coq Require Import String.
From Verif Require Import Base LayoutModel LayoutDecls ProgModel TestRunModel TestRunSpec.
Import ListNotations.
Local Open Scope Z_scope.

(** * Requests *)

Lemma slice_same {A} o (n l : list A) : (o + length n <= length l)%nat -> slice o (length n) (splice o n l) = n.
Proof. intros H. unfold splice. apply slice_app_exact'; [rewrite firstn_length; lia|reflexivity]. Qed.
Lemma skipn_splice {A} o (n l : list A) k : (o + length n <= length l)%nat -> (o + length n <= k)%nat -> skipn k (splice o n l) = skipn k l.
Proof.
  intros H K. unfold splice. rewrite !skipn_app. rewrite skipn_all2 by (rewrite firstn_length; lia). rewrite skipn_all2 by (rewrite firstn_length; lia). cbn [app].
  rewrite skipn_skipn', firstn_length. f_equal. lia.
Qed.
Lemma slice_other {A} o (n l : list A) o' s : (o + length n <= length l)%nat -> (o' + s <= o \/ o + length n <= o')%nat -> slice o' s (splice o n l) = slice o' s l.
Proof.
  intros H [K|K]; unfold slice.
  - unfold splice. rewrite skipn_app, firstn_app, firstn_length, skipn_length, firstn_length.
    replace (s - (Nat.min o (length l) - o'))%nat with 0%nat by lia. cbn [firstn]. rewrite app_nil_r. rewrite skipn_firstn_comm. rewrite firstn_firstn. f_equal. lia.
  - now rewrite skipn_splice.
Qed.

Definition test_fields : list (string * (nat * nat)) :=
  [("prog_fd", (0, 4)); ("retval", (4, 4)); ("data_size_in", (8, 4)); ("data_size_out", (12, 4)); ("data_in", (16, 8)); ("data_out", (24, 8)); ("repeat", (32, 4));
   ("duration", (36, 4)); ("ctx_size_in", (40, 4)); ("ctx_size_out", (44, 4)); ("ctx_in", (48, 8)); ("ctx_out", (56, 8)); ("flags", (64, 4)); ("cpu", (68, 4));
   ("batch_size", (72, 4))]%string%nat.
Lemma test_fields_ok : Forall (fun '(f, (o, s)) => field ["test"%string; f] A = Some (Z.of_nat o, Z.of_nat s)) test_fields.
Proof. repeat (constructor; [vm_compute; reflexivity|]). constructor. Qed.
Definition AL : nat := Eval vm_compute in Z.to_nat (size A).
Lemma zeroed_length : length zeroed = AL.
Proof. vm_compute. reflexivity. Qed.

Lemma put_is f o s v a : In (f, (o, s)) test_fields -> put f v a = splice o (le_enc s v) a.
Proof.
  intros I. pose proof test_fields_ok as F. rewrite Forall_forall in F. specialize (F _ I). cbv beta iota in F. unfold put. rewrite F. now rewrite !Nat2Z.id.
Qed.
Lemma fetch_is f o s a : In (f, (o, s)) test_fields -> fetch f a = u_at o s a.
Proof.
  intros I. pose proof test_fields_ok as F. rewrite Forall_forall in F. specialize (F _ I). cbv beta iota in F. unfold fetch. rewrite F. now rewrite !Nat2Z.id.
Qed.
Lemma fields_in f o s : In (f, (o, s)) test_fields -> (o + s <= 76)%nat.
Proof. unfold test_fields. cbn [In]. intros H. repeat destruct H as [H|H]; try (injection H as <- <- <-; lia). destruct H. Qed.

Lemma splice_same o s v a : length a = AL -> (o + s <= 76)%nat -> u_at o s (splice o (le_enc s v) a) = v mod 256 ^ Z.of_nat s.
Proof. intros L H. unfold u_at. rewrite <- (le_enc_length s v) at 1. rewrite slice_same by (rewrite le_enc_length, L; unfold AL; lia). apply le_dec_enc. Qed.
Lemma splice_other o s v a o' s' : length a = AL -> (o + s <= 76)%nat -> (o' + s' <= o \/ o + s <= o')%nat -> u_at o' s' (splice o (le_enc s v) a) = u_at o' s' a.
Proof. intros L H D. unfold u_at. rewrite slice_other; [reflexivity|rewrite le_enc_length, L; unfold AL; lia|now rewrite le_enc_length]. Qed.
Lemma splice_len o s v a : length a = AL -> (o + s <= 76)%nat -> length (splice o (le_enc s v) a) = AL.
Proof. intros L H. rewrite splice_length; [exact L|rewrite le_enc_length, L; unfold AL; lia]. Qed.
Lemma splice_clean o s v a : length a = AL -> (o + s <= 76)%nat -> skipn 76 (splice o (le_enc s v) a) = skipn 76 a.
Proof. intros L H. apply skipn_splice; rewrite le_enc_length; [rewrite L; unfold AL; lia|exact H]. Qed.
Lemma u_at_zeroed o s : u_at o s zeroed = 0.
Proof.
  unfold u_at, slice, zeroed. generalize (Z.to_nat (size A)) as n. intros n. assert (forall k j, le_dec (firstn k (repeat 0 j)) = 0) as X.
  { induction k as [|k IH]; intros [|j]; cbn [firstn repeat le_dec]; try reflexivity. rewrite IH. reflexivity. }
  assert (skipn o (repeat 0 n) = repeat 0 (n - o)) as ->; [|apply X]. revert n. induction o as [|o IH]; intros [|n]; cbn [skipn repeat Nat.sub]; try reflexivity. apply IH.
Qed.

Lemma clean_zeroed : clean zeroed.
Proof. unfold clean. vm_compute. repeat constructor. Qed.
Lemma clean_same a b : skipn 76 a = skipn 76 b -> clean b -> clean a.
Proof. unfold clean. now intros ->. Qed.
Opaque zeroed AL u_at splice.

(** The fields as one chain of writes. *)
Ltac field_in := unfold test_fields; cbn [In]; intuition congruence.
Ltac puts := repeat first [rewrite (put_is "prog_fd" 0 4) by field_in | rewrite (put_is "repeat" 32 4) by field_in | rewrite (put_is "flags" 64 4) by field_in
  | rewrite (put_is "batch_size" 72 4) by field_in | rewrite (put_is "data_in" 16 8) by field_in | rewrite (put_is "data_size_in" 8 4) by field_in
  | rewrite (put_is "data_out" 24 8) by field_in | rewrite (put_is "data_size_out" 12 4) by field_in | rewrite (put_is "ctx_in" 48 8) by field_in
  | rewrite (put_is "ctx_size_in" 40 4) by field_in | rewrite (put_is "ctx_out" 56 8) by field_in | rewrite (put_is "ctx_size_out" 44 4) by field_in
  | rewrite (put_is "cpu" 68 4) by field_in].

(** One buffer. *)
Lemma put_buf_is p n po no b a : In (p, (po, 8%nat)) test_fields -> In (n, (no, 4%nat)) test_fields -> length a = AL -> (po + 8 <= no \/ no + 4 <= po)%nat ->
  length (put_buf p n b a) = AL /\ skipn 76 (put_buf p n b a) = skipn 76 a /\
  (u_at po 8 a = 0 -> given is_slice b -> u_at po 8 (put_buf p n b a) = ptr b) /\
  (u_at no 4 a = 0 -> u_at no 4 (put_buf p n b a) = len b) /\
  (forall o s, (o + s <= po \/ po + 8 <= o)%nat -> (o + s <= no \/ no + 4 <= o)%nat -> u_at o s (put_buf p n b a) = u_at o s a).
Proof.
  intros P N L D. pose proof (fields_in _ _ _ P) as HP. pose proof (fields_in _ _ _ N) as HN. destruct b as [b|]; cbn [put_buf ptr len given]; [|tauto].
  rewrite (put_is p po 8) by exact P. rewrite (put_is n no 4) by exact N. pose proof (splice_len po 8 (b_ptr b) a L HP) as L1.
  split; [now apply splice_len|]. split; [rewrite splice_clean by assumption; now apply splice_clean|]. split; [|split].
  - intros _ (S1 & S2 & S3). rewrite splice_other by (try assumption; lia). rewrite splice_same by assumption. apply Z.mod_small. change (256 ^ Z.of_nat 8) with (2 ^ 64). lia.
  - intros _. now rewrite splice_same by assumption.
  - intros o s H1 H2. rewrite splice_other by (try assumption; lia). now rewrite splice_other by (try assumption; lia).
Qed.

Lemma u32_mod x : is_u32 x -> x mod 256 ^ Z.of_nat 4 = x.
Proof. intros H. apply Z.mod_small. exact H. Qed.

Lemma request_seen fd o : numbers fd o -> slices o ->
  length (request fd o) = AL /\ clean (request fd o) /\
  seen_in (request fd o) =
    {| s_fd := fd; s_retval := 0; s_data_size_in := len (o_data_in o); s_data_size_out := len (o_data_out o); s_data_in := ptr (o_data_in o); s_data_out := ptr (o_data_out o);
       s_repeat := o_repeat o; s_duration := 0; s_ctx_size_in := len (o_ctx_in o); s_ctx_size_out := len (o_ctx_out o); s_ctx_in := ptr (o_ctx_in o); s_ctx_out := ptr (o_ctx_out o);
       s_flags := ra_flags (o_attrs o); s_cpu := 0; s_batch := ra_batch (o_attrs o) |}.
Proof.
  intros (N1 & N2 & N3 & N4) (S1 & S2 & S3 & S4). unfold request. cbv zeta. puts.
  pose proof (splice_len 0 4 fd zeroed zeroed_length ltac:(lia)) as K1.
  pose proof (splice_len 32 4 (o_repeat o) _ K1 ltac:(lia)) as K2.
  pose proof (splice_len 64 4 (ra_flags (o_attrs o)) _ K2 ltac:(lia)) as K3.
  pose proof (splice_len 72 4 (ra_batch (o_attrs o)) _ K3 ltac:(lia)) as L0.
  assert (skipn 76 (splice 72 (le_enc 4 (ra_batch (o_attrs o))) (splice 64 (le_enc 4 (ra_flags (o_attrs o))) (splice 32 (le_enc 4 (o_repeat o)) (splice 0 (le_enc 4 fd) zeroed)))) = skipn 76 zeroed) as C0.
  { rewrite (splice_clean 72) by (try exact K3; lia). rewrite (splice_clean 64) by (try exact K2; lia). rewrite (splice_clean 32) by (try exact K1; lia).
    apply splice_clean; [exact zeroed_length|lia]. }
  assert (forall o' s', (o' + s' <= 0 \/ 4 <= o')%nat -> (o' + s' <= 32 \/ 36 <= o')%nat -> (o' + s' <= 64 \/ 68 <= o')%nat -> (o' + s' <= 72 \/ 76 <= o')%nat ->
    u_at o' s' (splice 72 (le_enc 4 (ra_batch (o_attrs o))) (splice 64 (le_enc 4 (ra_flags (o_attrs o))) (splice 32 (le_enc 4 (o_repeat o)) (splice 0 (le_enc 4 fd) zeroed)))) = 0) as Z0.
  { intros o' s' H1 H2 H3 H4. rewrite (splice_other 72) by (try exact K3; lia). rewrite (splice_other 64) by (try exact K2; lia). rewrite (splice_other 32) by (try exact K1; lia).
    rewrite (splice_other 0) by (try exact zeroed_length; lia). apply u_at_zeroed. }
  set (a1 := splice 0 (le_enc 4 fd) zeroed) in *. set (a2 := splice 32 _ a1) in *. set (a3 := splice 64 _ a2) in *. set (a0 := splice 72 _ a3) in *.
  assert (u_at 0 4 a0 = fd) as V1.
  { unfold a0. rewrite splice_other by (try exact K3; lia). unfold a3. rewrite splice_other by (try exact K2; lia). unfold a2. rewrite splice_other by (try exact K1; lia). unfold a1.
    rewrite splice_same by (try exact zeroed_length; lia). now apply u32_mod. }
  assert (u_at 32 4 a0 = o_repeat o) as V2.
  { unfold a0. rewrite splice_other by (try exact K3; lia). unfold a3. rewrite splice_other by (try exact K2; lia). unfold a2. rewrite splice_same by (try exact K1; lia). now apply u32_mod. }
  assert (u_at 64 4 a0 = ra_flags (o_attrs o)) as V3.
  { unfold a0. rewrite splice_other by (try exact K3; lia). unfold a3. rewrite splice_same by (try exact K2; lia). now apply u32_mod. }
  assert (u_at 72 4 a0 = ra_batch (o_attrs o)) as V4.
  { unfold a0. rewrite splice_same by (try exact K3; lia). now apply u32_mod. }
  clearbody a0. clear a1 a2 a3 K1 K2 K3.
  destruct (put_buf_is "data_in" "data_size_in" 16 8 (o_data_in o) a0) as (L1 & C1 & P1 & Q1 & O1); [field_in|field_in|exact L0|lia|]. set (a1 := put_buf "data_in" _ _ _) in *. clearbody a1.
  destruct (put_buf_is "data_out" "data_size_out" 24 12 (o_data_out o) a1) as (L2 & C2 & P2 & Q2 & O2); [field_in|field_in|exact L1|lia|]. set (a2 := put_buf "data_out" _ _ _) in *. clearbody a2.
  destruct (put_buf_is "ctx_in" "ctx_size_in" 48 40 (o_ctx_in o) a2) as (L3 & C3 & P3 & Q3 & O3); [field_in|field_in|exact L2|lia|]. set (a3 := put_buf "ctx_in" _ _ _) in *. clearbody a3.
  destruct (put_buf_is "ctx_out" "ctx_size_out" 56 44 (o_ctx_out o) a3) as (L4 & C4 & P4 & Q4 & O4); [field_in|field_in|exact L3|lia|]. set (a4 := put_buf "ctx_out" _ _ _) in *. clearbody a4.
  split; [exact L4|]. split.
  { apply (clean_same _ zeroed); [congruence|exact clean_zeroed]. }
  assert (u_at 0 4 a4 = fd) as E0. { rewrite O4, O3, O2, O1 by (clear; lia). exact V1. }
  assert (u_at 4 4 a4 = 0) as E1. { rewrite O4, O3, O2, O1 by (clear; lia). apply Z0; clear; lia. }
  assert (u_at 8 4 a4 = len (o_data_in o)) as E2. { rewrite O4, O3, O2 by (clear; lia). apply Q1. apply Z0; clear; lia. }
  assert (u_at 12 4 a4 = len (o_data_out o)) as E3. { rewrite O4, O3 by (clear; lia). apply Q2. rewrite O1 by (clear; lia). apply Z0; clear; lia. }
  assert (u_at 16 8 a4 = ptr (o_data_in o)) as E4. { rewrite O4, O3, O2 by (clear; lia). refine (P1 _ S1); [apply Z0; clear; lia]. }
  assert (u_at 24 8 a4 = ptr (o_data_out o)) as E5. { rewrite O4, O3 by (clear; lia). refine (P2 _ S2); [rewrite O1 by (clear; lia); apply Z0; clear; lia]. }
  assert (u_at 32 4 a4 = o_repeat o) as E6. { rewrite O4, O3, O2, O1 by (clear; lia). exact V2. }
  assert (u_at 36 4 a4 = 0) as E7. { rewrite O4, O3, O2, O1 by (clear; lia). apply Z0; clear; lia. }
  assert (u_at 40 4 a4 = len (o_ctx_in o)) as E8. { rewrite O4 by (clear; lia). apply Q3. rewrite O2, O1 by (clear; lia). apply Z0; clear; lia. }
  assert (u_at 44 4 a4 = len (o_ctx_out o)) as E9. { apply Q4. rewrite O3, O2, O1 by (clear; lia). apply Z0; clear; lia. }
  assert (u_at 48 8 a4 = ptr (o_ctx_in o)) as E10. { rewrite O4 by (clear; lia). refine (P3 _ S3); [rewrite O2, O1 by (clear; lia); apply Z0; clear; lia]. }
  assert (u_at 56 8 a4 = ptr (o_ctx_out o)) as E11. { refine (P4 _ S4); [rewrite O3, O2, O1 by (clear; lia); apply Z0; clear; lia]. }
  assert (u_at 64 4 a4 = ra_flags (o_attrs o)) as E12. { rewrite O4, O3, O2, O1 by (clear; lia). exact V3. }
  assert (u_at 68 4 a4 = 0) as E13. { rewrite O4, O3, O2, O1 by (clear; lia). apply Z0; clear; lia. }
  assert (u_at 72 4 a4 = ra_batch (o_attrs o)) as E14. { rewrite O4, O3, O2, O1 by (clear; lia). exact V4. }
  unfold seen_in. rewrite E0, E1, E2, E3, E4, E5, E6, E7, E8, E9, E10, E11, E12, E13, E14. reflexivity.
Qed.
