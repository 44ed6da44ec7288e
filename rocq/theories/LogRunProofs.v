(** Proofs about logging as a whole: single steps. *)
From Coq Require Import String.
From Verif Require Import Base Text LogModel LogSpec LogProofs RingBufModel RingBufSpec RingBufProofs EmitModel EmitSpec EmitProofs EmitProofs2 EmitProofs3 LogRunModel LogRunSpec.
Local Open Scope Z_scope.

Notation rec c := (LogProofs.record (fst c) (snd c)).

(** * What a call does *)

Lemma writes_app ptr a : forall pos b, writes ptr pos (a ++ b) = writes ptr pos a ++ writes ptr (pos + length a) b.
Proof.
  induction a as [|x a IH]; intros pos b; cbn [writes app length]; [now rewrite Nat.add_0_r|].
  rewrite IH. do 3 f_equal. lia.
Qed.
Lemma stores_fit ptr cap ss : forall pos, (pos + length (concat ss) <= cap)%nat ->
  stores ptr cap pos ss = writes ptr pos (concat ss) ++ [ESubmit ptr 0].
Proof.
  induction ss as [|s ss IH]; intros pos L; cbn [stores concat]; [reflexivity|].
  cbn [concat] in L. rewrite app_length in L.
  destruct (Nat.leb_spec pos cap); [|lia]. destruct (Nat.leb_spec (length s) (cap - pos)); [|lia]. cbn [andb].
  rewrite IH by lia. rewrite writes_app, app_assoc. reflexivity.
Qed.

Lemma enabled_iff t l : (level_code l <=? t) = true <-> enabled t l.
Proof. rewrite Z.leb_le. destruct l; cbn; lia. Qed.

Lemma begin_spec pg t h args s :
  (exists cap ptr s', loggable t (h, args) /\ good_cap (record_size h args) cap /\ EmitSpec.emit pg (EReserveBytes cap 0) s = (EEntry ptr, s') /\
     begin_call pg t h args s = (Some (writes ptr 0 (LogProofs.record h args) ++ [ESubmit ptr 0]), s')) \/
  (begin_call pg t h args s = (None, s) /\ ~ loggable t (h, args)) \/
  (exists cap r s', loggable t (h, args) /\ good_cap (record_size h args) cap /\ EmitSpec.emit pg (EReserveBytes cap 0) s = (r, s') /\ (forall ptr, r <> EEntry ptr) /\
     begin_call pg t h args s = (None, s')).
Proof.
  unfold begin_call, loggable. cbn [fst snd]. destruct (level_code (lh_level h) <=? t) eqn:Lv.
  2: { right. left. split; [reflexivity|]. intros (E & _). apply enabled_iff in E. congruence. }
  apply enabled_iff in Lv.
  destruct (header_slices h _) as [hs|] eqn:H.
  2: { right. left. split; [reflexivity|]. intros (_ & (T & M & F & _) & _).
       destruct (header_slices_fits h (Z.of_nat (length args)) T M F) as [ss E]. congruence. }
  destruct (arg_slices args) as [ss|] eqn:A.
  2: { right. left. split; [reflexivity|]. intros (_ & (_ & _ & _ & F) & _).
       destruct (arg_slices_fits args F) as [ss E]. congruence. }
  destruct (header_slices_some _ _ _ H) as (CH & FT & FM & FF).
  destruct (arg_slices_some _ _ A) as (CA & FA).
  assert (SZ : 2 + LogModel.total hs + LogModel.total ss = record_size h args).
  { unfold LogModel.total, record_size. rewrite CH, CA, enc_header_size, enc_args_size. lia. }
  cbv zeta. rewrite SZ.
  destruct (Z.leb_spec (2 ^ 16) (record_size h args)) as [B|B].
  { right. left. split; [reflexivity|]. intros (_ & _ & X). lia. }
  pose proof (capacity_spec (record_size h args)) as C.
  destruct (capacity (record_size h args)) as [cap|].
  2: { right. left. split; [reflexivity|]. intros (_ & _ & X). lia. }
  assert (enabled t (lh_level h) /\ fields_fit h args /\ record_size h args <= 8192) as Lg.
  { split; [exact Lv|]. split; [exact (conj FT (conj FM (conj FF FA)))|].
    destruct C as (L & _ & k & K & ->). assert (2 ^ k <= 2 ^ 13) by (apply Z.pow_le_mono_r; lia). lia. }
  destruct (EmitSpec.emit pg (EReserveBytes cap 0) s) as [r s'] eqn:Em.
  assert (EC : concat (le_enc 2 (record_size h args) :: hs ++ ss) = LogProofs.record h args).
  { cbn [concat]. rewrite concat_app, CH, CA. reflexivity. }
  destruct r as [| |ptr| | |e];
    try (right; right; eexists cap, _, s'; split; [exact Lg|]; split; [exact C|]; split; [exact Em|]; split; [intros ptr E; discriminate E|reflexivity]).
  left. exists cap, ptr, s'. split; [exact Lg|]. split; [exact C|]. split; [exact Em|].
  rewrite stores_fit; [rewrite EC; reflexivity|]. rewrite EC. pose proof (record_length h args). destruct C as (L & _). lia.
Qed.

(** * An entry of the ring and what is left to do for it *)

Definition progress (c : call) (e : sent) (job : list ecall) : Prop :=
  exists cap, (length (rec c) <= cap)%nat /\ (0 < cap)%nat /\
  (s_status e = Committed /\ job = [] /\ s_bytes e = map Some (rec c) ++ repeat None (cap - length (rec c)) \/
   exists k, (k <= length (rec c))%nat /\ s_status e = Reserved /\ job = writes (s_ptr e) k (skipn k (rec c)) ++ [ESubmit (s_ptr e) 0] /\
     s_bytes e = map Some (firstn k (rec c)) ++ repeat None (cap - k)).

Lemma progress_length c e job : progress c e job -> (0 < length (s_bytes e))%nat.
Proof.
  intros (cap & L & P & [(_ & _ & B) | (k & K & _ & _ & B)]); rewrite B, app_length, map_length, repeat_length; [lia|].
  rewrite firstn_length. lia.
Qed.

Lemma firstn_S {A} k : forall (l : list A) x, nth_error l k = Some x -> firstn (S k) l = firstn k l ++ [x].
Proof.
  induction k as [|k IH]; intros [|y l] x N; cbn [nth_error] in N; try discriminate N.
  - apply some_inj in N. subst. reflexivity.
  - cbn [firstn app]. f_equal. exact (IH l x N).
Qed.
Lemma skipn_nth {A} k : forall (l : list A), (k < length l)%nat -> exists x, nth_error l k = Some x /\ skipn k l = x :: skipn (S k) l.
Proof.
  induction k as [|k IH]; intros [|y l] L; cbn [length] in L; try lia.
  - exists y. auto.
  - destruct (IH l ltac:(lia)) as (x & N & E). exists x. cbn [nth_error skipn] in *. auto.
Qed.

(** One step of a call. *)
Lemma progress_step c e call job : progress c e (call :: job) ->
  open_at (s_ptr e) e = true /\
  ((exists off b, call = EWrite (s_ptr e) off b /\ (off < length (s_bytes e))%nat /\ progress c (written off b e) job) \/
   (call = ESubmit (s_ptr e) 0 /\ progress c (finished Committed e) job)).
Proof.
  intros (cap & L & P & [(_ & J & _) | (k & K & St & J & B)]); [discriminate J|].
  split; [unfold open_at; rewrite St, Z.eqb_refl; reflexivity|].
  destruct (Nat.eq_dec k (length (rec c))) as [-> | N].
  - right. rewrite skipn_all in J. cbn [writes app] in J. injection J as -> ->. split; [reflexivity|].
    exists cap. split; [exact L|]. split; [exact P|]. left. cbn [s_status finished s_bytes]. split; [reflexivity|]. split; [reflexivity|].
    rewrite B, firstn_all. reflexivity.
  - left. destruct (skipn_nth k (rec c) ltac:(lia)) as (x & Nx & E). rewrite E in J. cbn [writes app] in J. injection J as -> ->.
    exists k, x. split; [reflexivity|].
    assert (length (map Some (firstn k (rec c))) = k) as Lk by (rewrite map_length, firstn_length; lia).
    split; [rewrite B, app_length, Lk, repeat_length; lia|].
    exists cap. split; [exact L|]. split; [exact P|]. right. exists (S k). cbn [s_status written s_bytes s_ptr].
    split; [lia|]. split; [exact St|]. split; [reflexivity|].
    rewrite B. replace (cap - k)%nat with (S (cap - S k)) by lia. cbn [repeat].
    replace k with (length (map Some (firstn k (rec c)))) at 1 by exact Lk.
    rewrite upd_app, (firstn_S k _ x Nx), map_app, <- app_assoc. reflexivity.
Qed.

Lemma progress_new c cap ptr : (length (rec c) <= cap)%nat -> (0 < cap)%nat ->
  progress c {| s_ptr := ptr; s_status := Reserved; s_bytes := repeat None cap |} (writes ptr 0 (rec c) ++ [ESubmit ptr 0]).
Proof.
  intros L P. exists cap. split; [exact L|]. split; [exact P|]. right. exists 0%nat. cbn [s_status s_ptr s_bytes skipn firstn map app].
  rewrite Nat.sub_0_r. repeat split; lia.
Qed.

(** * What is read for a call *)

Lemma agrees_record R n d : agrees (map Some R ++ repeat None n) d -> exists junk, d = R ++ junk.
Proof.
  revert d. induction R as [|b R IH]; intros d A; cbn [map app] in A; [exists d; reflexivity|].
  inversion A as [|o x l d' [Eo | Eo] A' El Ed]; subst; [discriminate Eo|]. apply some_inj in Eo. subst x.
  destruct (IH d' A') as (junk & ->). exists junk. reflexivity.
Qed.
Lemma read_call ff t c e job d : sound_call ff c -> loggable t c -> progress c e job -> s_status e = Committed -> agrees (s_bytes e) d ->
  exists x, log_buf 8 ff d = Ok x /\ said ff c x.
Proof.
  intros (WH & WA & m & M) (_ & FF & SZ) (cap & L & P & [(_ & _ & B) | (k & _ & S & _)]) C A; [|congruence].
  rewrite B in A. destruct (agrees_record _ _ _ A) as (junk & ->). exists (fst c, m).
  split; [|split; [reflexivity|exact M]].
  rewrite log_buf_record; [rewrite M; reflexivity|exact WH|exact WA|exact FF|lia].
Qed.
