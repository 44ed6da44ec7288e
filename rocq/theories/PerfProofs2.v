(** Histories of a perf buffer: the kernel appends, the reader folds. *)
From Verif Require Import Base RingBufModel RingBufSpec RingBufProofs PerfModel PerfSpec PerfProofs.
Local Open Scope Z_scope.

Record PInv (s : psys) (start : Z) (n : nat) : Prop := {
  pi_size : perf_size_ok (p_size s);
  pi_al : start mod 8 = 0;
  pi_ok : Forall (fun r => prec_ok r = true) (p_log s);
  pi_n : (n <= length (p_log s))%nat;
  pi_tail : p_tail s = u64 (start + tlen (firstn n (p_log s)));
  pi_head : p_head s = u64 (start + tlen (p_log s));
  pi_fit : tlen (skipn n (p_log s)) <= p_size s;
  pi_holds : holds (p_size s) (p_mem s) (start + tlen (firstn n (p_log s))) (skipn n (p_log s));
  pi_out : map ev_view (p_out s) = views (firstn n (p_log s));
  pi_bad : p_bad s = false
}.

Lemma views_app a b : views (a ++ b) = views a ++ views b.
Proof. unfold views. apply flat_map_app. Qed.

Lemma tlen_split n l : tlen l = tlen (firstn n l) + tlen (skipn n l).
Proof. rewrite <- tlen_app, firstn_skipn. reflexivity. Qed.

Lemma tlen_mod8 rs : Forall (fun r => prec_ok r = true) rs -> tlen rs mod 8 = 0.
Proof.
  induction 1 as [|r rs Hr _ IH]; [reflexivity|]. rewrite tlen_cons. unfold prec_ok in Hr. lia.
Qed.

Lemma tlen_one r : tlen [r] = Z.of_nat (plen r).
Proof. rewrite tlen_cons. unfold tlen, pencs. cbn. lia. Qed.

Lemma init_inv size m start : perf_size_ok size -> start mod 8 = 0 -> 0 <= start < 2 ^ 64 ->
  PInv (pinit size m start) start 0.
Proof.
  intros H1 H2 H3. constructor; cbn; auto; try (unfold tlen, pencs; cbn; rewrite Z.add_0_r, u64_small; lia).
  - unfold tlen, pencs. cbn. pose proof (perf_size_pos _ H1). lia.
  - reflexivity.
Qed.

Lemma kwrite_inv s start n r : PInv s start n ->
  PInv (kwrite s r) start n /\ p_size (kwrite s r) = p_size s /\ p_tail (kwrite s r) = p_tail s /\
  p_out (kwrite s r) = p_out s /\ p_bad (kwrite s r) = p_bad s /\ exists l, p_log (kwrite s r) = p_log s ++ l.
Proof.
  intros I. unfold kwrite.
  destruct (prec_ok r && (u64 (p_head s - p_tail s) + Z.of_nat (plen r) <=? p_size s)) eqn:E.
  2:{ repeat split; auto. all: try apply I. exists []. now rewrite app_nil_r. }
  apply andb_true_iff in E. destruct E as [Hr Hroom].
  cbn [p_size p_tail p_out p_bad p_log]. repeat (split; [|]); try reflexivity; [|exists [r]; reflexivity].
  destruct I as [Hs Hal Hok Hn Ht Hh Hfit Hho Ho Hb].
  pose proof (perf_size_pos _ Hs) as [Hs1 Hs2].
  assert (u64 (p_head s - p_tail s) = tlen (skipn n (p_log s))) as Eu.
  { rewrite Ht, Hh, u64_sub. rewrite (tlen_split n (p_log s)).
    replace (_ - _) with (tlen (skipn n (p_log s))) by lia. pose proof (tlen_nonneg (skipn n (p_log s))).
    apply u64_small. lia. }
  rewrite Eu in Hroom.
  assert (firstn n (p_log s ++ [r]) = firstn n (p_log s)) as Ef.
  { rewrite firstn_app. replace (n - length (p_log s))%nat with O by lia. cbn [firstn]. apply app_nil_r. }
  assert (skipn n (p_log s ++ [r]) = skipn n (p_log s) ++ [r]) as Esk.
  { rewrite skipn_app. replace (n - length (p_log s))%nat with O by lia. reflexivity. }
  pose proof (plen_pos r).
  constructor; cbn [p_size p_mem p_head p_tail p_log p_out p_bad]; auto.
  - apply Forall_app. split; [exact Hok|]. now constructor.
  - rewrite app_length. lia.
  - now rewrite Ef.
  - rewrite Hh, u64_add_l, tlen_app, tlen_one. f_equal. lia.
  - rewrite Esk, tlen_app, tlen_one. lia.
  - rewrite Ef, Esk. apply holds_app; [exact Hs|]. split.
    + unfold holds in *. rewrite <- Hho at 2. apply rd_range_ext; [lia|]. intros i Hi.
      rewrite (wr_range_cong (p_size s) ltac:(lia) _ (p_head s) (start + tlen (p_log s))).
      2:{ rewrite Hh. apply u64_mod_size. exact Hs. }
      apply wr_range_other; [lia|]. intros j Hj.
      rewrite penc_length in Hj. fold (tlen (skipn n (p_log s))) in Hi.
      rewrite (tlen_split n (p_log s)).
      intros E. symmetry in E. revert E. apply mod_add_neq; lia.
    + unfold holds, pencs. cbn [map concat]. rewrite app_nil_r.
      rewrite <- Z.add_assoc, <- tlen_split.
      rewrite (rd_range_cong (p_size s) ltac:(lia) _ (start + tlen (p_log s)) (p_head s)).
      2:{ rewrite Hh. symmetry. apply u64_mod_size. exact Hs. }
      apply rd_wr_same; [lia|]. rewrite penc_length. pose proof (tlen_nonneg (skipn n (p_log s))). lia.
  - now rewrite Ef.
Qed.

Lemma kwrites_inv rs : forall s start n, PInv s start n ->
  PInv (kwrites s rs) start n /\ p_size (kwrites s rs) = p_size s /\ p_tail (kwrites s rs) = p_tail s /\
  p_out (kwrites s rs) = p_out s /\ p_bad (kwrites s rs) = p_bad s /\ exists l, p_log (kwrites s rs) = p_log s ++ l.
Proof.
  induction rs as [|r rs IH]; intros s start n I.
  - split; [exact I|]. repeat split; try reflexivity. exists []. symmetry. apply app_nil_r.
  - unfold kwrites. cbn [fold_left]. fold (kwrites (kwrite s r) rs).
    destruct (kwrite_inv s start n r I) as (I1 & A1 & A2 & A3 & A4 & l1 & A5).
    destruct (IH _ _ _ I1) as (I2 & B1 & B2 & B3 & B4 & l2 & B5).
    split; [exact I2|]. rewrite B1, B2, B3, B4, B5, A5. repeat split; auto.
    exists (l1 ++ l2). now rewrite app_assoc.
Qed.

Lemma skipn_app_le {A} n (a b : list A) : (n <= length a)%nat -> skipn n (a ++ b) = skipn n a ++ b.
Proof. intros H. rewrite skipn_app. now replace (n - length a)%nat with O by lia. Qed.
Lemma firstn_app_le {A} n (a b : list A) : (n <= length a)%nat -> firstn n (a ++ b) = firstn n a.
Proof. intros H. rewrite firstn_app. replace (n - length a)%nat with O by lia. cbn [firstn]. apply app_nil_r. Qed.

(** What a recording callback has been given. *)
Lemma folds_recording d : forall rs acc used rest o,
  folds (recording d) rs acc used rest o ->
  exists es, map ev_view es = views used /\
    (o = FDone (acc ++ es) /\ rest = [] \/
     o = FBreak (acc ++ es) /\ d (acc ++ es) = false).
Proof.
  intros rs acc used rest o H. induction H as
    [acc|r rs acc used rest o Hv H IH|r rs e acc acc' used rest o Hv Hf H IH|r rs e acc b Hv Hf|r rs e acc Hv Hf].
  - exists []. split; [reflexivity|]. left. rewrite app_nil_r. auto.
  - destruct IH as (es & E & D). exists es. split; [|exact D]. unfold views in *. cbn [flat_map]. now rewrite Hv.
  - unfold recording in Hf. destruct (d (acc ++ [e])) eqn:Ed; [|discriminate]. inversion Hf; subst acc'.
    destruct IH as (es & E & D). exists (e :: es).
    rewrite <- app_assoc in D. cbn [app] in D. split; [|exact D].
    unfold views in *. cbn [flat_map map]. now rewrite Hv, E.
  - unfold recording in Hf. destruct (d (acc ++ [e])) eqn:Ed; [discriminate|]. inversion Hf; subst b.
    exists [e]. split; [unfold views; cbn [flat_map map]; now rewrite Hv|]. right. auto.
  - unfold recording in Hf. destruct (d (acc ++ [e])); discriminate.
Qed.

(** One fold in a reachable state. *)
Lemma fold_inv s start n d w : PInv s start n ->
  exists used rest es l,
    skipn n (p_log s) = used ++ rest /\
    p_log (pstep s (PFold d w)) = p_log s ++ l /\
    p_out (pstep s (PFold d w)) = p_out s ++ es /\
    map ev_view es = views used /\
    (rest = [] \/ d es = false) /\
    (used = [] -> p_tail (pstep s (PFold d w)) = p_tail s) /\
    PInv (pstep s (PFold d w)) start (n + length used) /\
    exists o, folds (recording d) (skipn n (p_log s)) [] used rest o /\ (o = FDone es \/ o = FBreak es).
Proof.
  intros I. pose proof I as [Hs Hal Hok Hn Ht Hh Hfit Hho Ho Hb].
  pose proof (perf_size_pos _ Hs) as [Hs1 Hs2].
  set (rs := skipn n (p_log s)) in *. set (pos := start + tlen (firstn n (p_log s))) in *.
  set (mems := fun i => p_mem (kwrites s (concat (firstn (S i) w)))).
  assert (forall ws, holds (p_size s) (p_mem (kwrites s ws)) pos rs) as Hm.
  { intros ws. destruct (kwrites_inv ws s start n I) as (I' & E1 & _ & _ & _ & l & E5).
    pose proof (pi_holds _ _ _ I') as H. rewrite E1, E5, firstn_app_le, skipn_app_le in H by exact Hn.
    apply holds_app in H; [|exact Hs]. apply H. }
  assert (Forall (fun r => prec_ok r = true) (firstn n (p_log s)) /\ Forall (fun r => prec_ok r = true) rs) as [Hok1 Hok2].
  { apply Forall_app. unfold rs. now rewrite firstn_skipn. }
  assert (pos mod 8 = 0) as Hpal by (unfold pos; pose proof (tlen_mod8 _ Hok1); lia).
  assert (length rs <= Z.to_nat (p_size s))%nat as Hfuel.
  { assert (forall l, Z.of_nat (length l) <= tlen l) as G.
    { induction l as [|r l IH]; [unfold tlen, pencs; cbn; lia|].
      rewrite tlen_cons. cbn [length]. pose proof (plen_pos r). lia. }
    specialize (G rs). lia. }
  destruct (try_fold_spec (p_size s) Hs (recording d) mems rs pos (Z.to_nat (p_size s)) []
              Hpal Hok2 Hfit (fun j => Hm _) Hfuel) as (used & rest & o & E & F & A & _).
  assert (p_head s = u64 (pos + tlen rs)) as Eh.
  { rewrite Hh. unfold pos, rs. rewrite (tlen_split n (p_log s)). f_equal. lia. }
  destruct (folds_recording _ _ _ _ _ _ F) as (es & Hes & D). cbn [app] in D.
  destruct (kwrites_inv (concat w) s start n I) as (I' & E1 & E2 & E3 & E4 & l & E5).
  assert (fst (try_fold (recording d) (Z.to_nat (p_size s)) (p_size s) mems (p_head s) (p_tail s) []) =
     match used with [] => None | _ :: _ => Some (u64 (pos + tlen used)) end /\
     snd (try_fold (recording d) (Z.to_nat (p_size s)) (p_size s) mems (p_head s) (p_tail s) []) = o) as [Ef Es].
  { rewrite Eh, Ht. rewrite E. split; reflexivity. }
  exists used, rest, es, l. cbn [pstep]. fold mems. rewrite Ef, Es.
  cbn [p_log p_out p_tail]. rewrite E3.
  split; [now symmetry|]. split; [exact E5|].
  assert ((match o with FDone l0 | FBreak l0 => l0 | _ => [] end) = es) as Eo
    by (destruct D as [[-> _]|[-> _]]; reflexivity).
  rewrite Eo. split; [reflexivity|]. split; [exact Hes|].
  split; [destruct D as [[_ ->]|[_ ->]]; auto|].
  split; [intros ->; exact E2|].
  assert (length rs = length (p_log s) - n)%nat as Lrs by (unfold rs; apply skipn_length).
  assert (length used + length rest = length rs)%nat as Lsum by (rewrite <- A, app_length; lia).
  assert (firstn (n + length used) (p_log s) = firstn n (p_log s) ++ used) as Efn.
  { rewrite <- (firstn_skipn n (p_log s)) at 1. fold rs. rewrite firstn_app.
    rewrite firstn_length, Nat.min_l by exact Hn.
    rewrite (firstn_all2 (firstn n (p_log s))) by (rewrite firstn_length; lia).
    f_equal. rewrite <- A. apply firstn_app_exact. lia. }
  assert (skipn (n + length used) (p_log s) = rest) as Esn.
  { rewrite <- skipn_skipn'. fold rs. rewrite <- A. apply skipn_app_exact. reflexivity. }
  split.
  - constructor; cbn [p_size p_mem p_head p_tail p_log p_out p_bad].
    + rewrite E1. exact Hs.
    + exact Hal.
    + apply I'.
    + rewrite E5, app_length. lia.
    + rewrite E5, firstn_app_le by lia. rewrite Efn, tlen_app, Z.add_assoc. fold pos.
      destruct used as [|r0 used]; [|reflexivity].
      rewrite E2, Ht. replace (tlen []) with 0 by reflexivity. now rewrite Z.add_0_r.
    + apply I'.
    + rewrite E1. pose proof (pi_fit _ _ _ I') as Hf'. rewrite E1 in Hf'.
      pose proof (pi_n _ _ _ I').
      rewrite <- skipn_skipn'. rewrite (tlen_split (length used)) in Hf'. pose proof (tlen_nonneg (firstn (length used) (skipn n (p_log (kwrites s (concat w)))))). lia.
    + rewrite E1. pose proof (pi_holds _ _ _ I') as H. rewrite E1, E5 in H. rewrite E5.
      rewrite firstn_app_le, skipn_app_le in H by exact Hn.
      rewrite firstn_app_le, skipn_app_le by lia.
      rewrite Efn, Esn, tlen_app, Z.add_assoc.
      fold rs in H. rewrite <- A, <- app_assoc in H. apply holds_app in H; [|exact Hs]. apply H.
    + rewrite map_app, Ho, Hes, E5, firstn_app_le, Efn by lia. symmetry. apply views_app.
    + rewrite E4, Hb. destruct D as [[-> _]|[-> _]]; reflexivity.
  - exists o. split; [exact F|]. destruct D as [[-> _]|[-> _]]; auto.
Qed.

Lemma prun_inv ops : forall s start n, PInv s start n -> exists n', PInv (prun s ops) start n'.
Proof.
  induction ops as [|o ops IH]; intros s start n I; [now exists n|].
  unfold prun. cbn [fold_left]. destruct o as [r|d w].
  - apply (IH _ start n). apply kwrite_inv. exact I.
  - destruct (fold_inv s start n d w I) as (used & rest & es & l & _ & _ & _ & _ & _ & _ & I' & _).
    apply (IH _ start _ I').
Qed.

(** Everything delivered is a prefix of what the kernel wrote, and exactly
    the space of the records read is released. *)
Theorem perf_history size m start ops :
  perf_size_ok size -> start mod 8 = 0 -> 0 <= start < 2 ^ 64 ->
  let s := prun (pinit size m start) ops in
  p_bad s = false /\
  exists n, (n <= length (p_log s))%nat /\
    map ev_view (p_out s) = views (firstn n (p_log s)) /\
    p_tail s = u64 (start + tlen (firstn n (p_log s))).
Proof.
  intros H1 H2 H3 s. destruct (prun_inv ops _ _ _ (init_inv size m start H1 H2 H3)) as (n & I).
  split; [apply I|]. exists n. split; [apply I|]. split; apply I.
Qed.

(** A fold that is never stopped delivers everything written before it began. *)
Theorem perf_drain size m start ops w :
  perf_size_ok size -> start mod 8 = 0 -> 0 <= start < 2 ^ 64 ->
  let s := prun (pinit size m start) ops in
  map ev_view (p_out (pstep s (PFold (fun _ => true) w))) = views (p_log s).
Proof.
  intros H1 H2 H3 s. destruct (prun_inv ops _ _ _ (init_inv size m start H1 H2 H3)) as (n & I).
  fold s in I. destruct (fold_inv s start n (fun _ => true) w I)
    as (used & rest & es & l & A & B & Co & D & E & _ & _ & _).
  destruct E as [->|E]; [|discriminate]. rewrite app_nil_r in A.
  rewrite Co, map_app, (pi_out _ _ _ I), D, <- A, <- views_app, firstn_skipn. reflexivity.
Qed.

Lemma folds_count k : forall rs acc used rest o,
  folds (recording (fun l => (length l <? k)%nat)) rs acc used rest o ->
  (length acc < k)%nat ->
  views used = firstn (k - length acc) (views rs).
Proof.
  intros rs acc used rest o H. induction H as
    [acc|r rs acc used rest o Hv H IH|r rs e acc acc' used rest o Hv Hf H IH|r rs e acc b Hv Hf|r rs e acc Hv Hf]; intros Hk.
  - now rewrite firstn_nil.
  - unfold views in *. cbn [flat_map]. rewrite Hv. apply IH, Hk.
  - unfold recording in Hf. destruct (Nat.ltb_spec (length (acc ++ [e])) k) as [Hl|Hl]; [|discriminate].
    inversion Hf; subst acc'. specialize (IH Hl). rewrite app_length in *. cbn [length] in *.
    unfold views in *. cbn [flat_map]. rewrite Hv, IH. cbn [app].
    replace (k - length acc)%nat with (S (k - (length acc + 1)))%nat by lia. reflexivity.
  - unfold recording in Hf. destruct (Nat.ltb_spec (length (acc ++ [e])) k) as [Hl|Hl]; [discriminate|].
    rewrite app_length in Hl. cbn [length] in Hl.
    replace (k - length acc)%nat with 1%nat by lia. unfold views. cbn [flat_map]. rewrite Hv. reflexivity.
  - unfold recording in Hf. destruct ((length (acc ++ [e]) <? k)%nat); discriminate.
Qed.

(** Stopping after the [k]-th event consumes exactly the next [k] events, and
    a later complete read delivers the others. *)
Theorem perf_stop size m start ops k w :
  perf_size_ok size -> start mod 8 = 0 -> 0 <= start < 2 ^ 64 -> (0 < k)%nat ->
  let s := prun (pinit size m start) ops in
  let s' := pstep s (PFold (fun l => (length l <? k)%nat) w) in
  exists unread es,
    views (p_log s) = map ev_view (p_out s) ++ unread /\
    p_out s' = p_out s ++ es /\
    map ev_view es = firstn k unread /\
    (forall w', exists later,
        p_out (pstep s' (PFold (fun _ => true) w')) = p_out s' ++ later /\
        views (p_log s') = map ev_view (p_out s') ++ map ev_view later).
Proof.
  intros H1 H2 H3 Hk s s'. destruct (prun_inv ops _ _ _ (init_inv size m start H1 H2 H3)) as (n & I).
  fold s in I. destruct (fold_inv s start n (fun l => (length l <? k)%nat) w I)
    as (used & rest & es & l & A & B & Co & D & E & _ & I' & o & F & _).
  exists (views (skipn n (p_log s))), es.
  split. { rewrite (pi_out _ _ _ I), <- views_app, firstn_skipn. reflexivity. }
  split; [exact Co|]. split.
  { rewrite D. rewrite (folds_count k _ _ _ _ _ F Hk). cbn [length]. now rewrite Nat.sub_0_r. }
  intros w'. fold s' in I'. destruct (fold_inv s' start _ (fun _ => true) w' I')
    as (used' & rest' & es' & l' & A' & _ & Co' & D' & E' & _ & _ & _).
  destruct E' as [->|E']; [|discriminate]. rewrite app_nil_r in A'.
  exists es'. split; [exact Co'|].
  rewrite D', <- A', (pi_out _ _ _ I'), <- views_app, firstn_skipn. reflexivity.
Qed.
