(** Names and paths with a zero byte. *)
From Verif Require Import Base Text PinModel PinSpec PinProofs PinProofs2 PinProofs3.
Local Open Scope Z_scope.

Lemma zero_in s : In 0 s -> has_nul s = true.
Proof. intro H. apply existsb_exists. exists 0. split; [exact H | reflexivity]. Qed.

Lemma zero_path l o w p : o_inner o <> Some None -> pin_path l o = Some p -> In 0 p -> load_map l o w = (Err EInvalidPath, w).
Proof.
  intros N P Z0. unfold load_map. rewrite P. unfold create_pinned. rewrite (zero_in p Z0).
  destruct (o_inner o) as [[i |] |]; [reflexivity | contradiction | reflexivity].
Qed.

Lemma zero_name l o w : o_inner o <> Some None -> pin_path l o = None -> In 0 (o_name o) -> load_map l o w = (Err EInvalidName, w).
Proof.
  intros N P Z0. unfold load_map. rewrite P. destruct (o_inner o) as [[i |] |]; [| contradiction |]; unfold create_with_inner, create.
  - rewrite (zero_in (o_name o ++ _)) by (apply in_or_app; now left). reflexivity.
  - rewrite (zero_in (o_name o)) by exact Z0. reflexivity.
Qed.

Lemma zero_pin i p s : d_loaded (data_at i s) = true -> In 0 p -> fst (pin i p s) = Err EBadPath /\ f_files (snd (pin i p s)) = f_files s.
Proof. intros L Z0. unfold pin. cbv zeta. rewrite L. cbn [negb]. rewrite (zero_in p Z0). split; reflexivity. Qed.

(** Unloading a pinned program and unpinning it. *)
Lemma unload_round i p s u b : (i < length (f_progs s))%nat -> pin i p s = (Ok tt, u) -> hd false (f_fail u) = false ->
  let t := snd (fstep (FLoaded i b) u) in
  file_at p t = Some (FProg i) /\ exists v, unpin i t = (Ok tt, v) /\ f_files v = f_files s.
Proof.
  intros L E H. cbv zeta. pose proof (pin_round i p s u L E) as (At & _ & R). destruct (R H) as (v & U & Fv & _). clear R.
  apply pin_ok in E as (N & F & Ld & _ & P).
  cbn [fstep snd]. set (t := set_data i _ u). split; [exact At |].
  assert (Du : data_at i u = {| d_loaded := true; d_path := Some p |}).
  { unfold data_at. rewrite P, replace_nth, Nat.eqb_refl. apply Nat.ltb_lt in L. rewrite L. reflexivity. }
  assert (Dt : data_at i t = {| d_loaded := b; d_path := Some p |}).
  { unfold t. rewrite Du. rewrite data_set, Nat.eqb_refl. rewrite P, replace_length. apply Nat.ltb_lt in L. rewrite L. reflexivity. }
  revert U. unfold unpin. rewrite Du, Dt. cbn [d_path]. set (a := set_data i _ u). set (c := set_data i _ t).
  destruct (fs_ask a) as [f x] eqn:A. destruct (fs_ask c) as [g y] eqn:C.
  assert (Q : f = g). { unfold fs_ask, a, c, t in A, C. cbn [set_data f_fail] in A, C. destruct (f_fail u); congruence. }
  apply fs_ask_keeps in A as [A _]. apply fs_ask_keeps in C as [C _].
  change (f_files a) with (f_files u) in A. change (f_files c) with (f_files u) in C.
  rewrite (file_files x u p A), (file_files y u p C), At, <- Q. destruct f; [discriminate |].
  intro U. apply pair_equal_spec in U as [_ <-]. eexists. split; [reflexivity |]. cbn [set_files f_files] in *. rewrite C, <- A. exact Fv.
Qed.
