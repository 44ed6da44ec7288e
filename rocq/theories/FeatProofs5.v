(** The verifier's log and the probes of helpers. *)
From Coq Require Import String.
From Verif Require Import Base Text TextSplit Insn BtfModel BtfProofs BtfSanitize FeatModel FeatSpec FeatProofs FeatProofs2 FeatProofs3 FeatProofs4.
Import ListNotations.
Local Open Scope Z_scope.

Lemma contains_iff p l : contains p l = true <-> says p l.
Proof.
  split.
  - induction l as [|c l IH]; cbn [contains]; intros H.
    + apply orb_prop in H as [H|H]; [|discriminate H]. apply starts_with_iff in H as (b & H). exists [], b. exact H.
    + apply orb_prop in H as [H|H].
      * apply starts_with_iff in H as (b & H). exists [], b. exact H.
      * destruct (IH H) as (a & b & ->). now exists (c :: a), b.
  - intros (a & b & ->). induction a as [|c a IH].
    + cbn [app]. destruct p as [|x p]; cbn [app].
      * destruct b; reflexivity.
      * cbn [contains]. apply orb_true_iff. left. exact (starts_with_app (x :: p) b).
    + cbn [app contains]. apply orb_true_iff. right. exact IH.
Qed.
Lemma prefix_before p x m : ~ In 10 p -> starts_with p (x ++ 10 :: m) = true -> starts_with p x = true.
Proof.
  revert x. induction p as [|a p IH]; intros x N H; [destruct x; reflexivity|]. destruct x as [|b x]; cbn [app starts_with] in *.
  - apply andb_prop in H as [H _]. exfalso. apply N. left. lia.
  - apply andb_prop in H as [H1 H2]. rewrite H1. cbn [andb]. apply IH; [|exact H2]. intros I. apply N. now right.
Qed.
Lemma contains_line p l m : p <> [] -> ~ In 10 p -> contains p (l ++ 10 :: m) = contains p l || contains p m.
Proof.
  intros NE N. induction l as [|c l IH].
  - cbn [app contains]. assert (X : starts_with p (10 :: m) = false).
    { destruct p as [|a p]; [contradiction|]. cbn [starts_with]. destruct (Z.eqb_spec a 10) as [-> |]; [|reflexivity]. exfalso. apply N. now left. }
    rewrite X. destruct p; [contradiction|]. cbn [starts_with orb]. reflexivity.
  - cbn [app contains]. rewrite IH, orb_assoc. f_equal. f_equal.
    destruct (starts_with p (c :: l ++ 10 :: m)) eqn:S1.
    + symmetry. exact (prefix_before p (c :: l) m N S1).
    + destruct (starts_with p (c :: l)) eqn:S2; [|reflexivity]. apply starts_with_iff in S2 as (b & S2).
      rewrite <- S1. apply starts_with_iff. exists (b ++ 10 :: m). rewrite app_assoc, <- S2. reflexivity.
Qed.
Lemma contains_text p lines : p <> [] -> ~ In 10 p -> contains p (text lines) = existsb (contains p) lines.
Proof.
  intros NE N. induction lines as [|l lines IH].
  - cbn. destruct p; [contradiction|reflexivity].
  - unfold text in *. cbn [map concat existsb]. rewrite <- app_assoc. cbn [app]. rewrite contains_line by assumption. now rewrite IH.
Qed.
Definition noted (l : list Z) : bool := existsb (fun d => contains d l) diagnostics.
Lemma noted_iff l : noted l = true <-> no_helper l.
Proof.
  unfold noted, no_helper, diagnostics. cbn [existsb]. rewrite !orb_true_iff, !contains_iff. split; [intros [A|[A|[A|A]]]; auto; discriminate A|].
  intros [A|[A|A]]; auto.
Qed.
Lemma noted_text lines : noted (text lines) = existsb noted lines.
Proof.
  assert (G : forall d, In d diagnostics -> contains d (text lines) = existsb (contains d) lines).
  { intros d I. assert (N : d <> [] /\ ~ In 10 d).
    { destruct I as [<-|[<-|[<-|[]]]]; (split; [discriminate|]); vm_compute; intros X; repeat (destruct X as [X|X]; [discriminate X|]); destruct X. }
    now apply contains_text. }
  unfold noted, diagnostics in *. cbn [existsb In] in *. rewrite !G by auto. clear G.
  induction lines as [|l lines IH]; [reflexivity|]. cbn [existsb]. rewrite <- IH.
  repeat match goal with |- context [contains ?a ?b] => destruct (contains a b) end;
  repeat match goal with |- context [existsb ?a ?b] => destruct (existsb a b) end; reflexivity.
Qed.

Lemma text_app a b : text (a ++ b) = text a ++ text b.
Proof. unfold text. now rewrite map_app, concat_app. Qed.
Lemma text_nozero lines : Forall line lines -> ~ In 0 (text lines).
Proof.
  induction 1 as [|l lines L F IH]; [intros []|]. unfold text in *. cbn [map concat]. rewrite !in_app_iff. intros [[I|[I|[]]]|I]; [|discriminate I|now apply IH].
  unfold line in L. rewrite Forall_forall in L. now destruct (L 0 I).
Qed.

(** What the probe reads of a log. *)
Lemma log_read lines r n : at_off r 32 = Some (VRoom n) -> num r 24 = 1 -> num r 28 = n -> Forall line lines -> total lines <= n - 1 -> 0 < n ->
  cut (buffer (Z.to_nat n) (shown r lines)) = text lines.
Proof.
  intros A1 A2 A3 F T P. unfold shown. rewrite A1, A2, A3. cbn [Z.eqb]. rewrite Z.min_id.
  rewrite firstn_all2 by (unfold total in T; lia). unfold buffer. rewrite <- app_assoc. cbn [app].
  unfold cut. rewrite firstn_app. rewrite (firstn_all2 (text lines)) by (unfold total in T; lia).
  assert (X : exists q, firstn (Z.to_nat n - length (text lines)) (0 :: repeat 0 (Z.to_nat n)) = 0 :: q).
  { unfold total in T. destruct (Z.to_nat n - length (text lines))%nat eqn:Q; [lia|]. eexists. reflexivity. }
  destruct X as (q & ->). now rewrite until_nul_app by now apply text_nozero.
Qed.

Definition helper_insns (i : Z) : list insn := [new_insn CALL_CODE 0 0 0 i; new_insn EXIT 0 0 0 0].
Definition helper_request (E : env) (t : ptype) (i : Z) : request := prog_request E t (helper_insns i) ++ log_fields 4096.
Definition helper_failed (a : answer) (e : Z) : res perr bool :=
  match cut (buffer (Z.to_nat 4096) (a_log a)) with
  | [] => if (e =? EINVAL) || (e =? E2BIG) then Ok false else Err (PCall (txt "bpf_prog_load") e)
  | log => if noted log then Ok false else Ok true
  end.
Lemma is_helper_eq E K t i h : by_itself t = true ->
  is_helper_supported E K t i h =
  (let (a, h) := bpf_prog_load E K (helper_request E t i) h in
   match a_ret a with Err e => (helper_failed a e, h) | Ok fd => seq (close fd) (fun _ => ret (Ok true)) h end).
Proof.
  intros B. destruct t as [ | | | | | | | | | | | | | | | | | | | | | | | | | | | | | [] | | |]; try discriminate B;
    unfold is_helper_supported, seq at 1, helper_request, helper_insns;
    match goal with |- context [bpf_prog_load E K ?r h] => destruct (bpf_prog_load E K r h) as [a h'] end;
    (destruct (a_ret a); [reflexivity|]); unfold helper_failed, noted, ret; destruct (cut _); reflexivity.
Qed.

Lemma helper_logged E t i lines e h : Forall line lines -> total lines <= 4095 -> lines <> [] ->
  helper_failed (reject (helper_request E t i) lines e) h = Ok (negb (existsb noted lines)).
Proof.
  intros F T NE. unfold helper_failed. unfold reject, a_log.
  assert (RW : at_off (helper_request E t i) 32 = Some (VRoom 4096) /\ num (helper_request E t i) 24 = 1 /\ num (helper_request E t i) 28 = 4096).
  { unfold helper_request. rewrite prog_request_eq, log_fields_eq. unfold base, more_fields, attach_fields.
    destruct t as [ | | | | | | | | | | | | | | | | | | | | | | | | | | | | | [] | | |]; try (repeat split; reflexivity).
    destruct (e_version E); repeat split; reflexivity. }
  destruct RW as (R1 & R2 & R3). rewrite (log_read lines _ 4096 R1 R2 R3 F) by lia.
  rewrite <- noted_text. destruct (text lines) as [|c l] eqn:Q.
  - exfalso. destruct lines as [|x lines]; [contradiction|]. unfold text in Q. cbn in Q. destruct x; discriminate Q.
  - destruct (noted (c :: l)); reflexivity.
Qed.

Lemma trace_forall k i : sound_kern k -> Forall line (k_trace k i) /\ existsb noted (k_trace k i) = false /\ total (k_trace k i) <= 1000.
Proof.
  intros S. destruct (s_trace k S i) as [F T]. repeat split; [| |exact T].
  - eapply Forall_impl; [|exact F]. now intros ? [].
  - apply not_true_is_false. intros X. apply existsb_exists in X as (l & I & N). rewrite Forall_forall in F. destruct (F l I) as [_ NN].
    now apply NN, noted_iff.
Qed.
Lemma total_app a b : total (a ++ b) = total a + total b.
Proof. unfold total. rewrite text_app, app_length. lia. Qed.
Lemma stats_line : line stats /\ noted stats = false /\ total [stats] = 97.
Proof.
  split; [|split; vm_compute; reflexivity]. unfold line. apply Forall_forall. intros c I. vm_compute in I.
  repeat (destruct I as [<-|I]; [split; lia|]). destruct I.
Qed.

Lemma walk_helper k h t i : walk k h t true (helper_insns i) false false [] =
  let call := new_insn CALL_CODE 0 0 0 i in
  if negb (k_helper k t i) then Reject (k_trace k call ++ [k_diag k t i; stats]) 22
  else if k_args k i then Reject (k_trace k call ++ [txt "R1 !read_ok"; stats]) 13
  else Accept.
Proof.
  unfold helper_insns. cbn [walk new_insn Insn.code Insn.dst Insn.src Insn.off Insn.imm Z.eqb andb negb app]. rewrite !andb_false_r.
  destruct (k_helper k t i); [|reflexivity]. destruct (k_args k i); reflexivity.
Qed.

Theorem helper_settled E k t i h : sound_kern k -> t = PUnspecified \/ by_itself t = true -> (t = PKProbe -> version_known E k) ->
  settled E k (helper_supported k t i) (fst (is_helper_supported E (machine k) t i h)).
Proof.
  intros S [-> |B] V.
  { left. unfold helper_supported. cbn. destruct (k_helper k 0 i) eqn:H; [|reflexivity]. apply (s_helper k S) in H.
    rewrite (s_prog_zero k S) in H. discriminate H. }
  rewrite (is_helper_eq E (machine k) t i h B).
  destruct (bpf_prog_load E (machine k) (helper_request E t i) h) as [a h'] eqn:C.
  apply prog_load_spec in C as (h0 & SF & -> & [-> |(NC & e & TR & ->)]).
  2:{ cbn [fail a_ret fst]. destruct (trouble_plain k 5 e S TR) as (P1 & P2 & P3 & P4). unfold helper_failed.
      assert (X : cut (buffer (Z.to_nat 4096) (a_log (fail e))) = []) by (vm_compute; reflexivity). rewrite X.
      unfold EINVAL, E2BIG. destruct (Z.eqb_spec e 22); [contradiction|]. destruct (Z.eqb_spec e 7); [contradiction|].
      eapply wrong; [exact NC|exact TR|reflexivity]. }
  unfold helper_supported. destruct (k_prog k (number t)) eqn:K.
  2:{ assert (HN : k_helper k (number t) i = false).
      { destruct (k_helper k (number t) i) eqn:H; [|reflexivity]. apply (s_helper k S) in H. congruence. }
      rewrite HN.
      assert (TY : num (helper_request E t i) 0 = number t) by apply request_type. left.
      destruct (prog_unknown k h0 (helper_request E t i) (eq_trans (f_equal (k_prog k) TY) K)) as [-> | ->]; vm_compute; reflexivity. }
  assert (MV := by_itself_loads E k t (helper_insns i) (log_fields 4096) h0 2 S B K V eq_refl).
  cbv zeta in MV. fold (helper_request E t i) in MV. rewrite MV; clear MV.
  2:{ lia. }
  2:{ rewrite log_fields_eq. intros o s v I _. cbn [In] in I. destruct I as [I|[I|[I|[]]]]; apply pair_equal_spec in I as [I _]; apply pair_equal_spec in I as [<- <-]; lia. }
  2:{ intros o O. rewrite log_fields_eq. cbn [find fst]. repeat match goal with |- context [?x =? o] => destruct (Z.eqb_spec x o); [lia|] end. reflexivity. }
  rewrite walk_helper. cbv zeta.
  destruct (trace_forall k (new_insn CALL_CODE 0 0 0 i) S) as (T1 & T2 & T3). destruct (s_diag k S (number t) i) as (D1 & D2 & D3).
  destruct stats_line as (S1 & S2 & S3).
  destruct (k_helper k (number t) i); cbn [negb].
  - destruct (k_args k i).
    + unfold reject at 1. cbn [a_ret fst]. left. rewrite helper_logged.
      * rewrite existsb_app, T2. vm_compute. reflexivity.
      * apply Forall_app. split; [exact T1|]. constructor; [|now constructor].
        unfold line. apply Forall_forall. intros c I. vm_compute in I. repeat (destruct I as [<-|I]; [split; lia|]). destruct I.
      * rewrite total_app. assert (X : total [txt "R1 !read_ok"; stats] = 109) by (vm_compute; reflexivity). lia.
      * intros X. apply app_eq_nil in X as [_ X]. discriminate X.
    + left. reflexivity.
  - unfold reject at 1. cbn [a_ret fst]. left. rewrite helper_logged.
    + rewrite existsb_app, T2. cbn [existsb orb]. assert (X : noted (k_diag k (number t) i) = true) by now apply noted_iff. rewrite X. reflexivity.
    + apply Forall_app. split; [exact T1|]. constructor; [exact D1|now constructor].
    + rewrite total_app. change [k_diag k (number t) i; stats] with ([k_diag k (number t) i] ++ [stats]). rewrite total_app, S3.
      assert (X : total [k_diag k (number t) i] = Z.of_nat (length (k_diag k (number t) i)) + 1).
      { unfold total, text. cbn [map concat]. rewrite !app_length. cbn [length]. lia. }
      lia.
    + intros X. apply app_eq_nil in X as [_ X]. discriminate X.
Qed.
