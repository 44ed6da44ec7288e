(** Running the tests. *)
From Coq Require Import String.
From Verif Require Import Base Text TextParse LogModel TextSplit KmodModel KmodProofs KmodProofs2 VmModel VmSpec.
Local Open Scope Z_scope.

(** * Lines *)

Lemma onlcr_line l : ~ In 10 l -> onlcr l = l.
Proof.
  induction l as [|c l IH]; intros N; [reflexivity|]. cbn [onlcr flat_map]. destruct (Z.eqb_spec c 10) as [-> |_]; [destruct N; left; reflexivity|].
  cbn [app]. f_equal. apply IH. intros I. apply N. right. exact I.
Qed.
Lemma onlcr_app a b : onlcr (a ++ b) = onlcr a ++ onlcr b.
Proof. apply flat_map_app. Qed.
Lemma lines_text_app a b : lines_text (a ++ b) = lines_text a ++ lines_text b.
Proof. apply flat_map_app. Qed.
Lemma serial_lines ls : Forall (fun l => ~ In 10 l) ls -> buf_lines [] (onlcr (lines_text ls)) = ls.
Proof.
  induction 1 as [|l ls Hl _ IH]; [reflexivity|]. cbn [lines_text flat_map]. fold (lines_text ls). rewrite !onlcr_app, (onlcr_line l Hl). change (onlcr [10]) with [13; 10].
  replace ((l ++ [13; 10]) ++ onlcr (lines_text ls)) with ((l ++ [13]) ++ 10 :: onlcr (lines_text ls)) by (rewrite <- !app_assoc; reflexivity).
  rewrite buf_lines_one. 2:{ intros I. apply in_app_iff in I as [I|[I|[]]]; [contradiction|discriminate I]. }
  rewrite app_nil_r, rev_app_distr, IH. cbn. rewrite rev_involutive. reflexivity.
Qed.
(** Not through the serial line: a carriage return at the end goes. *)
Lemma utf8_no_cr l : utf8 (l ++ [13]) = true -> utf8 l = true.
Proof. intros H. destruct (LogFmtProofs.utf8_split (length l) l [13] (Nat.le_refl _) H) as (A & _); [|exact A]. right. exists 13, []. split; [reflexivity|]. lia. Qed.

Lemma strip_cr_utf8 l : utf8 l = true -> utf8 (rev (strip_cr (rev l))) = true.
Proof.
  intros H. destruct (rev l) as [|c r] eqn:E; [reflexivity|]. cbn [strip_cr]. rewrite <- E. destruct (Z.eqb_spec c 13) as [-> |_].
  - apply utf8_no_cr. apply (f_equal (@rev Z)) in E. rewrite rev_involutive in E. cbn [rev] in E. rewrite <- E. exact H.
  - rewrite rev_involutive. exact H.
Qed.
Lemma quiet_utf8 s : quiet s -> Forall (fun l => utf8 l = true) (buf_lines [] s).
Proof.
  intros (ls & -> & F). induction F as [|l ls (N & U & _) _ IH]; [constructor|]. cbn [lines_text flat_map]. fold (lines_text ls). rewrite <- app_assoc. cbn [app].
  rewrite (buf_lines_one l [] (lines_text ls) N), app_nil_r. constructor; [apply strip_cr_utf8; exact U|exact IH].
Qed.
Lemma quiet_app a b : quiet a -> quiet b -> quiet (a ++ b).
Proof. intros (la & -> & A) (lb & -> & B). exists (la ++ lb). rewrite lines_text_app. split; [reflexivity|]. apply Forall_app. auto. Qed.
Lemma quiet_line l : plain_line l -> quiet (l ++ [10]).
Proof. intros H. exists [l]. cbn [lines_text flat_map]. rewrite app_nil_r. split; [reflexivity|]. constructor; [exact H|constructor]. Qed.
Lemma quiet_nil : quiet [].
Proof. exists []. split; [reflexivity|constructor]. Qed.

(** * Verdicts *)

Lemma verdicts_plain ls : Forall plain_line ls -> verdicts ls = [].
Proof.
  induction 1 as [|l ls (_ & _ & N) _ IH]; [reflexivity|]. unfold verdicts in *. cbn [filter]. destruct (starts_with (txt "init: ") l) eqn:E; [|exact IH].
  apply starts_with_iff in E. destruct N. exact E.
Qed.
Lemma verdicts_app a b : verdicts (a ++ b) = verdicts a ++ verdicts b.
Proof. apply filter_app. Qed.
Definition verdict_text (b : bool) : str := if b then txt "init: success" else txt "init: failure".
Lemma watch_ok lines : forall counts o o', snd (watch counts o lines) = Ok o' <->
  Forall (fun l => utf8 l = true) lines /\
  match o with
  | Some b => verdicts lines = [] /\ o' = Some b
  | None => (verdicts lines = [] /\ o' = None) \/ exists b, verdicts lines = [verdict_text b] /\ o' = Some b
  end.
Proof.
  induction lines as [|l lines IH]; intros counts o o'; cbn [watch].
  - cbn [snd verdicts filter]. split.
    + intros E. apply ok_inj in E. subst o'. split; [constructor|]. destruct o; auto.
    + intros (_ & H). destruct o as [b|]; [destruct H as (_ & ->); reflexivity|]. destruct H as [(_ & ->)|(b & X & _)]; [reflexivity|discriminate X].
  - destruct (utf8 l) eqn:U; cbn [negb].
    2:{ cbn [snd]. split; [discriminate|]. intros (F & _). pose proof (Forall_inv F) as X. cbn beta in X. rewrite U in X. discriminate X. }
    assert (FU : Forall (fun l => utf8 l = true) (l :: lines) <-> Forall (fun l => utf8 l = true) lines).
    { split; [intros F; exact (Forall_inv_tail F)|intros F; constructor; assumption]. }
    destruct (note_line markers counts l) as (counts', stop). rewrite FU. clear FU.
    destruct (strip_prefix (txt "init: ") l) as [r|] eqn:S.
    + apply strip_prefix_iff in S.
      assert (V : verdicts (l :: lines) = l :: verdicts lines). { unfold verdicts. cbn [filter]. rewrite S at 1. rewrite starts_with_app. reflexivity. }
      rewrite V. destruct (str_eqb r (txt "success")) eqn:Es.
      { apply str_eqb_eq in Es. rewrite Es in S. destruct o as [b|].
        - cbn [snd]. split; [discriminate|]. intros (_ & X & _). discriminate X.
        - specialize (IH counts' (Some true) o'). destruct (watch counts' (Some true) lines) as (n, w). cbn [snd] in IH |- *. rewrite IH. split.
          + intros (F & X & ->). split; [exact F|]. right. exists true. rewrite X, S. split; reflexivity.
          + intros (F & [(X & _)|(b & X & ->)]); [discriminate X|]. apply cons_inj in X as (X1 & X2). split; [exact F|]. split; [exact X2|].
            destruct b; [reflexivity|]. rewrite S in X1. discriminate X1. }
      destruct (str_eqb r (txt "failure")) eqn:Ef.
      { apply str_eqb_eq in Ef. rewrite Ef in S. destruct o as [b|].
        - cbn [snd]. split; [discriminate|]. intros (_ & X & _). discriminate X.
        - specialize (IH counts' (Some false) o'). destruct (watch counts' (Some false) lines) as (n, w). cbn [snd] in IH |- *. rewrite IH. split.
          + intros (F & X & ->). split; [exact F|]. right. exists false. rewrite X, S. split; reflexivity.
          + intros (F & [(X & _)|(b & X & ->)]); [discriminate X|]. apply cons_inj in X as (X1 & X2). split; [exact F|]. split; [exact X2|].
            destruct b; [rewrite S in X1; discriminate X1|reflexivity]. }
      cbn [snd]. split; [discriminate|]. intros (_ & X). exfalso. destruct o as [b|]; [destruct X as (X & _); discriminate X|].
      destruct X as [(X & _)|(b & X & _)]; [discriminate X|]. apply cons_inj in X as (X & _). rewrite S in X.
      destruct b; cbn [verdict_text] in X.
      * change (txt "init: success") with (txt "init: " ++ txt "success") in X. apply app_inv_head in X. subst r. rewrite (proj2 (str_eqb_eq _ _) eq_refl) in Es. discriminate Es.
      * change (txt "init: failure") with (txt "init: " ++ txt "failure") in X. apply app_inv_head in X. subst r. rewrite (proj2 (str_eqb_eq _ _) eq_refl) in Ef. discriminate Ef.
    + assert (V : verdicts (l :: lines) = verdicts lines).
      { unfold verdicts. cbn [filter]. destruct (starts_with (txt "init: ") l) eqn:E; [|reflexivity]. apply starts_with_iff in E as (r & ->).
        exfalso. apply (proj1 (strip_prefix_none _ _) S r). reflexivity. }
      rewrite V. specialize (IH counts' o o'). destruct (watch counts' o lines) as (n, w). cbn [snd] in IH |- *. exact IH.
Qed.
Lemma stderr_ok lines : forall counts, snd (watch_stderr counts lines) = true <-> Forall (fun l => utf8 l = true) lines.
Proof.
  induction lines as [|l lines IH]; intros counts; cbn [watch_stderr]; [split; [constructor|reflexivity]|]. destruct (utf8 l) eqn:U; cbn [negb].
  - destruct (note_line markers counts l) as (c, stop). specialize (IH c). destruct (watch_stderr c lines) as (n, r). cbn [snd] in IH |- *. rewrite IH.
    split; [intros F; constructor; assumption|intros F; exact (Forall_inv_tail F)].
  - cbn [snd]. split; [discriminate|]. intros F. pose proof (Forall_inv F) as X. cbn beta in X. congruence.
Qed.
Lemma run_vm_ok v b : run_vm v = Ok b <-> vm_verdict v [verdict_text b].
Proof.
  unfold run_vm, vm_verdict, fine_vm. pose proof (watch_ok (buf_lines [] (v_stdout v)) no_counts None) as W. destruct (snd (watch no_counts None (buf_lines [] (v_stdout v)))) as [o|e]; cbn [bind].
  - destruct (proj1 (W o) eq_refl) as (F & V). pose proof (stderr_ok (buf_lines [] (v_stderr v)) no_counts) as SE. destruct (snd (watch_stderr no_counts (buf_lines [] (v_stderr v)))); cbn [negb].
    2:{ split; [discriminate|]. intros ((_ & X & _) & _). apply SE in X. discriminate X. }
    pose proof (proj1 SE eq_refl) as FE. destruct (v_status v) as [c|]; cbn [code_ok].
    2:{ split; [discriminate|]. intros ((_ & _ & X) & _). discriminate X. }
    destruct (Z.eqb_spec c 0) as [-> |Nc]; cbn [negb].
    2:{ split; [discriminate|]. intros ((_ & _ & X) & _). apply some_inj in X. contradiction. }
    destruct V as [(V & ->)|(b' & V & ->)].
    + rewrite V. split; [discriminate|]. intros (_ & X). discriminate X.
    + rewrite V. split.
      * intros E. apply ok_inj in E. subst b'. auto.
      * intros (_ & X). destruct b, b'; try reflexivity; discriminate X.
  - split; [discriminate|]. intros ((F & _ & _) & V). exfalso. assert (@Err verr (option bool) e = Ok (Some b)) as X; [|discriminate X].
    apply W. split; [exact F|]. right. exists b. auto.
Qed.

(** * All machines *)

Fixpoint positions (k : nat) (l : list bool) : list nat := match l with [] => [] | b :: l => if b then positions (S k) l else k :: positions (S k) l end.
Lemma vms_step l : forall k errors bs, Forall2 (fun v b => run_vm v = Ok b) l bs ->
  run_vms k errors l = match errors ++ positions k bs with [] => Done | x => Failed x end.
Proof.
  induction l as [|v l IH]; intros k errors bs F; inversion F as [|v' b l' bs' Hv Hl]; subst; cbn [run_vms positions].
  - rewrite app_nil_r. destruct errors; reflexivity.
  - rewrite Hv. destruct b; rewrite (IH (S k) _ _ Hl); [reflexivity|]. rewrite <- app_assoc. reflexivity.
Qed.
Lemma vms_not_stopped l : forall k errors, (forall j e, run_vms k errors l <> Stopped j e) -> exists bs, Forall2 (fun v b => run_vm v = Ok b) l bs.
Proof.
  induction l as [|v l IH]; intros k errors H; [exists []; constructor|]. cbn [run_vms] in H. destruct (run_vm v) as [b|e] eqn:E.
  - destruct b.
    + destruct (IH (S k) errors H) as (bs & F). exists (true :: bs). constructor; assumption.
    + destruct (IH (S k) (errors ++ [k]) H) as (bs & F). exists (false :: bs). constructor; assumption.
  - exfalso. exact (H k e eq_refl).
Qed.
Lemma positions_nil bs : forall k, positions k bs = [] <-> Forall (fun b => b = true) bs.
Proof.
  induction bs as [|b bs IH]; intros k; cbn [positions]; [split; [constructor|reflexivity]|]. destruct b.
  - rewrite IH. split; [intros F; constructor; [reflexivity|exact F]|intros F; exact (Forall_inv_tail F)].
  - split; [discriminate|]. intros F. pose proof (Forall_inv F) as X. discriminate X.
Qed.
Lemma positions_in bs : forall k j, In j (positions k bs) <-> exists i, j = (k + i)%nat /\ nth_error bs i = Some false.
Proof.
  induction bs as [|b bs IH]; intros k j; cbn [positions].
  - split; [intros []|]. intros (i & _ & X). destruct i; discriminate X.
  - assert (T : In j (positions (S k) bs) <-> exists i, j = (k + S i)%nat /\ nth_error (b :: bs) (S i) = Some false).
    { rewrite IH. cbn [nth_error]. split; intros (i & A & B); exists i; (split; [lia|exact B]). }
    destruct b.
    + rewrite T. split; [intros (i & A & B); exists (S i); auto|]. intros (i & A & B). destruct i as [|i]; [discriminate B|]. exists i. auto.
    + cbn [In]. rewrite T. split.
      * intros [<-|(i & A & B)]; [exists 0%nat; split; [lia|reflexivity]|exists (S i); auto].
      * intros (i & A & B). destruct i as [|i]; [left; lia|right; exists i; auto].
Qed.
Lemma vms_done l : run_vms 0 [] l = Done <-> Forall (fun v => run_vm v = Ok true) l.
Proof.
  split.
  - intros H. destruct (vms_not_stopped l 0%nat []) as (bs & F); [rewrite H; discriminate|]. rewrite (vms_step l 0%nat [] bs F) in H. cbn [app] in H.
    destruct (positions 0 bs) eqn:P; [|discriminate H]. apply positions_nil in P. clear H. induction F as [|v b l bs Hv _ IH]; [constructor|].
    pose proof (Forall_inv P) as X. cbn beta in X. subst b. constructor; [exact Hv|exact (IH (Forall_inv_tail P))].
  - intros F. assert (G : Forall2 (fun v b => run_vm v = Ok b) l (map (fun _ => true) l)) by (induction F; cbn; constructor; auto).
    rewrite (vms_step l 0%nat [] _ G). cbn [app]. replace (positions 0 (map (fun _ => true) l)) with (@nil nat); [reflexivity|].
    symmetry. apply positions_nil. apply Forall_forall. intros b I. apply in_map_iff in I as (x & <- & _). reflexivity.
Qed.
Lemma vms_failed l bad : run_vms 0 [] l = Failed bad <-> bad <> [] /\ exists bs, Forall2 (fun v b => run_vm v = Ok b) l bs /\ bad = positions 0 bs.
Proof.
  split.
  - intros H. destruct (vms_not_stopped l 0%nat []) as (bs & F); [rewrite H; discriminate|]. rewrite (vms_step l 0%nat [] bs F) in H. cbn [app] in H.
    destruct (positions 0 bs) as [|x r] eqn:P; [discriminate H|]. injection H as <-. split; [discriminate|]. exists bs. rewrite P. auto.
  - intros (N & bs & F & ->). rewrite (vms_step l 0%nat [] bs F). cbn [app]. destruct (positions 0 bs); [contradiction|reflexivity].
Qed.
