(** Descriptors are closed; the cached features. *)
From Coq Require Import String Permutation.
From Verif Require Import Base Text TextSplit Insn BtfModel BtfSanitize FeatModel FeatSpec FeatProofs FeatProofs2 FeatProofs3 FeatProofs4 FeatProofs5 FeatProofs6 FeatCacheModel FeatCacheSpec.
From Verif Require SysModel SysSpec SysProofs.
Import ListNotations.
Local Open Scope Z_scope.

(** * Descriptors *)

(** Descriptors held before and after. *)
Definition tidy {A} (held : list Z) (m : M A) (keep : A -> list Z) : Prop :=
  forall h, exists l, snd (m h) = l ++ h /\ Permutation (held ++ opened l) (keep (fst (m h)) ++ closed l).
Definition got (c : Z) (a : answer) : list Z := if c =? 15 then [] else match a_ret a with Ok fd => [fd] | Err _ => [] end.

Lemma opened_app a b : opened (a ++ b) = opened a ++ opened b.
Proof. unfold opened. now rewrite map_app, concat_app. Qed.
Lemma closed_app a b : closed (a ++ b) = closed a ++ closed b.
Proof. unfold closed. now rewrite map_app, concat_app. Qed.

Lemma tidy_ret {A} held (x : A) keep : keep x = held -> tidy held (ret x) keep.
Proof. intros K h. exists []. split; [reflexivity|]. cbn. now rewrite K. Qed.
Lemma tidy_close held fd : tidy (fd :: held) (close fd) (fun _ => held).
Proof.
  intros h. exists [Close fd]. split; [reflexivity|]. unfold opened, closed. cbn. rewrite app_nil_r. apply Permutation_cons_append.
Qed.
Lemma tidy_seq {A B} held (m : M A) (f : A -> M B) km kf :
  tidy held m km -> (forall x, tidy (km x) (f x) kf) -> tidy held (seq m f) kf.
Proof.
  intros T1 T2 h. destruct (T1 h) as (l1 & S1 & P1). unfold seq. destruct (m h) as [x h1]. cbn [fst snd] in *. subst h1.
  destruct (T2 x (l1 ++ h)) as (l2 & S2 & P2). exists (l2 ++ l1). split; [now rewrite S2, app_assoc|].
  rewrite opened_app, closed_app. clear S2.
  transitivity (opened l2 ++ (held ++ opened l1)).
  { rewrite !app_assoc. apply Permutation_app_tail. apply Permutation_app_comm. }
  rewrite P1, app_assoc. transitivity ((km x ++ opened l2) ++ closed l1).
  { apply Permutation_app_tail. apply Permutation_app_comm. }
  rewrite P2, app_assoc. reflexivity.
Qed.
Lemma tidy_syscall K held c r : tidy held (syscall K c r) (fun a => held ++ got c a).
Proof.
  intros h. exists [Call c r (K h c r)]. split; [reflexivity|]. unfold opened, closed, got. cbn.
  destruct (c =? 15); cbn; rewrite !app_nil_r; apply Permutation_refl.
Qed.
Lemma tidy_retried E K held errnos c r : tidy held (retried E K errnos c r) (fun a => held ++ got c a).
Proof.
  intros h. unfold retried, seq, syscall. cbv beta iota zeta. set (a := K h c r).
  assert (ONE : exists l, Call c r a :: h = l ++ h /\ Permutation (held ++ opened l) ((held ++ got c a) ++ closed l)).
  { exists [Call c r a]. split; [reflexivity|]. unfold opened, closed, got. cbn. rewrite !app_nil_r. destruct (c =? 15); reflexivity. }
  destruct (a_ret a) as [fd|e] eqn:A; [exact ONE|].
  destruct (e_old E && existsb (Z.eqb e) errnos); [|exact ONE]. unfold raise. cbn [fst snd].
  set (b := if existsb is_raise (Call c r a :: h) then Call c r a :: h else Raise :: Call c r a :: h).
  assert (B : exists l0, b = l0 ++ Call c r a :: h /\ opened l0 = [] /\ closed l0 = []).
  { unfold b. destruct (existsb is_raise _); [now exists []|now exists [Raise]]. }
  change (exists l, Call c r (K b c r) :: b = l ++ h /\ Permutation (held ++ opened l) ((held ++ got c (K b c r)) ++ closed l)).
  set (a2 := K b c r). clearbody a2 b.
  destruct B as (l0 & -> & O0 & C0). exists (Call c r a2 :: l0 ++ [Call c r a]). cbn [fst snd].
  split; [cbn [app]; now rewrite <- app_assoc|].
  change (Call c r a2 :: l0 ++ [Call c r a]) with ([Call c r a2] ++ l0 ++ [Call c r a]). rewrite !opened_app, !closed_app, O0, C0.
  unfold opened, closed, got. cbn. rewrite A. destruct (c =? 15); cbn; rewrite !app_nil_r; reflexivity.
Qed.
Lemma tidy_weaken {A} held (m : M A) k1 k2 : tidy held m k1 -> (forall h, k1 (fst (m h)) = k2 (fst (m h))) -> tidy held m k2.
Proof. intros T K h. destruct (T h) as (l & S1 & P). exists l. split; [exact S1|]. now rewrite <- K. Qed.

(** The probes keep nothing. *)
Definition none {A} : A -> list Z := fun _ => [].

Lemma tidy_drop {A} fd (x : A) held : tidy (fd :: held) (seq (close fd) (fun _ => ret x)) (fun _ => held).
Proof. eapply tidy_seq; [apply tidy_close|]. intros []. now apply tidy_ret. Qed.
(** What is done to a result by itself, then the program or map closed. *)
Lemma tidy_then fd held (m : M (res perr bool)) : tidy (fd :: held) m (fun _ => fd :: held) ->
  tidy (fd :: held) (seq m (fun r => seq (close fd) (fun _ => ret r))) (fun _ => held).
Proof. intros T. eapply tidy_seq; [exact T|]. intros x. apply tidy_drop. Qed.

Ltac tidy_call := eapply tidy_seq; [apply tidy_retried|]; let a := fresh "a" in intros a; unfold got; cbn [Z.eqb app];
  let fd := fresh "fd" in let e := fresh "e" in destruct (a_ret a) as [fd|e].

Lemma tidy_probe_result held (m : M answer) l : tidy held m (fun a => held ++ match a_ret a with Ok fd => [fd] | Err _ => [] end) ->
  tidy held (feature_probe_result m l) (fun _ => held).
Proof.
  intros T. unfold feature_probe_result. eapply tidy_seq; [exact T|]. intros a. cbv beta. destruct (a_ret a) as [fd|e].
  - intros h. destruct (tidy_drop fd (Ok true : res perr bool) held h) as (l1 & S1 & P1). exists l1. split; [exact S1|].
    rewrite <- P1. rewrite <- app_assoc. cbn [app]. symmetry. apply Permutation_middle.
  - rewrite app_nil_r. now apply tidy_ret.
Qed.

Lemma tidy_swap {A} held held' (m : M A) keep : Permutation held held' -> tidy held' m keep -> tidy held m keep.
Proof. intros P T h. destruct (T h) as (l & S1 & P1). exists l. split; [exact S1|]. rewrite <- P1. now apply Permutation_app_tail. Qed.

Lemma tidy_name E K : tidy [] (probe_bpf_name E K) none.
Proof. apply tidy_probe_result. exact (tidy_retried E K [] _ 5 _). Qed.
Lemma tidy_prog_id E K t : tidy [] (probe_prog_id E K t) none.
Proof. apply tidy_probe_result. exact (tidy_retried E K [] _ 0 _). Qed.
Lemma tidy_load_probe K b : tidy [] (load_probe K b) none.
Proof. apply tidy_probe_result. exact (tidy_syscall K [] 18 _). Qed.
Lemma tidy_perf_link E K : tidy [] (probe_perf_link E K) none.
Proof.
  unfold probe_perf_link. eapply tidy_seq; [apply (tidy_retried E K [] _ 5)|]. intros a. unfold got. cbn [Z.eqb app].
  destruct (a_ret a) as [fd|e]; [|now apply tidy_ret].
  eapply tidy_seq; [apply (tidy_retried E K [fd] _ 28)|]. intros a2. unfold got. cbn [Z.eqb app]. destruct (a_ret a2) as [l|e].
  - eapply tidy_swap; [apply perm_swap|]. eapply tidy_seq; [apply tidy_drop|]. intros x. apply tidy_drop.
  - cbn [app]. eapply tidy_then. now apply tidy_ret.
Qed.
Lemma tidy_global E K : tidy [] (probe_bpf_global_data E K) none.
Proof.
  unfold probe_bpf_global_data. eapply tidy_seq; [apply (tidy_retried E K [] _ 0)|]. intros a. unfold got. cbn [Z.eqb app].
  destruct (a_ret a) as [fd|e]; [|now apply tidy_ret].
  apply tidy_then. apply tidy_probe_result. exact (tidy_retried E K [fd] _ 5 _).
Qed.
Lemma tidy_helper E K t i : tidy [] (is_helper_supported E K t i) none.
Proof.
  assert (G : tidy [] (seq (bpf_prog_load E K (prog_request E t [new_insn CALL_CODE 0 0 0 i; new_insn EXIT 0 0 0 0] ++ log_fields 4096)) (fun a =>
      match a_ret a with
      | Ok fd => seq (close fd) (fun _ => ret (Ok true))
      | Err e =>
          let log := cut (buffer (Z.to_nat 4096) (a_log a)) in
          ret (match log with
               | [] => if (e =? EINVAL) || (e =? E2BIG) then Ok false else Err (PCall (txt "bpf_prog_load") e)
               | _ => if existsb (fun d => contains d log) diagnostics then Ok false else Ok true
               end)
      end)) none).
  { eapply tidy_seq; [apply (tidy_retried E K [] _ 5)|]. intros a. unfold got. cbn [Z.eqb app]. destruct (a_ret a) as [fd|e]; [apply tidy_drop|now apply tidy_ret]. }
  unfold is_helper_supported. destruct t; first [exact G | now apply tidy_ret].
Qed.
Lemma tidy_program E K t : tidy [] (is_program_supported E K t) none.
Proof.
  assert (D : t = PUnspecified \/ t <> PUnspecified) by (destruct t; ((left; reflexivity) || (right; discriminate))).
  destruct D as [-> |N]; [now apply tidy_ret|].
  assert (G : tidy [] (seq (bpf_prog_load E K (prog_probe_request E t)) (fun a => match a_ret a with Err e => ret (load_failed t a e) | Ok fd => then_tp K t fd end)) none).
  { eapply tidy_seq; [apply (tidy_retried E K [] _ 5)|]. intros a. unfold got. cbn [Z.eqb app]. destruct (a_ret a) as [fd|e]; [|now apply tidy_ret].
    unfold then_tp. destruct (starts_tp t); [|apply tidy_drop].
    eapply tidy_seq; [apply (tidy_syscall K [fd] 17)|]. intros a2. unfold got. cbn [Z.eqb app]. destruct (a_ret a2) as [l|e].
    - eapply tidy_swap; [apply perm_swap|]. eapply tidy_seq; [apply tidy_drop|]. intros x. apply tidy_drop.
    - eapply tidy_then. now apply tidy_ret. }
  intros h. specialize (G h). rewrite (is_program_eq E K t h N). unfold seq in G at 1 2.
  unfold seq in G. destruct (bpf_prog_load E K (prog_probe_request E t) h) as [a h1]. destruct (a_ret a); exact G.
Qed.
Lemma tidy_map_result held t a : tidy (held ++ got 0 a) (map_result t a) (fun _ => held).
Proof.
  unfold map_result, got. cbn [Z.eqb]. destruct (a_ret a) as [fd|e].
  - eapply tidy_swap; [|apply tidy_drop]. symmetry. apply Permutation_cons_append.
  - rewrite app_nil_r. now apply tidy_ret.
Qed.
Lemma tidy_map E K t : tidy [] (is_map_supported E K t) none.
Proof.
  unfold is_map_supported. destruct (map_shape E t) as [s|]; [|now apply tidy_ret]. destruct (is_of_maps t).
  - eapply tidy_seq; [apply (tidy_retried E K [] _ 0)|]. intros a. unfold got. cbn [Z.eqb app]. destruct (a_ret a) as [fd|e]; [|now apply tidy_ret].
    eapply tidy_seq; [apply (tidy_retried E K [fd] _ 0)|]. intros a2. eapply tidy_seq; [exact (tidy_map_result [fd] t a2)|]. intros x. apply tidy_drop.
  - eapply tidy_seq; [apply (tidy_retried E K [] _ 0)|]. intros a. exact (tidy_map_result [] t a).
Qed.
Lemma tidy_prog_info E K b : tidy [] (probe_prog_info E K b) none.
Proof.
  unfold probe_prog_info. eapply tidy_seq; [apply (tidy_retried E K [] _ 5)|]. intros a. unfold got. cbn [Z.eqb app].
  destruct (a_ret a) as [fd|e]; [|now apply tidy_ret].
  eapply tidy_seq; [apply (tidy_syscall K [fd] 15)|]. intros a2. unfold got. cbn [Z.eqb Pos.eqb app]. apply tidy_drop.
Qed.

Theorem all_tidy E K q h : exists l, snd (asked E K q h) = l ++ h /\ Permutation (opened l) (closed l).
Proof.
  assert (T : tidy [] (asked E K q) none).
  { destruct q; cbn [asked];
      [apply tidy_name|apply tidy_perf_link|apply tidy_global|apply tidy_prog_id|apply tidy_prog_id|apply tidy_load_probe|apply tidy_load_probe
      |apply tidy_helper|apply tidy_program|apply tidy_map|apply tidy_prog_info|apply tidy_prog_info]. }
  exact (T h).
Qed.

Theorem all_settled E k q h : sound_kern k -> askable E k q -> settled E k (right_answer k q) (fst (asked E (machine k) q h)).
Proof.
  intros S A. destruct q as [ | | | | | |f|t i|t|t| |]; cbn [asked right_answer askable] in *.
  - exact (name_settled E k h S).
  - exact (perf_link_settled E k h S).
  - exact (global_settled E k h S A).
  - apply (prog_id_settled E k 16 h S). now right.
  - apply (prog_id_settled E k 14 h S). now left.
  - exact (btf_settled E k h S).
  - exact (btf_feature_settled E k f h S).
  - destruct A as [A V]. apply (helper_settled E k t i h S); [|exact V]. destruct t; try discriminate A; auto.
  - apply (program_settled E k t h S); [intros -> |intros -> |intros (mac & ->)]; exact A.
  - destruct A as (A1 & A2 & A3 & A4). now apply map_settled.
  - exact (map_ids_settled E k h S A).
  - destruct A as [A1 A2]. exact (license_settled E k h S A1 A2).
Qed.
(** Types whose helpers cannot be asked for. *)
Theorem helper_refused E K t i h : helpers_known t = false -> is_helper_supported E K t i h = (Err PType, h).
Proof. destruct t; intros H; try discriminate H; reflexivity. Qed.

(** * The cached features *)

Lemma run_settled E k f h : sound_kern k -> version_known E k -> (e_names E = true -> 44 <= k_ends k 0) ->
  settled E k (has k f) (fst (run_probe E (machine k) (SysSpec.question f) h)).
Proof.
  intros S V N. destruct f; cbn [run_probe SysSpec.question has];
    [exact (name_settled E k h S)|apply (helper_settled E k PTracePoint 113 h S); [now right|intros X; discriminate X]
    |exact (perf_link_settled E k h S)|exact (global_settled E k h S N)|apply (helper_settled E k PKProbe 174 h S); [now right|intros _; exact V]
    |apply (prog_id_settled E k 16 h S); now right|apply (prog_id_settled E k 14 h S); now left|exact (btf_settled E k h S)
    |exact (btf_feature_settled E k _ h S)..].
Qed.
Lemma in_ran p v st : SysSpec.ran p st = [v] -> In (p, v) (SysModel.p_runs st).
Proof.
  unfold SysSpec.ran. intros H. assert (I : In v [v]) by now left. rewrite <- H in I. apply in_map_iff in I as ((q & w) & <- & I).
  apply filter_In in I as [I B]. cbn [fst snd] in *. apply SysModel.internal_probe_dec_bl in B. now subst q.
Qed.
Theorem cached_settled E k ask st t f a : sound_kern k -> version_known E k -> (e_names E = true -> 44 <= k_ends k 0) ->
  SysModel.psteps (SysModel.pstart ask) st -> honest E (machine k) st -> In (f, a) (SysModel.t_done (SysModel.p_threads st t)) ->
  a = has k f \/ (a = false /\ ~ clean E k /\ exists c e, trouble k c e /\ SysSpec.ran (SysSpec.question f) st = [Err e]).
Proof.
  intros S V N P H I. destruct (SysProofs.answer_of ask st t f a P I) as [R|(-> & e & R)].
  - destruct (H _ _ (in_ran _ _ _ R)) as (h & EQ). destruct (run_settled E k f h S V N) as [Q|(NC & c & e & TR & p & Q & O)]; rewrite Q in EQ; cbn in EQ.
    + left. now apply ok_inj in EQ.
    + destruct p; discriminate EQ.
  - destruct (H _ _ (in_ran _ _ _ R)) as (h & EQ). destruct (run_settled E k f h S V N) as [Q|(NC & c & e' & TR & p & Q & O)]; rewrite Q in EQ; cbn in EQ.
    + discriminate EQ.
    + right. split; [reflexivity|]. split; [exact NC|]. exists c, e'. split; [exact TR|]. rewrite R, EQ. destruct p; cbn in O; try discriminate O; apply some_inj in O; now subst.
Qed.
