(** C98. *)
From Coq Require Import String Permutation.
From Verif Require Import Base Text TextSplit Insn BtfModel BtfSanitize FeatModel FeatSpec FeatProofs6 FeatProofs7 FeatCacheModel FeatCacheSpec.
From Verif Require SysModel SysSpec.
Import ListNotations.
Local Open Scope Z_scope.

(** * C98: probes tell what the kernel has *)

(** Every probe of every kernel answers rightly, or fails with the error of a
    call that failed for reasons of its own; and it does not fail if there are
    no such reasons but the limit of locked memory. *)
Theorem C98_right_partial : forall E k q h, sound_kern k -> askable E k q -> settled E k (right_answer k q) (fst (asked E (machine k) q h)).
Proof. exact all_settled. Qed.
(** In particular an answer is never wrong, whatever fails. *)
Theorem C98_never_wrong_partial : forall E k q h b, sound_kern k -> askable E k q -> fst (asked E (machine k) q h) = Ok b -> b = right_answer k q.
Proof.
  intros E k q h b S A R. destruct (all_settled E k q h S A) as [Q|(_ & c & e & _ & p & Q & _)]; rewrite Q in R; [now apply ok_inj in R|discriminate R].
Qed.
Theorem C98_definite_partial : forall E k q h, sound_kern k -> askable E k q -> clean E k -> fst (asked E (machine k) q h) = Ok (right_answer k q).
Proof. intros E k q h S A C. destruct (all_settled E k q h S A) as [Q|(NC & _)]; [exact Q|contradiction]. Qed.
(** Helpers of programs that need a target cannot be asked for; nothing is
    loaded. *)
Theorem C98_refused : forall E K t i h, helpers_known t = false -> is_helper_supported E K t i h = (Err PType, h).
Proof. exact helper_refused. Qed.
(** Whatever the kernel answers, all descriptors got are closed, once. *)
Theorem C98_closed : forall E K q h, exists l, snd (asked E K q h) = l ++ h /\ Permutation (opened l) (closed l).
Proof. exact all_tidy. Qed.
(** The features the rest of the library asks for, with the caches of C50: the
    answer is right, or "no" after the probe failed for reasons of its own. *)
Theorem C98_cached_partial : forall E k ask st t f a, sound_kern k -> version_known E k -> (e_names E = true -> 44 <= k_ends k 0) ->
  SysModel.psteps (SysModel.pstart ask) st -> honest E (machine k) st -> In (f, a) (SysModel.t_done (SysModel.p_threads st t)) ->
  a = has k f \/ (a = false /\ ~ clean E k /\ exists c e, trouble k c e /\ SysSpec.ran (SysSpec.question f) st = [Err e]).
Proof. exact cached_settled. Qed.

(** * Kernels *)

(** A kernel with everything, but for the given fields. *)
Definition sample (arena : bool) (stack : Z) (version : option Z) (trampolines lsm : bool) (info : Z) (gpl : bool) (names : bool) (early late : history -> Z -> request -> option Z) : kern :=
  {| k_attr := 152;
     k_ends := fun c => match c with 0 => 72 | 5 => if names then 152 else 48 | 15 => if info =? 0 then 0 else 16 | 17 => 24 | 18 => 28 | 28 => 48 | _ => 0 end;
     k_early := early; k_late := late; k_fd := fun h => 3 + Z.of_nat (length h) mod 1000;
     k_map := fun t => (1 <=? t) && (t <=? 33); k_prog_values := fun t => (t =? 14) || (t =? 16) || (t =? 25); k_page := 4096; k_stack := stack;
     k_arena := arena; k_prog := fun t => (1 <=? t) && (t <=? if names then 32 else 15); k_version := version; k_sleepable := names; k_lsm_cgroup := lsm && names;
     k_funcs := fun i => i =? 7; k_trampolines := trampolines; k_helper := fun t i => (1 <=? t) && (t <=? if names then 32 else 15) && (i =? 14);
     k_args := fun i => negb (i =? 14); k_gpl_only := fun _ => false; k_diag := fun _ _ => txt "unknown func bpf_helper#999";
     k_trace := fun _ => [txt "0: (85) call bpf_helper#999"]; k_global := true; k_perf_link := names; k_btf := fun _ => true; k_info := info; k_gpl := gpl |}.
Definition nothing : history -> Z -> request -> option Z := fun _ _ _ => None.
Definition quiet_sample arena stack version trampolines lsm info gpl names := sample arena stack version trampolines lsm info gpl names nothing nothing.

Lemma sample_sound arena stack version trampolines lsm info gpl names early late :
  info mod 8 = 0 -> 0 <= info -> (gpl = true -> 88 <= info) ->
  (forall h c r e, early h c r = Some e -> plain_error e) -> (forall h c r e, late h c r = Some e -> plain_error e) ->
  sound_kern (sample arena stack version trampolines lsm info gpl names early late).
Proof.
  intros I1 I2 G Ea La.
  constructor; cbn [sample k_attr k_ends k_early k_late k_fd k_map k_prog_values k_page k_stack k_arena k_prog k_version k_sleepable k_lsm_cgroup k_funcs k_trampolines
      k_helper k_args k_gpl_only k_diag k_trace k_global k_perf_link k_btf k_info k_gpl]; try lia; try discriminate; try reflexivity; try assumption.
  - intros c. destruct names, (info =? 0);
      repeat match goal with |- match ?x with _ => _ end <= _ => destruct x; try lia end.
  - destruct names; lia.
  - split; [change (2 ^ 32) with 4294967296; lia|reflexivity].
  - destruct names; reflexivity.
  - intros _. destruct names; lia.
  - intros t I. destruct names; [lia|]. cbn [In] in I. intros X. exfalso. lia.
  - destruct names; [lia|]. intros [X|X]; discriminate X.
  - destruct names; [intros _; split; [lia|reflexivity]|intros X; discriminate X].
  - destruct names; [reflexivity|]. rewrite andb_false_r. intros X; discriminate X.
  - intros _ _. split; [|split; [right; left; now exists [], (txt "bpf_helper#999")|vm_compute; discriminate]].
    apply Forall_forall. intros c I. vm_compute in I. repeat (destruct I as [<-|I]; [split; discriminate|]). destruct I.
  - intros _. split; [|vm_compute; discriminate]. constructor; [|constructor]. split.
    + apply Forall_forall. intros c I. vm_compute in I. repeat (destruct I as [<-|I]; [split; discriminate|]). destruct I.
    + intros N. apply FeatProofs5.noted_iff in N. vm_compute in N. discriminate N.
  - intros ->. split; [reflexivity|lia].
  - destruct (Z.eqb_spec info 0); [now left|right; lia].
  - intros X. destruct (Z.eqb_spec info 0); lia.
Qed.
Lemma nothing_plain : forall h c r e, nothing h c r = Some e -> plain_error e.
Proof. intros h c r e H. discriminate H. Qed.
Lemma quiet_ok arena stack version trampolines lsm info gpl names : quiet (quiet_sample arena stack version trampolines lsm info gpl names).
Proof. intros h c r. now split. Qed.

Definition modern := quiet_sample true 127 None true true 232 true true.
Lemma modern_sound : sound_kern modern.
Proof. apply sample_sound; try exact nothing_plain; try reflexivity; try lia. Qed.
Definition here : env := {| e_old := false; e_names := true; e_page := 4096; e_version := Some 395008; e_btf_id := fun _ => 7 |}.
Definition lost : env := {| e_old := false; e_names := true; e_page := 4096; e_version := None; e_btf_id := fun _ => 0 |}.

(** Every question can be put to such a kernel. *)
Example C98_askable : forall q, match q with QHelper t _ => helpers_known t = true | QMap t => 0 <= t <= 33 | _ => True end -> askable here modern q.
Proof.
  assert (V : version_known here modern) by (intros v H; discriminate H).
  assert (N : forall n, ids_found here modern n) by (intros n; split; [discriminate|reflexivity]).
  intros [ | | | | | |f|t i|t|t| |] H; cbn [askable]; auto.
  - intros _. vm_compute. discriminate.
  - destruct t; auto.
  - split; [exact H|]. split; [reflexivity|]. split; [intros _; vm_compute; reflexivity|reflexivity].
  - vm_compute. discriminate.
  - split; [vm_compute; discriminate|]. intros X. discriminate X.
Qed.
Example C98_modern : fst (asked here (machine modern) (QProgram PTracing) []) = Ok true /\ fst (asked here (machine modern) (QMap 12) []) = Ok true /\
  fst (asked here (machine modern) (QHelper PXdp 14) []) = Ok true /\ fst (asked here (machine modern) (QHelper PXdp 15) []) = Ok false /\
  fst (asked here (machine modern) QPerfLink []) = Ok true /\ fst (asked here (machine modern) (QFeature FDeclTag) []) = Ok true.
Proof. repeat split; vm_compute; reflexivity. Qed.
(** Old kernels have fewer fields. *)
Definition dated := quiet_sample false 127 (Some 264960) false false 40 false false.
Example C98_dated : sound_kern dated /\ fst (asked here (machine dated) QName []) = Ok false /\ fst (asked here (machine dated) (QProgram PSkLookup) []) = Ok false /\
  fst (asked here (machine dated) QMapIds []) = Ok false /\ fst (asked here (machine dated) (QProgram PTracing) []) = Ok false.
Proof. split; [apply sample_sound; try exact nothing_plain; try reflexivity; try lia; try discriminate|]. repeat split; vm_compute; reflexivity. Qed.

(** The limit of locked memory is raised and the call repeated; lack of
    privileges is reported. *)
Definition locked : history -> Z -> request -> option Z :=
  fun h c _ => if ((c =? 0) || (c =? 5)) && negb (existsb is_raise h) then Some 1 else None.
Definition unprivileged : history -> Z -> request -> option Z := fun _ _ _ => Some 1.
Definition old_here : env := {| e_old := true; e_names := true; e_page := 4096; e_version := Some 395008; e_btf_id := fun _ => 7 |}.
Example C98_locked : let k := sample true 127 None true true 232 true true nothing locked in
  sound_kern k /\ clean old_here k /\ fst (asked old_here (machine k) (QMap 13) []) = Ok true /\ fst (asked here (machine k) (QMap 13) []) = Err (PCall (txt "bpf_map_create") 1).
Proof.
  cbv zeta. split; [|split; [|split; vm_compute; reflexivity]].
  - apply sample_sound; try exact nothing_plain; try reflexivity; try lia. intros h c r e H. unfold locked in H.
    destruct (((c =? 0) || (c =? 5)) && negb (existsb is_raise h)); [|discriminate H]. apply some_inj in H. subst e. unfold plain_error. lia.
  - right. split; [|reflexivity]. split; [reflexivity|]. intros h c r e H. cbn [sample k_late] in H. unfold locked in H.
    destruct (((c =? 0) || (c =? 5)) && negb (existsb is_raise h)) eqn:B; [|discriminate H]. apply some_inj in H. subst e.
    apply andb_prop in B as [B1 B2]. split; [lia|]. split; [reflexivity|]. intros I. apply negb_true_iff in B2.
    assert (X : existsb is_raise h = true) by (apply existsb_exists; exists Raise; split; [exact I|reflexivity]). congruence.
Qed.
Example C98_unprivileged : let k := sample true 127 None true true 232 true true unprivileged nothing in
  fst (asked here (machine k) QBtf []) = Err (POs 1) /\ fst (asked here (machine k) (QHelper PXdp 14) []) = Err (PCall (txt "bpf_prog_load") 1).
Proof. cbv zeta. split; vm_compute; reflexivity. Qed.

(** * Where the answers are not right *)

(** Arenas on a machine whose JIT lacks them: an error, not "no". *)
Theorem C98_arena_refuted : exists E k h, sound_kern k /\ quiet k /\ map_supported k 33 = false /\
  fst (is_map_supported E (machine k) 33 h) = Err (PCall (txt "bpf_map_create") 95).
Proof.
  exists here, (quiet_sample false 127 None true true 232 true true), []. split; [apply sample_sound; try exact nothing_plain; try reflexivity; try lia|].
  split; [apply quiet_ok|]. split; vm_compute; reflexivity.
Qed.
(** Stack traces when the administrator set their greatest depth to 0. *)
Theorem C98_stack_refuted : exists E k h, sound_kern k /\ quiet k /\ k_map k 7 = true /\ fst (is_map_supported E (machine k) 7 h) = Ok false.
Proof.
  exists here, (quiet_sample true 0 None true true 232 true true), []. split; [apply sample_sound; try exact nothing_plain; try reflexivity; try lia|].
  split; [apply quiet_ok|]. split; vm_compute; reflexivity.
Qed.
(** Kprobes, and helpers for them, on kernels that want their version named
    when it cannot be found out. *)
Theorem C98_version_refuted : exists E k h, sound_kern k /\ quiet k /\ prog_supported k PKProbe = true /\ k_helper k 2 14 = true /\
  fst (is_program_supported E (machine k) PKProbe h) = Ok false /\ fst (is_helper_supported E (machine k) PKProbe 14 h) = Ok false.
Proof.
  exists lost, (quiet_sample true 127 (Some 264960) true true 232 true true), []. split; [apply sample_sound; try exact nothing_plain; try reflexivity; try lia|].
  split; [apply quiet_ok|]. repeat split; vm_compute; reflexivity.
Qed.
(** Tracing and LSM programs on a kernel without trampolines when its BTF does
    not name the function. *)
Theorem C98_trampolines_refuted : exists E k h, sound_kern k /\ quiet k /\ prog_supported k PTracing = false /\
  fst (is_program_supported E (machine k) PTracing h) = Ok true /\ fst (is_program_supported E (machine k) (PLsm true) h) = Ok true.
Proof.
  exists lost, (quiet_sample true 127 None false true 232 true true), []. split; [apply sample_sound; try exact nothing_plain; try reflexivity; try lia|].
  split; [apply quiet_ok|]. repeat split; vm_compute; reflexivity.
Qed.
(** LSM programs for cgroups, likewise, on a kernel that has only the others. *)
Theorem C98_lsm_refuted : exists E k h, sound_kern k /\ quiet k /\ prog_supported k (PLsm false) = false /\
  fst (is_program_supported E (machine k) (PLsm false) h) = Ok true.
Proof.
  exists lost, (quiet_sample true 127 None true false 232 true true), []. split; [apply sample_sound; try exact nothing_plain; try reflexivity; try lia|].
  split; [apply quiet_ok|]. split; vm_compute; reflexivity.
Qed.
(** The license: kernels 4.16 and 4.17 have padding where it is. *)
Theorem C98_license_refuted : exists E k h, sound_kern k /\ quiet k /\ k_gpl k = false /\ fst (is_prog_info_license_supported E (machine k) h) = Ok true.
Proof.
  exists here, (quiet_sample true 127 None true true 104 false true), []. split; [apply sample_sound; try exact nothing_plain; try reflexivity; try lia; try discriminate|].
  split; [apply quiet_ok|]. split; vm_compute; reflexivity.
Qed.
(** The information: kernels before 4.13 have none, which is an error. *)
Theorem C98_info_refuted : exists E k h, sound_kern k /\ quiet k /\ map_ids_supported k = false /\
  fst (is_prog_info_map_ids_supported E (machine k) h) = Err (PCall (txt "bpf_obj_get_info_by_fd") 22).
Proof.
  exists here, (quiet_sample true 127 None true true 0 false true), []. split; [apply sample_sound; try exact nothing_plain; try reflexivity; try lia; try discriminate|].
  split; [apply quiet_ok|]. split; vm_compute; reflexivity.
Qed.

Print Assumptions C98_right_partial.
Print Assumptions C98_never_wrong_partial.
Print Assumptions C98_definite_partial.
Print Assumptions C98_refused.
Print Assumptions C98_closed.
Print Assumptions C98_cached_partial.
Print Assumptions C98_arena_refuted.
Print Assumptions C98_stack_refuted.
Print Assumptions C98_version_refuted.
Print Assumptions C98_trampolines_refuted.
Print Assumptions C98_lsm_refuted.
Print Assumptions C98_license_refuted.
Print Assumptions C98_info_refuted.
