(** Proofs about perf event requests. *)
From Coq Require Import String.
From Verif Require Import Base Text TextParse TextSplit EventModel EventSpec EventProofs.
Local Open Scope Z_scope.

Lemma rd_skip off len x rest : (length x <= off)%nat -> rd off len (x ++ rest) = rd (off - length x) len rest.
Proof. intros H. unfold rd, slice. rewrite skipn_app. rewrite (skipn_all2 x) by exact H. reflexivity. Qed.
Lemma rd_here len x rest : length x = len -> rd 0 len (x ++ rest) = le_dec x.
Proof. intros <-. unfold rd, slice. cbn [skipn]. now rewrite firstn_app_exact. Qed.
Ltac rds := unfold attr_bytes; cbn [at_type at_size at_config at_sample at_sample_type at_bits at_wakeup at_bp_type at_config1 at_config2];
  repeat (rewrite rd_skip by (rewrite ?le_enc_length; lia); rewrite ?le_enc_length; cbn [Nat.sub]); rewrite rd_here by (rewrite ?le_enc_length; reflexivity).
Section Attr.
  Variable a : attr.
  Hypothesis L : length (at_bits a) = 8%nat.
  Ltac one := unfold attr_bytes; repeat (rewrite rd_skip by (rewrite ?le_enc_length, ?L; lia); rewrite ?le_enc_length, ?L; cbn [Nat.sub]); rewrite rd_here by (rewrite ?le_enc_length, ?L; reflexivity).
  Lemma rd_type : rd 0 4 (attr_bytes a) = le_dec (le_enc 4 (at_type a)). Proof. one. reflexivity. Qed.
  Lemma rd_size : rd 4 4 (attr_bytes a) = le_dec (le_enc 4 (at_size a)). Proof. one. reflexivity. Qed.
  Lemma rd_config : rd 8 8 (attr_bytes a) = le_dec (le_enc 8 (at_config a)). Proof. one. reflexivity. Qed.
  Lemma rd_sample : rd 16 8 (attr_bytes a) = le_dec (le_enc 8 (at_sample a)). Proof. one. reflexivity. Qed.
  Lemma rd_stype : rd 24 8 (attr_bytes a) = le_dec (le_enc 8 (at_sample_type a)). Proof. one. reflexivity. Qed.
  Lemma rd_bits : rd 40 8 (attr_bytes a) = le_dec (at_bits a). Proof. one. reflexivity. Qed.
  Lemma rd_wakeup : rd 48 4 (attr_bytes a) = le_dec (le_enc 4 (at_wakeup a)). Proof. one. reflexivity. Qed.
  Lemma rd_bp : rd 52 4 (attr_bytes a) = le_dec (le_enc 4 (at_bp_type a)). Proof. one. reflexivity. Qed.
  Lemma rd_config1 : rd 56 8 (attr_bytes a) = le_dec (le_enc 8 (at_config1 a)). Proof. one. reflexivity. Qed.
  Lemma rd_config2 : rd 64 8 (attr_bytes a) = le_dec (le_enc 8 (at_config2 a)). Proof. one. reflexivity. Qed.
  Lemma attr_length : length (attr_bytes a) = 136%nat.
  Proof. unfold attr_bytes. rewrite !app_length, !le_enc_length, L, repeat_length. reflexivity. Qed.
End Attr.

Lemma dec4 x : 0 <= x < 2 ^ 32 -> le_dec (le_enc 4 x) = x.
Proof. intros. now apply le_dec_enc_small. Qed.
Lemma dec8 x : 0 <= x < 2 ^ 64 -> le_dec (le_enc 8 x) = x.
Proof. intros. now apply le_dec_enc_small. Qed.

(** The bits asked for. *)
Definition the_bits (bp inherit freq mark : bool) : list Z :=
  let bits := repeat 0 8 in
  let bits := if bp then bf_set false bits 15 2 2 else bits in
  let bits := bf_set false bits 1 1 (if inherit then 1 else 0) in
  let bits := if freq then bf_set false bits 10 1 1 else bits in
  if mark then bf_set false bits 14 1 1 else bits.
Lemma the_bits_spec bp inherit freq mark :
  length (the_bits bp inherit freq mark) = 8%nat /\
  le_dec (the_bits bp inherit freq mark) = (if bp then 2 ^ 16 else 0) + (if inherit then 2 else 0) + (if freq then 2 ^ 10 else 0) + (if mark then 2 ^ 14 else 0).
Proof. destruct bp, inherit, freq, mark; split; reflexivity. Qed.

Definition frequency (s : sample_policy) : bool := match s with Frequency _ => true | _ => false end.
Definition watermark (w : wakeup_policy) : bool := match w with Watermark _ => true | _ => false end.
Definition the_attr (c : event_config) (sample : sample_policy) (wakeup : wakeup_policy) (inherit : bool) : attr :=
  let b := match break_of c with Some b => b | None => (0, 0, 0) end in
  {| at_type := fst (config_of c); at_size := ATTR_SIZE; at_config := snd (config_of c); at_sample := match sample with Period n | Frequency n => n end;
     at_sample_type := PERF_SAMPLE_RAW; at_bits := the_bits (breakpoint c) inherit (frequency sample) (watermark wakeup);
     at_wakeup := match wakeup with Events n | Watermark n => n end; at_bp_type := fst (fst b); at_config1 := snd (fst b); at_config2 := snd b |}.
Lemma open_attr c s sample wakeup inherit flags :
  perf_event_open c s sample wakeup inherit flags =
  {| oc_attr := attr_bytes (the_attr c sample wakeup inherit); oc_pid := fst (scope_of s); oc_cpu := snd (scope_of s); oc_group := -1; oc_flags := flags |}.
Proof. destruct c, s, sample, wakeup; reflexivity. Qed.
Lemma the_attr_bits c sample wakeup inherit : length (at_bits (the_attr c sample wakeup inherit)) = 8%nat.
Proof. apply the_bits_spec. Qed.

Lemma open_event c s sample wakeup inherit flags : config_ok c ->
  k_event (oc_attr (perf_event_open c s sample wakeup inherit flags)) = wanted c.
Proof.
  intros C. rewrite open_attr. cbn [oc_attr]. pose proof (the_attr_bits c sample wakeup inherit) as L. unfold k_event.
  rewrite rd_type, rd_config, rd_bp, rd_config1, rd_config2 by exact L. unfold config_ok, u64_ok in C.
  destruct c as [e|e|id|e o r|id|t addr l|addr|ty config]; cbn [the_attr at_type at_config at_bp_type at_config1 at_config2 config_of break_of fst snd].
  - destruct e; reflexivity.
  - destruct e; reflexivity.
  - rewrite (dec8 id) by lia. reflexivity.
  - destruct e, o, r; reflexivity.
  - rewrite (dec8 id) by lia. reflexivity.
  - rewrite (dec8 addr) by lia. destruct t, l; reflexivity.
  - rewrite (dec8 addr) by lia. reflexivity.
  - rewrite (dec8 config), (dec4 ty) by lia. repeat match goal with |- context [ty =? ?n] => destruct (Z.eqb_spec ty n); [lia|] end. reflexivity.
Qed.

Lemma open_policy c s sample wakeup inherit flags : sample_ok sample -> match wakeup with Events n | Watermark n => 0 <= n < 2 ^ 32 end ->
  let b := oc_attr (perf_event_open c s sample wakeup inherit flags) in
  k_sampling b = sampling sample /\ k_wakeup b = match wakeup with Events n => KEvents n | Watermark n => KWatermark n end /\ k_inherit b = inherit /\
  k_precise b = (if breakpoint c then 2 else 0) /\ rd 24 8 b = 1024 /\ rd 4 4 b = 136 /\ length b = 136%nat.
Proof.
  intros S W. cbv zeta. rewrite open_attr. cbn [oc_attr]. pose proof (the_attr_bits c sample wakeup inherit) as L.
  unfold k_sampling, k_wakeup, k_inherit, k_precise. rewrite rd_bits, rd_sample, rd_wakeup, rd_stype, rd_size, attr_length by exact L.
  cbn [the_attr at_bits at_sample at_sample_type at_wakeup at_size]. rewrite (proj2 (the_bits_spec _ _ _ _)).
  unfold sample_ok, u64_ok in S. rewrite dec4 with (x := match wakeup with Events n | Watermark n => n end) by (destruct wakeup; lia).
  rewrite dec8 with (x := match sample with Period n | Frequency n => n end) by (destruct sample; lia).
  repeat split; destruct (breakpoint c), inherit, sample, wakeup; reflexivity.
Qed.

(** No other bit of the 64 is set. *)
Lemma open_bits c s sample wakeup inherit flags j : 0 <= j -> ~ In j [1; 10; 14; 15; 16] ->
  Z.testbit (rd 40 8 (oc_attr (perf_event_open c s sample wakeup inherit flags))) j = false.
Proof.
  intros J N. rewrite open_attr. cbn [oc_attr]. rewrite rd_bits by apply the_attr_bits. cbn [the_attr at_bits]. rewrite (proj2 (the_bits_spec _ _ _ _)).
  destruct (Z.lt_ge_cases j 17) as [H|H].
  - assert (j = 0 \/ j = 1 \/ j = 2 \/ j = 3 \/ j = 4 \/ j = 5 \/ j = 6 \/ j = 7 \/ j = 8 \/ j = 9 \/ j = 10 \/ j = 11 \/ j = 12 \/ j = 13 \/ j = 14 \/ j = 15 \/ j = 16) as D by lia.
    cbn in N. repeat (destruct D as [->|D]; [destruct (breakpoint c), inherit, (frequency sample), (watermark wakeup); solve [reflexivity|lia]|]).
    subst j. lia.
  - set (v := _ + _). assert (0 <= v < 2 ^ 17) by (unfold v; destruct (breakpoint c), inherit, (frequency sample), (watermark wakeup); cbn; lia).
    destruct (Z.eq_dec v 0) as [->|]; [apply Z.bits_0|]. apply Z.bits_above_log2; [lia|]. assert (Z.log2 v < 17) by (apply Z.log2_lt_pow2; lia). lia.
Qed.

Lemma i32_small n : 0 <= n < 2 ^ 31 -> i32 n = n.
Proof. intros H. unfold i32, swrap. rewrite Z.mod_small by (change (2 ^ 32) with (2 * 2 ^ 31); lia). cbv zeta. destruct (Z.ltb_spec n (2 ^ (32 - 1))); [reflexivity|]. change (32 - 1) with 31 in *. lia. Qed.
Lemma open_scope c s sample wakeup inherit flags : scope_ok s ->
  let call := perf_event_open c s sample wakeup inherit flags in k_scope (oc_pid call) (oc_cpu call) = in_scope s /\ oc_group call = -1 /\ oc_flags call = flags.
Proof.
  intros S. cbv zeta. rewrite open_attr. cbn [oc_pid oc_cpu oc_group oc_flags]. split; [|split; reflexivity]. unfold scope_ok, num_ok in S.
  assert (forall pid cpu, 0 <= pid < 2 ^ 31 -> match cpu with Some c => 0 <= c < 2 ^ 31 | None => True end ->
    k_scope pid (match cpu with Some c => i32 c | None => -1 end) = KScope (if pid =? 0 then None else Some pid) (pid =? 0) cpu) as G.
  { intros pid cpu P Q. unfold k_scope. destruct cpu as [n|].
    - rewrite i32_small by lia. replace (pid <? -1) with false by (symmetry; lia). replace (n <? -1) with false by (symmetry; lia). replace (pid =? -1) with false by (symmetry; lia).
      replace (n =? -1) with false by (symmetry; lia). reflexivity.
    - replace (pid <? -1) with false by (symmetry; lia). replace (pid =? -1) with false by (symmetry; lia). reflexivity. }
  destruct s as [cpu|pid cpu|cpu]; cbn [scope_of fst snd in_scope].
  - rewrite G; auto; lia.
  - destruct S as (P & NZ & Q). rewrite (i32_small pid) by lia. rewrite G; auto. destruct (Z.eqb_spec pid 0); [contradiction|reflexivity].
  - rewrite i32_small by lia. unfold k_scope. replace (cpu <? -1) with false by (symmetry; lia). replace (cpu =? -1) with false by (symmetry; lia). reflexivity.
Qed.
Lemma scope_wrong :
  (exists s : event_scope, s = OneProcess (2 ^ 32 - 1) (Some 3) /\ k_scope (fst (scope_of s)) (snd (scope_of s)) = in_scope (AllProcessesOneCpu 3)) /\
  (exists s, s = OneProcess 0 (Some 3) /\ k_scope (fst (scope_of s)) (snd (scope_of s)) = in_scope (CallingProcess (Some 3))) /\
  (exists s, s = CallingProcess (Some (2 ^ 32 - 1)) /\ k_scope (fst (scope_of s)) (snd (scope_of s)) = in_scope (CallingProcess None)).
Proof. repeat split; eexists; split; try reflexivity. Qed.

(** * Probes *)
Lemma dec_u32_dec n : 0 <= n < 2 ^ 32 -> dec_u32 (dec n) = Some n.
Proof. intros H. unfold dec_u32. apply parse_dec; lia. Qed.
Lemma dec_no_ws n : 0 <= n < 2 ^ 32 -> Forall (fun c => is_ws c = false) (dec n).
Proof.
  intros H. destruct (dec_spec n) as (_ & F & _); [split; [lia|]; eapply Z.lt_trans; [apply H|reflexivity]|]. eapply Forall_impl; [|exact F]. cbn. intros c D.
  unfold is_digit in D. unfold is_ws. apply andb_true_iff in D as [D1 D2]. apply Z.leb_le in D1, D2. lia.
Qed.
Lemma perf_type_file n : 0 <= n < 2 ^ 32 -> perf_type (type_file n) = Some n.
Proof.
  intros H. unfold perf_type, type_file. replace (dec n ++ [10]) with ([] ++ dec n ++ [10]) by reflexivity.
  rewrite trim_around; [now apply dec_u32_dec|constructor|repeat constructor|now apply dec_no_ws].
Qed.
Lemma ret_probe_file n : 0 <= n < 2 ^ 32 -> ret_probe_bit (retprobe_file n) = Some n.
Proof.
  intros H. unfold ret_probe_bit, retprobe_file. replace (txt "config:" ++ dec n ++ [10]) with ([] ++ (txt "config:" ++ dec n) ++ [10]) by now rewrite <- app_assoc.
  rewrite trim_around; [|constructor|repeat constructor|apply Forall_app; split; [repeat constructor|now apply dec_no_ws]]. now apply dec_u32_dec.
Qed.

Lemma open_probe_spec ty ret_bit name ptr offset pid call : 0 <= ty < 2 ^ 32 -> u64_ok ptr -> u64_ok offset ->
  match ret_bit with Some b => 0 <= b < 64 | None => True end ->
  open_probe ty ret_bit name ptr offset pid = Some call ->
  k_probe (match ret_bit with Some b => b | None => 0 end) (oc_attr call) = (ty, match ret_bit with Some _ => true | None => false end, ptr, offset) /\
  (forall j, 0 <= j -> ret_bit <> Some j -> Z.testbit (rd 8 8 (oc_attr call)) j = false) /\
  rd 40 8 (oc_attr call) = 0 /\ rd 4 4 (oc_attr call) = 136 /\ length (oc_attr call) = 136%nat /\ oc_group call = -1 /\ oc_flags call = 8.
Proof.
  intros T P O R H. unfold open_probe in H. destruct (existsb (Z.eqb 0) name); [discriminate H|].
  set (a := Build_attr _ _ _ _ _ _ _ _ _ _) in H. assert (oc_attr call = attr_bytes a /\ oc_group call = -1 /\ oc_flags call = 8) as (-> & -> & ->).
  { destruct pid; apply some_inj in H; subst call; repeat split. }
  assert (length (at_bits a) = 8%nat) as L by reflexivity. unfold k_probe. rewrite rd_type, rd_config, rd_config1, rd_config2, rd_bits, rd_size, attr_length by exact L.
  cbn [a at_type at_config at_config1 at_config2 at_bits at_size]. unfold u64_ok in *. rewrite (dec4 ty), (dec8 ptr), (dec8 offset) by lia.
  assert (le_dec (le_enc 8 match ret_bit with Some b => 2 ^ (b mod 64) | None => 0 end) = match ret_bit with Some b => 2 ^ b | None => 0 end) as ->.
  { destruct ret_bit as [b|]; [|reflexivity]. rewrite (Z.mod_small b 64) by lia. apply dec8. split; [apply Z.pow_nonneg; lia|apply Z.pow_lt_mono_r; lia]. }
  split; [|split; [|repeat split]].
  - destruct ret_bit as [b|]; [|reflexivity]. now rewrite Z.pow2_bits_true by lia.
  - intros j J N. destruct ret_bit as [b|]; [|apply Z.bits_0]. rewrite Z.pow2_bits_eqb by lia. apply Z.eqb_neq. congruence.
Qed.
Lemma open_probe_scope ty ret_bit name ptr offset pid call : match pid with Some p => num_ok p /\ p <> 0 | None => True end ->
  open_probe ty ret_bit name ptr offset pid = Some call ->
  k_scope (oc_pid call) (oc_cpu call) = match pid with Some p => KScope (Some p) false None | None => KScope None false (Some 0) end.
Proof.
  intros P H. unfold open_probe in H. destruct (existsb (Z.eqb 0) name); [discriminate H|]. destruct pid as [p|]; apply some_inj in H; subst call; [|reflexivity]. cbn [oc_pid oc_cpu].
  destruct P as [P N]. unfold num_ok in P. rewrite i32_small by lia. unfold k_scope. replace (p <? -1) with false by (symmetry; lia). replace (p =? -1) with false by (symmetry; lia).
  replace (p =? 0) with false by (symmetry; lia). reflexivity.
Qed.
Lemma open_probe_defined ty ret_bit name ptr offset pid : (exists call, open_probe ty ret_bit name ptr offset pid = Some call) <-> ~ In 0 name.
Proof.
  unfold open_probe. destruct (existsb (Z.eqb 0) name) eqn:E.
  - split; [intros [c H]; discriminate H|]. intros N. apply existsb_exists in E as (x & I & X). apply Z.eqb_eq in X. subst. contradiction.
  - split; [|intros _; destruct pid; eexists; reflexivity]. intros _ I. assert (existsb (Z.eqb 0) name = true) by (apply existsb_exists; exists 0; auto). congruence.
Qed.
Lemma trace_point_spec id pid : u64_ok id -> match pid with Some p => num_ok p /\ p <> 0 | None => True end ->
  let call := open_trace_point id pid in
  k_event (oc_attr call) = KTracepoint id /\ k_scope (oc_pid call) (oc_cpu call) = match pid with Some p => KScope (Some p) false None | None => KScope None false (Some 0) end /\
  oc_flags call = 8.
Proof.
  intros I P. cbv zeta. unfold open_trace_point. split; [now apply open_event|]. split; [|now rewrite open_attr].
  destruct pid as [p|].
  - assert (scope_ok (OneProcess p None)) as S by (cbn; tauto). exact (proj1 (open_scope _ _ _ _ _ _ S)).
  - assert (scope_ok (AllProcessesOneCpu 0)) as S by (cbn; unfold num_ok; lia). exact (proj1 (open_scope _ _ _ _ _ _ S)).
Qed.
