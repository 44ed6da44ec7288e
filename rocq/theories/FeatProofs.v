(** Calls of the kernel by the probes. *)
From Coq Require Import String.
From Verif Require Import Base Text TextSplit Insn BtfSanitize FeatModel FeatSpec.
Import ListNotations.
Local Open Scope Z_scope.

Definition calm (k : kern) : kern :=
  {| k_attr := k_attr k; k_ends := k_ends k; k_early := fun _ _ _ => None; k_late := fun _ _ _ => None; k_fd := k_fd k; k_map := k_map k;
     k_prog_values := k_prog_values k; k_page := k_page k; k_stack := k_stack k; k_arena := k_arena k; k_prog := k_prog k;
     k_version := k_version k; k_sleepable := k_sleepable k; k_lsm_cgroup := k_lsm_cgroup k; k_funcs := k_funcs k;
     k_trampolines := k_trampolines k; k_helper := k_helper k; k_args := k_args k; k_gpl_only := k_gpl_only k; k_diag := k_diag k;
     k_trace := k_trace k; k_global := k_global k; k_perf_link := k_perf_link k; k_btf := k_btf k; k_info := k_info k; k_gpl := k_gpl k |}.

Lemma sizes_calm k t a b c : sizes_ok (calm k) t a b c = sizes_ok k t a b c.
Proof. reflexivity. Qed.
Lemma walk_calm k h t g is : forall r0 r1 said, walk (calm k) h t g is r0 r1 said = walk k h t g is r0 r1 said.
Proof.
  assert (G : forall n is r0 r1 said, (length is <= n)%nat -> walk (calm k) h t g is r0 r1 said = walk k h t g is r0 r1 said).
  { clear is. induction n as [|n IH]; intros [|i is] r0 r1 said L; cbn [length] in L; try reflexivity; try lia.
    cbn [walk calm k_trace k_helper k_gpl_only k_args k_diag k_global].
    repeat match goal with
    | |- (match ?x with _ => _ end) = _ => destruct x; try reflexivity
    end; try (apply IH; cbn [length] in *; lia). }
  intros. apply (G (length is)). lia.
Qed.
Lemma verify_calm k h r : verify (calm k) h r = verify k h r.
Proof.
  unfold verify. cbn [calm k_funcs k_lsm_cgroup].
  repeat match goal with |- (if ?x then _ else _) = _ => destruct x; try reflexivity end.
  destruct (at_off r 8) as [[]|]; try reflexivity. now rewrite walk_calm.
Qed.

Definition troubled (k : kern) (h : history) (c : Z) (r : request) (e : Z) : Prop := k_early k h c r = Some e \/ k_late k h c r = Some e.

Lemma machine_calm k h c r :
  machine k h c r = machine (calm k) h c r \/ exists e, troubled k h c r e /\ machine k h c r = fail e.
Proof.
  unfold machine. cbn [calm k_early k_attr k_ends].
  destruct (k_early k h c r) as [e|] eqn:Q. { right. exists e. split; [now left|reflexivity]. }
  destruct (beyond r (k_attr k)); [now left|]. destruct (k_ends k c =? 0); [now left|]. destruct (beyond r (k_ends k c)); [now left|].
  assert (G : forall c', c = c' -> forall e, k_late k h c' r = Some e -> troubled k h c r e) by (intros ? -> ? ?; now right).
  destruct (Z.eq_dec c 0) as [->|N0].
  { cbv beta iota. unfold create. cbn [calm k_map k_arena k_late k_fd]. rewrite sizes_calm.
    destruct (negb (k_map k (num r 0))); [now left|].
    destruct (negb _); [now left|]. destruct ((num r 0 =? 33) && _); [now left|].
    destruct (k_late k h 0 r) as [e|] eqn:L; [right; exists e; split; [now apply (G 0)|reflexivity]|now left]. }
  destruct (Z.eq_dec c 5) as [->|N5].
  { cbv beta iota. unfold load. cbn [calm k_sleepable k_version k_prog k_late].
    repeat match goal with |- (if ?x then _ else _) = _ \/ _ => destruct x; [now left|] end.
    destruct (k_late k h 5 r) as [e|] eqn:L; [right; exists e; split; [now apply (G 5)|reflexivity]|].
    left. now rewrite verify_calm. }
  destruct (Z.eq_dec c 15) as [->|N15].
  { cbv beta iota. unfold get_info. cbn [calm k_late k_info].
    destruct (open_as 5 h (num r 0)); [|now left]. destruct (at_off r 8) as [[]|]; try (now left).
    destruct (k_late k h 15 r) as [e|] eqn:L; [right; exists e; split; [now apply (G 15)|reflexivity]|now left]. }
  destruct (Z.eq_dec c 17) as [->|N17].
  { cbv beta iota. unfold open_tp. cbn [calm k_late k_trampolines k_fd].
    destruct (open_as 5 h (num r 8)); [|now left]. destruct (_ || _); [|now left]. destruct (negb _); [now left|].
    destruct (k_late k h 17 r) as [e|] eqn:L; [right; exists e; split; [now apply (G 17)|reflexivity]|now left]. }
  destruct (Z.eq_dec c 18) as [->|N18].
  { cbv beta iota. unfold load_btf. cbn [calm k_late k_btf k_fd].
    destruct (at_off r 0) as [[]|]; try (now left). destruct (negb _); [now left|].
    destruct (k_late k h 18 r) as [e|] eqn:L; [right; exists e; split; [now apply (G 18)|reflexivity]|now left]. }
  destruct (Z.eq_dec c 28) as [->|N28].
  { cbv beta iota. unfold link. cbn [calm k_late k_perf_link k_fd].
    destruct (open_as 5 h (num r 0)); [|now left]. destruct (negb _); [now left|].
    destruct (k_late k h 28 r) as [e|] eqn:L; [right; exists e; split; [now apply (G 28)|reflexivity]|now left]. }
  left. destruct c as [|p|p]; try reflexivity; try lia.
  do 5 (destruct p as [p|p|]; try reflexivity; try lia).
Qed.

(** * Calls *)

Definition answered (E : env) (k : kern) (h0 : history) (c : Z) (r : request) (a : answer) : Prop :=
  a = machine (calm k) h0 c r \/ (~ clean E k /\ exists e, trouble k c e /\ a = fail e).
Definition same_fds (h h0 : history) : Prop := forall fd, made h0 fd = made h fd.

Lemma syscall_spec E k c r h a h' : c <> 0 -> c <> 5 -> syscall (machine k) c r h = (a, h') ->
  h' = Call c r a :: h /\ answered E k h c r a.
Proof.
  intros N0 N5 H. apply pair_equal_spec in H as [<- <-]. split; [reflexivity|].
  destruct (machine_calm k h c r) as [EQ|(e & T & EQ)]; [now left|]. right. split.
  - intros [Q|[[Q1 Q2] _]].
    + destruct (Q h c r) as [Q1 Q2], T as [T|T]; congruence.
    + destruct T as [T|T]; [rewrite Q1 in T; discriminate T|]. destruct (Q2 _ _ _ _ T) as [[] _]; contradiction.
  - exists e. split; [exists h, r; exact T|exact EQ].
Qed.

Lemma retried_spec E k errnos c r h a h' : In 1 errnos -> retried E (machine k) errnos c r h = (a, h') ->
  exists h0, same_fds h h0 /\ h' = Call c r a :: h0 /\ answered E k h0 c r a.
Proof.
  intros I H. unfold retried, seq, syscall in H.
  assert (D : forall h0, (forall e, troubled k h0 c r e -> machine k h0 c r = fail e -> clean E k -> e_old E = true -> e = 1 -> ~ In Raise h0 -> False) ->
              answered E k h0 c r (machine k h0 c r)).
  { intros h0 R. destruct (machine_calm k h0 c r) as [EQ|(e & T & EQ)]; [now left|]. right. split.
    - intros Cl. pose proof Cl as [Q|[[Q1 Q2] O]].
      + destruct (Q h0 c r) as [Q1 Q2], T as [T|T]; congruence.
      + pose proof T as T0. destruct T as [T|T]; [rewrite Q1 in T; discriminate T|]. destruct (Q2 _ _ _ _ T) as (_ & E1 & NI).
        exact (R e T0 EQ Cl O E1 NI).
    - exists e. split; [exists h0, r; exact T|exact EQ]. }
  destruct (a_ret (machine k h c r)) as [fd|e] eqn:A.
  - apply pair_equal_spec in H as [<- <-]. exists h. split; [now intros ?|]. split; [reflexivity|]. apply D.
    intros e T EQ _ _ _ _. rewrite EQ in A. discriminate A.
  - destruct (e_old E && existsb (Z.eqb e) errnos) eqn:B.
    + unfold raise in H. set (h1 := Call c r (machine k h c r) :: h) in *.
      set (h2 := if existsb is_raise h1 then h1 else Raise :: h1) in *.
      apply pair_equal_spec in H as [<- <-]. exists h2. split.
      { intros fd. unfold h2. destruct (existsb is_raise h1); cbn [made]; unfold h1; cbn [made]; now rewrite A. }
      split; [reflexivity|]. apply D. intros e' _ _ _ _ _ NI. apply NI. unfold h2.
      destruct (existsb is_raise h1) eqn:X; [|now left].
      apply existsb_exists in X as (x & X1 & X2). destruct x; try discriminate X2. exact X1.
    + apply pair_equal_spec in H as [<- <-]. exists h. split; [now intros ?|]. split; [reflexivity|]. apply D.
      intros e' T EQ _ O -> _. rewrite EQ in A. cbn in A. assert (e = 1) by congruence. subst e. rewrite O in B. cbn [andb] in B.
      assert (X : existsb (Z.eqb 1) errnos = true) by (apply existsb_exists; exists 1; split; [exact I|reflexivity]). congruence.
Qed.

(** * Requests *)

Lemma beyond_false r n : (forall o s v, In (o, s, v) r -> nonzero v = true -> o + s <= n) -> beyond r n = false.
Proof.
  intros H. unfold beyond. apply not_true_is_false. intros B. apply existsb_exists in B as (((o & s) & v) & I & B). cbn [fst snd] in B.
  apply andb_prop in B as [B1 B2]. specialize (H _ _ _ I B2). lia.
Qed.
Lemma beyond_true r n : (exists o s v, In (o, s, v) r /\ nonzero v = true /\ n < o + s) -> beyond r n = true.
Proof.
  intros (o & s & v & I & B & L). unfold beyond. apply existsb_exists. exists (o, s, v). split; [exact I|]. cbn [fst snd]. rewrite B. lia.
Qed.
Lemma beyond_le r n m : n <= m -> beyond r n = false -> beyond r m = false.
Proof.
  intros L H. apply not_true_is_false. intros B. apply existsb_exists in B as (((o & s) & v) & I & B). cbn [fst snd] in B.
  apply andb_prop in B as [B1 B2]. assert (X : beyond r n = true) by (apply beyond_true; exists o, s, v; repeat split; [exact I|exact B2|lia]). congruence.
Qed.

Lemma machine_in k h c r : sound_kern k -> k_ends k c <> 0 -> beyond r (k_ends k c) = false ->
  machine (calm k) h c r =
  match c with
  | 0 => create (calm k) h r | 5 => load (calm k) h r | 15 => get_info (calm k) h r | 17 => open_tp (calm k) h r
  | 18 => load_btf (calm k) h r | 28 => link (calm k) h r | _ => fail 22
  end.
Proof.
  intros S N B. unfold machine. cbn [calm k_early k_attr k_ends]. rewrite (beyond_le _ _ _ (s_attr k S c) B), B.
  destruct (Z.eqb_spec (k_ends k c) 0); [contradiction|reflexivity].
Qed.
Lemma machine_out k h c r : beyond r (k_attr k) = false -> k_ends k c = 0 -> machine (calm k) h c r = fail 22.
Proof. intros B N. unfold machine. cbn [calm k_early k_attr k_ends]. now rewrite B, N. Qed.
Lemma machine_off k h c r : beyond r (k_ends k c) = true -> machine (calm k) h c r = fail 7 \/ machine (calm k) h c r = fail 22.
Proof.
  intros B. unfold machine. cbn [calm k_early k_attr k_ends]. destruct (beyond r (k_attr k)); [now left|]. destruct (k_ends k c =? 0); [now right|].
  rewrite B. now right.
Qed.
Lemma attr_40 k : sound_kern k -> 40 <= k_attr k.
Proof. intros S. pose proof (s_prog_end k S). pose proof (s_attr k S 5). lia. Qed.

Lemma made_call h c r a fd : a_ret a = Ok fd -> c <> 15 -> made (Call c r a :: h) fd = Some (c, r).
Proof. intros A N. cbn [made]. rewrite A, Z.eqb_refl. destruct (Z.eqb_spec c 15); [contradiction|reflexivity]. Qed.
Lemma made_open h h0 c r a fd : a_ret a = Ok fd -> 0 <= fd < 2 ^ 31 -> c <> 15 -> same_fds (Call c r a :: h) h0 ->
  open_as c h0 fd = Some r.
Proof.
  intros A F N S. unfold open_as. destruct (Z.ltb_spec fd (2 ^ 31)); [|lia]. rewrite S, (made_call h c r a fd A N). now rewrite Z.eqb_refl.
Qed.
Lemma u32_fd fd : 0 <= fd < 2 ^ 31 -> u32 fd = fd.
Proof. intros F. unfold u32, wrap. rewrite Z.mod_small; [reflexivity|]. change (2 ^ 31) with 2147483648 in F. change (2 ^ 32) with 4294967296. lia. Qed.

Lemma set_map_type v : set ["map_type"]%string v = [(0, 4, v)].
Proof. vm_compute. reflexivity. Qed.
Lemma set_key_size v : set ["key_size"]%string v = [(4, 4, v)].
Proof. vm_compute. reflexivity. Qed.
Lemma set_value_size v : set ["value_size"]%string v = [(8, 4, v)].
Proof. vm_compute. reflexivity. Qed.
Lemma set_max_entries v : set ["max_entries"]%string v = [(12, 4, v)].
Proof. vm_compute. reflexivity. Qed.
Lemma set_map_flags v : set ["map_flags"]%string v = [(16, 4, v)].
Proof. vm_compute. reflexivity. Qed.
Lemma set_inner_map_fd v : set ["inner_map_fd"]%string v = [(20, 4, v)].
Proof. vm_compute. reflexivity. Qed.
Lemma set_map_name v : set ["map_name"]%string v = [(28, 16, v)].
Proof. vm_compute. reflexivity. Qed.
Lemma set_btf_fd v : set ["btf_fd"]%string v = [(48, 4, v)].
Proof. vm_compute. reflexivity. Qed.
Lemma set_btf_key_type_id v : set ["btf_key_type_id"]%string v = [(52, 4, v)].
Proof. vm_compute. reflexivity. Qed.
Lemma set_btf_value_type_id v : set ["btf_value_type_id"]%string v = [(56, 4, v)].
Proof. vm_compute. reflexivity. Qed.
Lemma set_btf_vmlinux_value_type_id v : set ["btf_vmlinux_value_type_id"]%string v = [(60, 4, v)].
Proof. vm_compute. reflexivity. Qed.
Lemma set_map_extra v : set ["map_extra"]%string v = [(64, 8, v)].
Proof. vm_compute. reflexivity. Qed.
Lemma set_prog_type v : set ["prog_type"]%string v = [(0, 4, v)].
Proof. vm_compute. reflexivity. Qed.
Lemma set_insn_cnt v : set ["insn_cnt"]%string v = [(4, 4, v)].
Proof. vm_compute. reflexivity. Qed.
Lemma set_insns v : set ["insns"]%string v = [(8, 8, v)].
Proof. vm_compute. reflexivity. Qed.
Lemma set_license v : set ["license"]%string v = [(16, 8, v)].
Proof. vm_compute. reflexivity. Qed.
Lemma set_log_level v : set ["log_level"]%string v = [(24, 4, v)].
Proof. vm_compute. reflexivity. Qed.
Lemma set_log_size v : set ["log_size"]%string v = [(28, 4, v)].
Proof. vm_compute. reflexivity. Qed.
Lemma set_log_buf v : set ["log_buf"]%string v = [(32, 8, v)].
Proof. vm_compute. reflexivity. Qed.
Lemma set_kern_version v : set ["kern_version"]%string v = [(40, 4, v)].
Proof. vm_compute. reflexivity. Qed.
Lemma set_prog_flags v : set ["prog_flags"]%string v = [(44, 4, v)].
Proof. vm_compute. reflexivity. Qed.
Lemma set_prog_name v : set ["prog_name"]%string v = [(48, 16, v)].
Proof. vm_compute. reflexivity. Qed.
Lemma set_expected_attach_type v : set ["expected_attach_type"]%string v = [(68, 4, v)].
Proof. vm_compute. reflexivity. Qed.
Lemma set_attach_btf_id v : set ["attach_btf_id"]%string v = [(108, 4, v)].
Proof. vm_compute. reflexivity. Qed.
Lemma set_btf v : set ["btf"]%string v = [(0, 8, v)].
Proof. vm_compute. reflexivity. Qed.
Lemma set_btf_size v : set ["btf_size"]%string v = [(16, 4, v)].
Proof. vm_compute. reflexivity. Qed.
Lemma set_link_create_prog_fd v : set ["link_create"; "prog_fd"]%string v = [(0, 4, v)].
Proof. vm_compute. reflexivity. Qed.
Lemma set_link_create_target_ifindex v : set ["link_create"; "target_ifindex"]%string v = [(4, 4, v)].
Proof. vm_compute. reflexivity. Qed.
Lemma set_link_create_attach_type v : set ["link_create"; "attach_type"]%string v = [(8, 4, v)].
Proof. vm_compute. reflexivity. Qed.
Lemma set_link_create_flags v : set ["link_create"; "flags"]%string v = [(12, 4, v)].
Proof. vm_compute. reflexivity. Qed.
Lemma set_raw_tracepoint_name v : set ["raw_tracepoint"; "name"]%string v = [(0, 8, v)].
Proof. vm_compute. reflexivity. Qed.
Lemma set_raw_tracepoint_prog_fd v : set ["raw_tracepoint"; "prog_fd"]%string v = [(8, 4, v)].
Proof. vm_compute. reflexivity. Qed.
Lemma set_info_bpf_fd v : set ["info"; "bpf_fd"]%string v = [(0, 4, v)].
Proof. vm_compute. reflexivity. Qed.
Lemma set_info_info_len v : set ["info"; "info_len"]%string v = [(4, 4, v)].
Proof. vm_compute. reflexivity. Qed.
Lemma set_info_info v : set ["info"; "info"]%string v = [(8, 8, v)].
Proof. vm_compute. reflexivity. Qed.
#[export] Hint Rewrite set_map_type set_key_size set_value_size set_max_entries set_map_flags set_inner_map_fd set_map_name set_btf_fd set_btf_key_type_id set_btf_value_type_id set_btf_vmlinux_value_type_id set_map_extra set_prog_type set_insn_cnt set_insns set_license set_log_level set_log_size set_log_buf set_kern_version set_prog_flags set_prog_name set_expected_attach_type set_attach_btf_id set_btf set_btf_size set_link_create_prog_fd set_link_create_target_ifindex set_link_create_attach_type set_link_create_flags set_raw_tracepoint_name set_raw_tracepoint_prog_fd set_info_bpf_fd set_info_info_len set_info_info : sets.
