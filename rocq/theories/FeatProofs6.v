(** The probes of the remaining features. *)
From Coq Require Import String.
From Verif Require Import Base Text TextSplit Insn BtfModel BtfProofs BtfSanitize FeatModel FeatSpec FeatProofs FeatProofs2 FeatProofs3 FeatProofs4.
Import ListNotations.
Local Open Scope Z_scope.

Lemma trivial_loads E k t h : sound_kern k -> by_itself t = true -> k_prog k (number t) = true -> (t = PKProbe -> version_known E k) ->
  machine (calm k) h 5 (prog_request E t trivial) = fd_answer k h (shown (prog_request E t trivial) [stats]).
Proof.
  intros S B K V. pose proof (by_itself_loads E k t trivial [] h 2 S B K V eq_refl) as H. rewrite app_nil_r in H. cbv zeta in H.
  rewrite H; [reflexivity|lia|intros ? ? ? []|reflexivity].
Qed.

(** * Names *)

Definition name_request : request := [(16, 8, VStr (txt "GPL")); (4, 4, VNum 2); (8, 8, VInsns trivial); (0, 4, VNum 1)] ++ [(48, 16, VText (txt "aya_name_check"))].
Lemma name_request_eq E : prog_request E PSocketFilter trivial ++ set ["prog_name"]%string (VText (firstn 15 (txt "aya_name_check"))) = name_request.
Proof. reflexivity. Qed.

Lemma probe_result_settled E k (right : bool) (m : M answer) (unsupported : list Z) h c a h' : sound_kern k -> m h = (a, h') ->
  (exists fd, a_ret a = Ok fd /\ right = true) \/ (exists e, a_ret a = Err e /\ In e unsupported /\ right = false) \/
  (~ clean E k /\ exists e, trouble k c e /\ a = fail e /\ ~ In e unsupported) ->
  settled E k right (fst (feature_probe_result m unsupported h)).
Proof.
  intros S Me H. unfold feature_probe_result, seq at 1. rewrite Me. destruct H as [(fd & A & ->)|[(e & A & I & ->)|(NC & e & T & -> & NI)]].
  - rewrite A. now left.
  - rewrite A. left. cbn. assert (X : existsb (Z.eqb e) unsupported = true) by (apply existsb_exists; exists e; split; [exact I|apply Z.eqb_refl]).
    now rewrite X.
  - cbn. assert (X : existsb (Z.eqb e) unsupported = false).
    { apply not_true_is_false. intros X. apply existsb_exists in X as (x & X1 & X2). apply NI. assert (e = x) by lia. now subst x. }
    rewrite X. eapply wrong; [exact NC|exact T|reflexivity].
Qed.
Lemma plain_not_in e l : plain_error e -> incl l [22; 7; 9; 524] -> ~ In e l.
Proof. intros (P1 & P2 & P3 & P4) I X. apply I in X. cbn [In] in X. lia. Qed.

Theorem name_settled E k h : sound_kern k -> settled E k (name_supported k) (fst (probe_bpf_name E (machine k) h)).
Proof.
  intros S. unfold probe_bpf_name. rewrite name_request_eq.
  destruct (bpf_prog_load E (machine k) name_request h) as [a h'] eqn:C.
  eapply (probe_result_settled E k _ _ _ _ 5 a h' S C).
  apply prog_load_spec in C as (h0 & SF & -> & [-> |(NC & e & TR & ->)]).
  2:{ right. right. split; [exact NC|]. exists e. split; [exact TR|]. split; [reflexivity|].
      apply plain_not_in; [exact (trouble_plain k 5 e S TR)|]. intros x I. unfold EINVAL, E2BIG in I. cbn [In] in *. lia. }
  unfold name_supported. destruct (Z.leb_spec 64 (k_ends k 5)) as [L|L].
  - left. exists (k_fd k h0). split; [|reflexivity].
    rewrite (prog_known k h0 name_request S); [reflexivity|exact (s_socket k S)| |left; reflexivity|intros X; discriminate X|reflexivity|left; reflexivity].
    unfold name_request. small_beyond.
  - right. left. assert (B : beyond name_request (k_ends k 5) = true).
    { apply beyond_true. exists 48, 16, (VText (txt "aya_name_check")). split; [|split; [reflexivity|lia]]. unfold name_request. apply in_or_app. right. now left. }
    destruct (machine_off k h0 5 name_request B) as [-> | ->]; [exists 7|exists 22]; (split; [reflexivity|split; [|reflexivity]]); cbn; auto.
Qed.

(** * Links of perf events *)

Definition link_request (fd : Z) : request := [(0, 4, VNum fd); (4, 4, VNum (2 ^ 32 - 1)); (8, 4, VNum 41); (12, 4, VNum 0)].
Theorem perf_link_settled E k h : sound_kern k -> settled E k (k_perf_link k) (fst (probe_perf_link E (machine k) h)).
Proof.
  intros S. unfold probe_perf_link, seq at 1.
  destruct (bpf_prog_load E (machine k) (prog_request E PTracePoint trivial) h) as [a h'] eqn:C.
  apply prog_load_spec in C as (h0 & SF & -> & [-> |(NC & e & TR & ->)]).
  2:{ destruct (trouble_plain k 5 e S TR) as (P1 & P2 & P3 & P4). cbn [fail a_ret fst ret]. unfold EINVAL, E2BIG.
      destruct (Z.eqb_spec e 22); [contradiction|]. destruct (Z.eqb_spec e 7); [contradiction|]. eapply wrong; [exact NC|exact TR|reflexivity]. }
  destruct (k_prog k 5) eqn:K.
  2:{ assert (X : k_perf_link k = false) by (destruct (k_perf_link k) eqn:Q; [|reflexivity]; apply (s_perf_link k S) in Q as [Q _]; congruence).
      rewrite X. left. assert (TY : num (prog_request E PTracePoint trivial) 0 = 5) by reflexivity.
      destruct (prog_unknown k h0 _ (eq_trans (f_equal (k_prog k) TY) K)) as [-> | ->]; reflexivity. }
  rewrite (trivial_loads E k PTracePoint h0 S eq_refl K) by (intros X; discriminate X).
  set (a := fd_answer k h0 _). cbn [a fd_answer a_ret]. pose proof (s_fd k S h0) as FD. rewrite (u32_fd _ FD). autorewrite with sets.
  change ([(0, 4, VNum (k_fd k h0))] ++ [(4, 4, VNum (2 ^ 32 - 1))] ++ [(8, 4, VNum 41)] ++ [(12, 4, VNum 0)]) with (link_request (k_fd k h0)).
  set (rq := link_request (k_fd k h0)).
  unfold seq at 1. destruct (bpf_link_create E (machine k) rq _) as [a2 h2] eqn:C2.
  unfold bpf_link_create in C2. apply retried_spec in C2; [|now left]. destruct C2 as (h3 & SF3 & -> & [-> |(NC & e & TR & ->)]).
  2:{ destruct (trouble_plain k _ e S TR) as (P1 & P2 & P3 & P4). unfold seq, EBADF, EINVAL. cbn.
      destruct (Z.eqb_spec e 9); [contradiction|]. destruct (Z.eqb_spec e 22); [contradiction|]. eapply wrong; [exact NC|exact TR|reflexivity]. }
  unfold LINK_CREATE. assert (N5 : 5 <> 15) by lia.
  pose proof (made_open h0 h3 5 _ a (k_fd k h0) eq_refl FD N5 SF3) as OP.
  assert (B40 : beyond rq (k_attr k) = false) by (pose proof (attr_40 k S); unfold rq, link_request; small_beyond).
  destruct (k_perf_link k) eqn:PL.
  - pose proof (s_perf_link k S PL) as [_ L]. assert (EQ : machine (calm k) h3 28 rq = fail 9).
    { rewrite (machine_in k h3 28 rq S); [|lia|unfold rq, link_request; small_beyond]. cbv beta iota. unfold link.
      cbn [calm k_perf_link k_late rq link_request num at_off find fst snd Z.eqb Pos.eqb option_map]. rewrite OP, PL. reflexivity. }
    rewrite EQ. now left.
  - assert (EQ : machine (calm k) h3 28 rq = fail 22).
    { unfold machine. cbn [calm k_early k_attr k_ends]. rewrite B40. destruct (k_ends k 28 =? 0); [reflexivity|]. destruct (beyond rq (k_ends k 28)); [reflexivity|].
      unfold link. cbn [calm k_perf_link k_late rq link_request num at_off find fst snd Z.eqb Pos.eqb option_map]. rewrite OP, PL. reflexivity. }
    rewrite EQ. now left.
Qed.

(** * Global data *)

Definition global_request (E : env) : request :=
  [(0, 4, VNum 2); (4, 4, VNum 4); (8, 4, VNum 32); (12, 4, VNum 1); (16, 4, VNum 0); (64, 8, VNum 0)] ++
  if e_names E then [(28, 16, VText (txt "aya_global"))] else [].
Lemma global_map_eq E : global_map E = global_request E.
Proof. unfold global_map, global_request. destruct (e_names E); reflexivity. Qed.
Lemma walk_global k h fd : is_open 0 h fd = true ->
  walk k h 1 true (firstn (Z.to_nat 5) (global_insns fd)) false false [] =
  if k_global k then Accept else Reject (k_trace k (new_insn LDDW_CODE 1 BPF_PSEUDO_MAP_VALUE 0 fd) ++ [txt "unrecognized bpf_ld_imm64 insn"]) 22.
Proof.
  intros O. change (firstn (Z.to_nat 5) (global_insns fd)) with (global_insns fd). unfold global_insns, new_insn.
  cbn [walk Insn.code Insn.dst Insn.src Insn.off Insn.imm LDDW_CODE BPF_PSEUDO_MAP_VALUE Z.eqb Pos.eqb andb app].
  rewrite O. destruct (k_global k); reflexivity.
Qed.
Theorem global_settled E k h : sound_kern k -> (e_names E = true -> 44 <= k_ends k 0) ->
  settled E k (k_global k) (fst (probe_bpf_global_data E (machine k) h)).
Proof.
  intros S NM. unfold probe_bpf_global_data, seq at 1. rewrite global_map_eq.
  destruct (bpf_map_create E (machine k) (global_request E) h) as [a h'] eqn:C.
  apply map_create_spec in C as (h0 & SF & -> & [-> |(NC & e & TR & ->)]).
  2:{ cbn. eapply wrong; [exact NC|exact TR|reflexivity]. }
  assert (EQ : machine (calm k) h0 0 (global_request E) = fd_answer k h0 []).
  { pose proof (s_map_end k S) as L. unfold global_request. destruct (e_names E).
    - specialize (NM eq_refl).
      rewrite map_known; [reflexivity|exact S|exact (s_array k S)|small_beyond|reflexivity|reflexivity|reflexivity|intros X; discriminate X].
    - rewrite map_known; [reflexivity|exact S|exact (s_array k S)|small_beyond|reflexivity|reflexivity|reflexivity|intros X; discriminate X]. }
  rewrite EQ. clear EQ. set (a := fd_answer k h0 []). cbn [a fd_answer a_ret]. pose proof (s_fd k S h0) as FD. autorewrite with sets.
  set (rq := [(16, 8, VStr (txt "GPL"))] ++ [(4, 4, VNum 5)] ++ [(8, 8, VInsns (global_insns (k_fd k h0)))] ++ [(0, 4, VNum 1)]).
  set (h1 := Call 0 (global_request E) a :: h0).
  assert (G : settled E k (k_global k) (fst (feature_probe_result (bpf_prog_load E (machine k) rq) [EINVAL; E2BIG] h1))).
  { destruct (bpf_prog_load E (machine k) rq h1) as [a2 h2] eqn:C.
    eapply (probe_result_settled E k _ _ _ _ 5 a2 h2 S C).
    apply prog_load_spec in C as (h3 & SF3 & -> & [-> |(NC & e & TR & ->)]).
    2:{ right. right. split; [exact NC|]. exists e. split; [exact TR|]. split; [reflexivity|].
        apply plain_not_in; [exact (trouble_plain k 5 e S TR)|]. intros x I. unfold EINVAL, E2BIG in I. cbn [In] in *. lia. }
    assert (N0 : 0 <> 15) by lia.
    pose proof (made_open h0 h3 0 _ a (k_fd k h0) eq_refl FD N0 SF3) as OP.
    pose proof (s_prog_end k S).
    rewrite (prog_known k h3 rq S); [|exact (s_socket k S)|unfold rq; small_beyond|left; reflexivity|intros X; discriminate X|reflexivity|left; reflexivity].
    unfold verify. cbn [rq app num at_off find fst snd Z.eqb Pos.eqb option_map needs_target andb negb].
    change (is_gpl _) with true.
    assert (IO : is_open 0 h3 (k_fd k h0) = true) by (unfold is_open; now rewrite OP).
    rewrite (walk_global k h3 _ IO). destruct (k_global k).
    - left. exists (k_fd k h3). split; reflexivity.
    - right. left. exists 22. split; [reflexivity|]. split; [now left|reflexivity]. }
  unfold seq at 1. destruct (feature_probe_result _ _ h1) as [x hx]. exact G.
Qed.

(** * Programs in CPU and device maps *)

Theorem prog_id_settled E k t h : sound_kern k -> t = 14 \/ t = 16 -> settled E k (k_prog_values k t) (fst (probe_prog_id E (machine k) t h)).
Proof.
  intros S T. unfold probe_prog_id. autorewrite with sets. set (rq := [(0, 4, VNum t)] ++ _).
  destruct (bpf_map_create E (machine k) rq h) as [a h'] eqn:C.
  eapply (probe_result_settled E k _ _ _ _ 0 a h' S C).
  apply map_create_spec in C as (h0 & SF & -> & [-> |(NC & e & TR & ->)]).
  2:{ right. right. split; [exact NC|]. exists e. split; [exact TR|]. split; [reflexivity|].
      apply plain_not_in; [exact (trouble_plain k 0 e S TR)|]. intros x I. unfold EINVAL, E2BIG in I. cbn [In] in *. lia. }
  pose proof (s_map_end k S) as L.
  destruct (k_map k t) eqn:K.
  - assert (B : beyond rq (k_ends k 0) = false) by (unfold rq; small_beyond).
    destruct (k_prog_values k t) eqn:PV.
    + left. exists (k_fd k h0). split; [|reflexivity].
      assert (SZ : sizes_ok k t 4 8 1 = true) by (destruct T as [-> | ->]; cbn; now rewrite PV).
      rewrite map_known; try exact S; try exact K; try exact B; try exact SZ.
      * destruct T as [-> | ->]; reflexivity.
      * destruct T as [-> | ->]; reflexivity.
      * destruct T as [-> | ->]; reflexivity.
      * intros X. change (num rq 0) with t in X. lia.
    + right. left. exists 22. split; [|split; [now left|reflexivity]].
      rewrite (machine_in k h0 0 rq S); [|lia|exact B]. cbv beta iota. unfold create.
      change (num rq 0) with t. change (num rq 4) with 4. change (num rq 8) with 8. change (num rq 12) with 1.
      rewrite sizes_calm. cbn [calm k_map]. rewrite K.
      assert (SZ : sizes_ok k t 4 8 1 = false) by (destruct T as [-> | ->]; cbn; now rewrite PV). rewrite SZ. reflexivity.
  - assert (PV : k_prog_values k t = false) by (destruct (k_prog_values k t) eqn:Q; [|reflexivity]; apply (s_values k S) in Q; congruence).
    right. left. exists 22. split; [|split; [now left|exact PV]].
    destruct (map_unknown k h0 rq S K) as [-> |(_ & B)]; [reflexivity|]. exfalso. apply (eq_true_false_abs _ B). unfold rq. small_beyond.
Qed.

(** * BTF *)

Lemma btf_request b : set ["btf"]%string (VBlob b) ++ set ["btf_size"]%string (VNum (u32 (Z.of_nat (length b)))) =
  [(0, 8, VBlob b); (16, 4, VNum (u32 (Z.of_nat (length b))))].
Proof. reflexivity. Qed.
Lemma load_probe_settled E k b h right : sound_kern k -> Z.of_nat (length (btf_to_bytes b)) < 2 ^ 32 ->
  right = negb (k_ends k 18 =? 0) && btf_ok (k_btf k) (btf_to_bytes b) ->
  settled E k right (fst (load_probe (machine k) b h)).
Proof.
  intros S LB R. unfold load_probe, bpf_load_btf. rewrite btf_request. set (l := btf_to_bytes b) in *.
  assert (U : u32 (Z.of_nat (length l)) = Z.of_nat (length l)) by (unfold u32, wrap; apply Z.mod_small; lia). rewrite U.
  set (rq := [(0, 8, VBlob l); (16, 4, VNum (Z.of_nat (length l)))]).
  destruct (syscall (machine k) BTF_LOAD rq h) as [a h'] eqn:C.
  eapply (probe_result_settled E k _ _ _ _ BTF_LOAD a h' S C).
  apply (syscall_spec E) in C as [-> [-> |(NC & e & TR & ->)]]; try (unfold BTF_LOAD; lia).
  2:{ right. right. split; [exact NC|]. exists e. split; [exact TR|]. split; [reflexivity|].
      apply plain_not_in; [exact (trouble_plain k _ e S TR)|]. intros x I. unfold EINVAL, E2BIG in I. cbn [In] in *. lia. }
  unfold BTF_LOAD. pose proof (attr_40 k S) as A40.
  destruct (Z.eqb_spec (k_ends k 18) 0) as [Z0|NZ]; cbn [negb andb] in R.
  - right. left. exists 22. split; [|split; [now left|exact R]]. rewrite machine_out; [reflexivity| |exact Z0]. unfold rq. small_beyond.
  - pose proof (s_btf_end k S) as B20. rewrite (machine_in k h 18 rq S NZ) by (unfold rq; small_beyond).
    cbv beta iota. unfold load_btf. change (at_off rq 0) with (Some (VBlob l)). change (num rq 16) with (Z.of_nat (length l)).
    rewrite Nat2Z.id, firstn_all. cbn [calm k_btf k_late k_fd]. destruct (btf_ok (k_btf k) l); cbn [negb].
    + left. exists (k_fd k h). now split.
    + right. left. exists 22. split; [reflexivity|]. split; [now left|exact R].
Qed.
Definition blob (f : feature) : btf :=
  match f with
  | FFunc => btf_func 0 | FFuncGlobal => btf_func 1 | FDataSec => btf_datasec | FDataSecZero => btf_datasec_zero
  | FFloat => btf_float | FDeclTag => btf_decl_tag | FTypeTag => btf_type_tag | FEnum64 => btf_enum64
  end.
Lemma blob_small f : Z.of_nat (length (btf_to_bytes (blob f))) < 2 ^ 32.
Proof. destruct f; vm_compute; reflexivity. Qed.
Lemma btf_plain_ok feat : btf_ok feat (btf_to_bytes btf_plain) = true.
Proof. vm_compute. reflexivity. Qed.
Lemma blob_ok feat f : (feat FFuncGlobal = true -> feat FFunc = true) -> (feat FDataSecZero = true -> feat FDataSec = true) ->
  (feat FDeclTag = true -> feat FDataSec = true) -> btf_ok feat (btf_to_bytes (blob f)) = feat f.
Proof.
  intros G1 G2 G3.
  destruct f; vm_compute; repeat match goal with |- context [feat ?x] => destruct (feat x) eqn:? end;
    try reflexivity; try (specialize (G1 eq_refl)); try (specialize (G2 eq_refl)); try (specialize (G3 eq_refl)); congruence.
Qed.
Theorem btf_settled E k h : sound_kern k -> settled E k (btf_supported k) (fst (probe_btf (machine k) h)).
Proof.
  intros S. apply (load_probe_settled E k btf_plain h _ S); [vm_compute; reflexivity|]. rewrite btf_plain_ok, andb_true_r. reflexivity.
Qed.
Theorem btf_feature_settled E k f h : sound_kern k -> settled E k (k_btf k f) (fst (is_btf_feature_supported (machine k) f h)).
Proof.
  intros S. change (is_btf_feature_supported (machine k) f h) with (load_probe (machine k) (blob f) h).
  apply (load_probe_settled E k (blob f) h _ S); [apply blob_small|].
  rewrite (blob_ok (k_btf k) f (s_btf_global k S) (s_btf_zero k S) (s_btf_decl k S)).
  destruct (k_btf k f) eqn:K; [|now rewrite andb_false_r].
  pose proof (s_btf k S f K). destruct (Z.eqb_spec (k_ends k 18) 0); [contradiction|reflexivity].
Qed.

(** * Information about programs *)

Definition info_request (fd : Z) (b : list Z) : request := [(0, 4, VNum fd); (4, 4, VNum (Z.of_nat (length b))); (8, 8, VBlob b)].
Lemma prog_info_settled E k b h right : sound_kern k -> Z.of_nat (length b) < 2 ^ 32 -> k_ends k 15 <> 0 ->
  right = negb (existsb (fun c => negb (c =? 0)) (skipn (Z.to_nat (k_info k)) b)) ->
  settled E k right (fst (probe_prog_info E (machine k) b h)).
Proof.
  intros S LB N15 R. unfold probe_prog_info, seq at 1.
  assert (U : u32 (Z.of_nat (length b)) = Z.of_nat (length b)) by (unfold u32, wrap; apply Z.mod_small; lia).
  destruct (bpf_prog_load E (machine k) (prog_request E PSocketFilter trivial) h) as [a h'] eqn:C.
  apply prog_load_spec in C as (h0 & SF & -> & [-> |(NC & e & TR & ->)]).
  2:{ cbn. eapply wrong; [exact NC|exact TR|reflexivity]. }
  rewrite (trivial_loads E k PSocketFilter h0 S eq_refl (s_socket k S)) by (intros X; discriminate X).
  set (a := fd_answer k h0 _). cbn [a fd_answer a_ret]. pose proof (s_fd k S h0) as FD. rewrite (u32_fd _ FD), U. autorewrite with sets.
  change ([(0, 4, VNum (k_fd k h0))] ++ [(4, 4, VNum (Z.of_nat (length b)))] ++ [(8, 8, VBlob b)]) with (info_request (k_fd k h0) b).
  set (rq := info_request (k_fd k h0) b). set (h1 := Call 5 _ a :: h0).
  unfold seq at 1. destruct (syscall (machine k) GET_INFO rq h1) as [a2 h2] eqn:C2.
  apply (syscall_spec E) in C2 as [-> [-> |(NC & e & TR & ->)]]; try (unfold GET_INFO; lia).
  2:{ destruct (trouble_plain k _ e S TR) as (P1 & P2 & P3 & P4). unfold seq, E2BIG. cbn.
      destruct (Z.eqb_spec e 7); [contradiction|]. eapply wrong; [exact NC|exact TR|reflexivity]. }
  unfold GET_INFO. assert (N5 : 5 <> 15) by lia.
  pose proof (made_open h0 h1 5 _ a (k_fd k h0) eq_refl FD N5 (fun _ => eq_refl)) as OP.
  assert (EQ : machine (calm k) h1 15 rq = if right then {| a_ret := Ok 0; a_log := [] |} else fail 7).
  { pose proof (s_info_end k S) as L. rewrite (machine_in k h1 15 rq S N15) by (unfold rq, info_request; small_beyond). cbv beta iota. unfold get_info.
    cbn [calm k_late k_info rq info_request num at_off find fst snd Z.eqb Pos.eqb option_map]. rewrite OP, Nat2Z.id, firstn_all.
    rewrite R. destruct (existsb _ _); reflexivity. }
  rewrite EQ. left. destruct right; reflexivity.
Qed.
Lemma skipn_repeat {A} (x : A) n m : skipn n (repeat x m) = repeat x (m - n).
Proof. revert m. induction n as [|n IH]; intros [|m]; cbn; try reflexivity. apply IH. Qed.
Lemma zeros_only n : existsb (fun c => negb (c =? 0)) (repeat 0 n) = false.
Proof. induction n; [reflexivity|exact IHn]. Qed.
(** One byte among zeros. *)
Lemma one_byte n a b : existsb (fun c => negb (c =? 0)) (skipn n (repeat 0 a ++ 1 :: repeat 0 b)) = (n <=? a)%nat.
Proof.
  rewrite skipn_app, repeat_length, existsb_app, skipn_repeat, zeros_only. cbn [orb]. destruct (Nat.leb_spec n a).
  - replace (n - a)%nat with O by lia. reflexivity.
  - destruct (n - a)%nat eqn:Q; [lia|]. cbn [skipn]. rewrite skipn_repeat. apply zeros_only.
Qed.
Lemma map_ids_info : info_with ["nr_map_ids"]%string 1 = repeat 0 52 ++ 1 :: repeat 0 179.
Proof. vm_compute. reflexivity. Qed.
Lemma license_info : info_with ["_bitfield_1"]%string 1 = repeat 0 84 ++ 1 :: repeat 0 147.
Proof. vm_compute. reflexivity. Qed.
Lemma mod8 n m : n mod 8 = 0 -> 0 <= n -> m mod 8 = 4 -> n <= m \/ m + 4 <= n.
Proof. intros A B C. pose proof (Z.div_mod n 8). pose proof (Z.div_mod m 8). lia. Qed.
Theorem map_ids_settled E k h : sound_kern k -> k_ends k 15 <> 0 ->
  settled E k (map_ids_supported k) (fst (is_prog_info_map_ids_supported E (machine k) h)).
Proof.
  intros S N. unfold is_prog_info_map_ids_supported. rewrite map_ids_info. destruct (s_info k S) as [I1 I2].
  apply prog_info_settled; [exact S|vm_compute; reflexivity|exact N|]. rewrite one_byte. unfold map_ids_supported.
  destruct (mod8 (k_info k) 52 I1 I2 eq_refl) as [L|L].
  - destruct (Z.leb_spec 56 (k_info k)); [lia|]. destruct (Nat.leb_spec (Z.to_nat (k_info k)) 52); [reflexivity|]. lia.
  - destruct (Z.leb_spec 56 (k_info k)); [|lia]. destruct (Nat.leb_spec (Z.to_nat (k_info k)) 52); [lia|reflexivity].
Qed.
Theorem license_settled E k h : sound_kern k -> k_ends k 15 <> 0 -> (k_gpl k = false -> k_info k < 88) ->
  settled E k (k_gpl k) (fst (is_prog_info_license_supported E (machine k) h)).
Proof.
  intros S N G. unfold is_prog_info_license_supported. rewrite license_info. destruct (s_info k S) as [I1 I2].
  apply prog_info_settled; [exact S|vm_compute; reflexivity|exact N|]. rewrite one_byte. pose proof (s_gpl k S) as G2.
  assert (X : forall n m, (n <= m)%Z -> 0 <= n -> (Z.to_nat n <= Z.to_nat m)%nat) by (intros; lia).
  destruct (mod8 (k_info k) 84 I1 I2 eq_refl) as [L|L].
  - destruct (k_gpl k); [specialize (G2 eq_refl); lia|]. destruct (Nat.leb_spec (Z.to_nat (k_info k)) 84); [reflexivity|]. lia.
  - destruct (k_gpl k); [|specialize (G eq_refl); lia]. destruct (Nat.leb_spec (Z.to_nat (k_info k)) 84); [lia|reflexivity].
Qed.
