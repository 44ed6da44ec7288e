(** What the probes of program types, helpers and other features answer. *)
From Coq Require Import String.
From Verif Require Import Base Text TextSplit Insn BtfSanitize FeatModel FeatSpec FeatProofs FeatProofs2 FeatProofs3.
Import ListNotations.
Local Open Scope Z_scope.

Definition log256 : request := [(32, 8, VRoom 256); (24, 4, VNum 1); (28, 4, VNum 256)].
Definition log4096 : request := [(32, 8, VRoom 4096); (24, 4, VNum 1); (28, 4, VNum 4096)].
Lemma log_fields_eq n : log_fields n = [(32, 8, VRoom n); (24, 4, VNum 1); (28, 4, VNum n)].
Proof. reflexivity. Qed.
Lemma target_eq E t :
  target E t = match t with
               | PTracing => [(108, 4, VNum (e_btf_id E (txt "bpf_fentry_test1")))]
               | PLsm _ => [(108, 4, VNum (e_btf_id E (txt "bpf_lsm_bpf")))]
               | _ => []
               end.
Proof. destruct t; reflexivity. Qed.

(** The result of the first call. *)
Definition load_failed (t : ptype) (a : answer) (e : Z) : res perr bool :=
  if e =? EINVAL then Ok (logged t && starts_with (txt "Tracing programs must provide btf_id") (buffer 256 (a_log a)))
  else if e =? E2BIG then Ok false
  else if (e =? ENOTSUPP) && (match t with PStructOps => true | _ => false end) then Ok true
  else Err (PCall (txt "bpf_prog_load") e).
Lemma load_failed_trouble E k t right c e : sound_kern k -> ~ clean E k -> trouble k c e -> settled E k right (load_failed t (fail e) e).
Proof.
  intros S NC T. destruct (trouble_plain k c e S T) as (P1 & P2 & P3 & P4). unfold load_failed, EINVAL, E2BIG, ENOTSUPP.
  destruct (Z.eqb_spec e 22); [contradiction|]. destruct (Z.eqb_spec e 7); [contradiction|]. destruct (Z.eqb_spec e 524); [contradiction|].
  cbn [andb]. now apply (wrong E k right c e).
Qed.
Lemma load_failed_unknown t a : a = fail 7 \/ a = fail 22 -> exists e, a_ret a = Err e /\ load_failed t a e = Ok false.
Proof.
  intros [-> | ->]; [exists 7|exists 22]; (split; [reflexivity|]); unfold load_failed; cbn; [reflexivity|]. now rewrite andb_false_r.
Qed.

Definition starts_tp (t : ptype) : bool := match t with PTracing | PLsm true => true | _ => false end.
(** What happens to a loaded program. *)
Definition then_tp (K : kernel) (t : ptype) (fd : Z) : M (res perr bool) :=
  if starts_tp t then
    seq (bpf_raw_tracepoint_open K fd) (fun a =>
    seq (match a_ret a with
         | Ok link => seq (close link) (fun _ => ret (Ok true))
         | Err e => ret (if e =? ENOTSUPP then Ok false else Err (PCall (txt "bpf_raw_tracepoint_open") e))
         end) (fun r => seq (close fd) (fun _ => ret r)))
  else seq (close fd) (fun _ => ret (Ok true)).
Definition prog_probe_request (E : env) (t : ptype) : request :=
  prog_request E t trivial ++ target E t ++ if logged t then log_fields 256 else [].
Lemma is_program_eq E K t h : t <> PUnspecified ->
  is_program_supported E K t h =
  (let (a, h) := bpf_prog_load E K (prog_probe_request E t) h in
   match a_ret a with Err e => (load_failed t a e, h) | Ok fd => then_tp K t fd h end).
Proof.
  intros N. destruct t as [ | | | | | | | | | | | | | | | | | | | | | | | | | | | | | [] | | |]; try contradiction;
    unfold is_program_supported, seq at 1, prog_probe_request;
    match goal with |- context [bpf_prog_load E K ?r h] => destruct (bpf_prog_load E K r h) as [a h'] end; destruct (a_ret a); reflexivity.
Qed.

Lemma tp_spec E k t fd h0 h r right : sound_kern k -> starts_tp t = true -> k_prog k (number t) = true -> 0 <= fd < 2 ^ 31 ->
  open_as 5 h fd = Some r -> num r 0 = number t -> (number t = 29 -> num r 68 = 27) ->
  right = k_trampolines k -> h0 = h ->
  settled E k right (fst (then_tp (machine k) t fd h0)).
Proof.
  intros S T K F O N A -> ->. unfold then_tp. rewrite T. unfold bpf_raw_tracepoint_open. autorewrite with sets. rewrite (u32_fd _ F). cbn [app].
  set (rq := [(0, 8, VNum 0); (8, 4, VNum fd)]).
  unfold seq at 1. destruct (syscall (machine k) RAW_TP_OPEN rq h) as [a h'] eqn:C.
  apply (syscall_spec E) in C as [-> [-> |(NC & e & TR & ->)]]; try (unfold RAW_TP_OPEN; lia).
  - assert (KP : k_prog k 26 = true \/ k_prog k 29 = true) by (destruct t as [ | | | | | | | | | | | | | | | | | | | | | | | | | | | | | [] | | |]; try discriminate T; auto).
    assert (EQ : machine (calm k) h RAW_TP_OPEN rq = if k_trampolines k then fd_answer k h [] else fail 524).
    { unfold RAW_TP_OPEN. pose proof (s_tp k S KP) as L. rewrite (machine_in k h 17 rq S); [|lia|unfold rq; small_beyond].
      cbv beta iota. unfold open_tp, rq. cbn [num at_off find fst snd Z.eqb Pos.eqb option_map]. rewrite O, N.
      assert (X : (number t =? 26) || ((number t =? 29) && (num r 68 =? 27)) = true).
      { destruct t as [ | | | | | | | | | | | | | | | | | | | | | | | | | | | | | [] | | |]; try discriminate T; [reflexivity|]. cbn [number] in *. rewrite (A eq_refl). reflexivity. }
      rewrite X. reflexivity. }
    rewrite EQ. left. destruct (k_trampolines k); reflexivity.
  - destruct (trouble_plain k _ e S TR) as (P1 & P2 & P3 & P4). cbn [fail a_ret]. unfold ENOTSUPP.
    destruct (Z.eqb_spec e 524); [contradiction|]. cbn. eapply wrong; [exact NC|exact TR|reflexivity].
Qed.

Lemma plain_loaded E k t fd h : starts_tp t = false -> settled E k true (fst (then_tp (machine k) t fd h)).
Proof. intros T. unfold then_tp. rewrite T. now left. Qed.

Definition id_name (t : ptype) : list Z := match t with PTracing => txt "bpf_fentry_test1" | _ => txt "bpf_lsm_bpf" end.
Definition aimed (t : ptype) : bool := match t with PTracing | PLsm _ => true | _ => false end.

Lemma tracing_request E t : aimed t = true ->
  prog_probe_request E t =
  [(16, 8, VStr (txt "GPL")); (4, 4, VNum 2); (8, 8, VInsns trivial); (0, 4, VNum (number t));
   (68, 4, VNum (match t with PTracing => 24 | PLsm true => 27 | _ => 43 end)); (108, 4, VNum (e_btf_id E (id_name t)))] ++ log256.
Proof. intros A. destruct t as [ | | | | | | | | | | | | | | | | | | | | | | | | | | | | | [] | | |]; try discriminate A; reflexivity. Qed.

Theorem program_settled E k t h : sound_kern k ->
  (t = PKProbe -> version_known E k) -> (t = PTracing -> k_prog k 26 = true -> ids_found E k (txt "bpf_fentry_test1")) ->
  ((exists mac, t = PLsm mac) -> k_prog k 29 = true -> ids_found E k (txt "bpf_lsm_bpf")) ->
  settled E k (prog_supported k t) (fst (is_program_supported E (machine k) t h)).
Proof.
  intros S V IT IL.
  assert (D : t = PUnspecified \/ t <> PUnspecified) by (destruct t; ((left; reflexivity) || (right; discriminate))).
  destruct D as [-> | N]. { left. unfold prog_supported. cbn. now rewrite (s_prog_zero k S). }
  rewrite (is_program_eq E (machine k) t h N).
  destruct (bpf_prog_load E (machine k) (prog_probe_request E t) h) as [a h'] eqn:C.
  apply prog_load_spec in C as (h0 & SF & -> & [-> |(NC & e & TR & ->)]).
  2:{ cbn [fail a_ret fst]. now apply (load_failed_trouble E k t _ 5 e). }
  set (r := prog_probe_request E t).
  destruct (k_prog k (number t)) eqn:K.
  2:{ assert (X : prog_supported k t = false) by (unfold prog_supported; now rewrite K). rewrite X.
      assert (TY : num r 0 = number t) by apply request_type.
      destruct (load_failed_unknown t _ (prog_unknown k h0 r (eq_trans (f_equal (k_prog k) TY) K))) as (e & -> & EQ).
      cbn [fst]. rewrite EQ. now left. }
  destruct (by_itself t) eqn:BI.
  { assert (EX : target E t ++ (if logged t then log_fields 256 else []) = []) by (destruct t as [ | | | | | | | | | | | | | | | | | | | | | | | | | | | | | [] | | |]; try discriminate BI; reflexivity).
    unfold r, prog_probe_request in *. rewrite EX.
    rewrite (by_itself_loads E k t trivial [] h0 2 S BI K V eq_refl); [|lia|intros ? ? ? []|reflexivity].
    rewrite walk_trivial. cbn [a_ret].
    assert (X : prog_supported k t = true) by (unfold prog_supported; rewrite K; destruct t as [ | | | | | | | | | | | | | | | | | | | | | | | | | | | | | [] | | |]; try discriminate BI; reflexivity).
    rewrite X. apply plain_loaded. destruct t as [ | | | | | | | | | | | | | | | | | | | | | | | | | | | | | [] | | |]; try discriminate BI; reflexivity. }
  pose proof (s_prog_end k S) as B5.
  destruct (aimed t) eqn:AI.
  - assert (IDS : ids_found E k (id_name t)).
    { destruct t as [ | | | | | | | | | | | | | | | | | | | | | | | | | | | | | mac | | |]; try discriminate AI; [exact (IT eq_refl K)|exact (IL (ex_intro _ mac eq_refl) K)]. }
    destruct IDS as [I1 I2].
    assert (KP : k_prog k 26 = true \/ k_prog k 29 = true) by (destruct t; try discriminate AI; auto).
    pose proof (s_target k S KP) as B112.
    pose proof (tracing_request E t AI) as RQ. fold r in RQ.
    assert (MV : machine (calm k) h0 5 r = verify k h0 r).
    { apply prog_known; [exact S| | | | | |].
      - rewrite RQ. exact K.
      - rewrite RQ. unfold log256. small_beyond.
      - left. rewrite RQ. reflexivity.
      - rewrite RQ. intros X. exfalso. clear - X AI. destruct t as [ | | | | | | | | | | | | | | | | | | | | | | | | | | | | | [] | | |]; try discriminate AI; discriminate X.
      - rewrite RQ. destruct t as [ | | | | | | | | | | | | | | | | | | | | | | | | | | | | | [] | | |]; try discriminate AI; reflexivity.
      - right. rewrite RQ. destruct t as [ | | | | | | | | | | | | | | | | | | | | | | | | | | | | | [] | | |]; try discriminate AI; reflexivity. }
    rewrite MV.
    assert (VE : verify k h0 r =
                 if match t with PLsm false => negb (k_lsm_cgroup k) | _ => false end then reject r [stats] 22
                 else {| a_ret := Ok (k_fd k h0); a_log := shown r [stats] |}).
    { rewrite RQ. unfold verify. change (num _ 0) with (number t). change (num _ 108) with (e_btf_id E (id_name t)).
      rewrite I2. destruct (Z.eqb_spec (e_btf_id E (id_name t)) 0); [contradiction|].
      destruct t as [ | | | | | | | | | | | | | | | | | | | | | | | | | | | | | [] | | |]; try discriminate AI; try reflexivity.
      }
    rewrite VE.
    assert (NR : num r 0 = number t) by (rewrite RQ; reflexivity).
    assert (TP : starts_tp t = true -> settled E k (k_trampolines k) (fst (then_tp (machine k) t (k_fd k h0) (Call 5 r (fd_answer k h0 (shown r [stats])) :: h0)))).
    { intros T. eapply tp_spec; try reflexivity; [exact S|exact T|exact K|exact (s_fd k S h0)| |exact NR|].
      - assert (N5 : 5 <> 15) by lia.
        exact (made_open h0 _ 5 r (fd_answer k h0 (shown r [stats])) (k_fd k h0) eq_refl (s_fd k S h0) N5 (fun _ => eq_refl)).
      - intros T29. rewrite RQ. destruct t as [ | | | | | | | | | | | | | | | | | | | | | | | | | | | | | [] | | |]; try discriminate T; [discriminate T29|reflexivity]. }
    unfold prog_supported. rewrite K.
    destruct t as [ | | | | | | | | | | | | | | | | | | | | | | | | | | | | | [] | | |]; try discriminate AI; cbn [andb].
    + exact (TP eq_refl).
    + exact (TP eq_refl).
    + destruct (k_lsm_cgroup k); cbn [negb].
      * apply plain_loaded. reflexivity.
      * left. rewrite RQ. vm_compute. reflexivity.
  - (* extensions and struct_ops *)
    destruct t as [ | | | | | | | | | | | | | | | | | | | | | | | | | | | | | mac | | |]; try discriminate AI; try discriminate BI; try contradiction.
    + assert (MV : machine (calm k) h0 5 r = verify k h0 r).
      { apply prog_known; [exact S|exact K| |left; reflexivity|intros X; discriminate X|reflexivity|left; reflexivity].
        unfold r, prog_probe_request. rewrite prog_request_eq. cbn [target logged app more_fields attach_fields attach_type base]. small_beyond. }
      rewrite MV. left. unfold prog_supported. rewrite K. reflexivity.
    + assert (MV : machine (calm k) h0 5 r = verify k h0 r).
      { apply prog_known; [exact S|exact K| |left; reflexivity|intros X; discriminate X|reflexivity|left; reflexivity].
        unfold r, prog_probe_request. rewrite prog_request_eq, log_fields_eq. cbn [target logged app more_fields attach_fields attach_type base]. small_beyond. }
      rewrite MV. left. unfold prog_supported. rewrite K. vm_compute. reflexivity.
Qed.
