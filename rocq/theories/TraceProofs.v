(** Single calls at trace points and of iterators. *)
From Coq Require Import String.
From Verif Require Import Base Text TextParse TextSplit LogModel InfoProofs TraceModel TraceSpec.
Local Open Scope Z_scope.

(** * Paths and numbers *)

Lemma read_dec id : 0 <= id < 2 ^ 64 -> utf8 (id_file id) = true /\ dec_u64 (trim (id_file id)) = Some id.
Proof.
  intros H. assert (0 <= id < 10 ^ 20) as H' by lia. destruct (dec_spec id H') as (V & F & N). split.
  - apply utf8_ascii_all. apply Forall_app. split; [|repeat constructor; lia].
    eapply Forall_impl; [|exact F]. cbn beta. intros c D. unfold is_digit in D. lia.
  - unfold id_file. change (dec id ++ [10]) with ([] ++ dec id ++ [10]). rewrite trim_around.
    + apply parse_dec; lia.
    + constructor.
    + repeat constructor.
    + eapply Forall_impl; [|exact F]. cbn beta. intros c D. unfold is_digit in D. unfold is_ws. lia.
Qed.

Lemma plain_start s : plain s -> starts_with [47] s = false.
Proof.
  intros [N H]. destruct s as [|c s]; [contradiction|]. cbn [starts_with]. destruct (Z.eqb_spec 47 c) as [<-|]; [exfalso; apply H; now left|reflexivity].
Qed.
Lemma last_plain a s : plain s -> last (a ++ s) 47 <> 47.
Proof.
  intros [N H]. destruct s as [|c s] using rev_ind; [contradiction|]. rewrite app_assoc, last_last. intros E. apply H, in_or_app. right. now left.
Qed.
Lemma slash_plain a b : last a 47 <> 47 -> plain b -> slash a b = a ++ 47 :: b /\ last (slash a b) 47 <> 47.
Proof.
  intros L P. assert (slash a b = a ++ 47 :: b) as E.
  { unfold slash. rewrite plain_start by assumption. destruct (Z.eqb_spec (last a 47) 47); [contradiction|reflexivity]. }
  split; [exact E|]. rewrite E. change (a ++ 47 :: b) with (a ++ [47] ++ b). rewrite app_assoc. now apply last_plain.
Qed.
Lemma plain_const s : existsb (Z.eqb 47) s = false -> s <> [] -> plain s.
Proof.
  intros H N. split; [exact N|]. intros I. assert (existsb (Z.eqb 47) s = true) as T; [|congruence].
  apply existsb_exists. exists 47. split; [exact I|reflexivity].
Qed.

Lemma path_eq t category name : last t 47 <> 47 -> plain category -> plain name ->
  slash (slash (slash (slash t (txt "events")) category) name) (txt "id") = id_path t category name.
Proof.
  intros L C N. destruct (slash_plain t (txt "events") L) as [E1 L1]; [now apply plain_const|].
  destruct (slash_plain _ category L1 C) as [E2 L2]. destruct (slash_plain _ name L2 N) as [E3 L3].
  destruct (slash_plain _ (txt "id") L3) as [E4 _]; [now apply plain_const|].
  rewrite E4, E3, E2, E1. unfold id_path. change (txt "/events/") with (47 :: txt "events" ++ [47]). change (txt "/id") with (47 :: txt "id"). change (txt "/") with [47].
  rewrite <- ?app_assoc. cbn [app]. rewrite <- ?app_assoc. reflexivity.
Qed.

Lemma tracefs_eq e t : find_tracefs e = Some t <-> mounted e t.
Proof.
  unfold find_tracefs, mounted. cbn [find].
  destruct (e_tracefs e (txt "/sys/kernel/tracing")) eqn:A; [|destruct (e_tracefs e (txt "/sys/kernel/debug/tracing")) eqn:B].
  - split; [intros H; apply some_inj in H as <-; tauto|]. intros [H [-> | [-> F]]]; [reflexivity|discriminate F].
  - split; [intros H; apply some_inj in H as <-; tauto|]. intros [H [-> | [-> F]]]; [congruence|reflexivity].
  - split; [discriminate|]. intros [H [-> | [-> F]]]; congruence.
Qed.
Lemma tracefs_last e t : mounted e t -> last t 47 <> 47.
Proof. intros [_ [-> | [-> _]]]; vm_compute; discriminate. Qed.

(** The number of a trace point is what its file says. *)
Lemma reads_id e t category name id : mounted e t -> plain category -> plain name -> 0 <= id < 2 ^ 64 ->
  e_files e (id_path t category name) = Some (id_file id) -> read_id e t category name = Ok id.
Proof.
  intros M C N R F. unfold read_id. rewrite path_eq by eauto using tracefs_last. rewrite F.
  destruct (read_dec id R) as [U D]. now rewrite U, D.
Qed.
Lemma no_file e t category name : mounted e t -> plain category -> plain name ->
  e_files e (id_path t category name) = None -> read_id e t category name = Err (EFile (id_path t category name)).
Proof. intros M C N F. unfold read_id. rewrite path_eq by eauto using tracefs_last. now rewrite F. Qed.

(** * What calls do *)

(** More events and links, that nothing refers to. *)
Record grows (k k' : kernel) : Prop := {
  gr_fds : k_fds k' = k_fds k;
  gr_next : k_next k <= k_next k';
  gr_perfs : exists ps, k_perfs k' = k_perfs k ++ ps;
  gr_links : exists ls, k_links k' = k_links k ++ ls /\ forall l m, In l ls -> kl_site l = AtPerf m -> (m < length (k_perfs k'))%nat
}.
(** A link to a new event. *)
Record linked (g : Z) (s : site) (ps : list perf) (fd : Z) (k k' : kernel) : Prop := {
  ln_fds : k_fds k' = k_fds k ++ [(fd, OLink (length (k_links k)))];
  ln_fd : k_next k <= fd < k_next k';
  ln_perfs : k_perfs k' = k_perfs k ++ ps;
  ln_links : k_links k' = k_links k ++ [{| kl_prog := g; kl_site := s; kl_cookie := None |}]
}.
(** A new event. *)
Record evented (g id : Z) (fd : Z) (k k' : kernel) : Prop := {
  ev_fds : k_fds k' = k_fds k ++ [(fd, OPerf (length (k_perfs k)))];
  ev_fd : k_next k <= fd < k_next k';
  ev_perfs : k_perfs k' = k_perfs k ++ [{| pf_id := id; pf_prog := Some g; pf_on := true |}];
  ev_links : k_links k' = k_links k
}.

Lemma call_same k f k1 : call k = (f, k1) -> k_perfs k1 = k_perfs k /\ k_links k1 = k_links k /\ k_fds k1 = k_fds k /\ k_next k1 = k_next k.
Proof. unfold call. destruct (k_fail k); intros H; apply pair_equal_spec in H as [_ <-]; repeat split. Qed.

Lemma find_new k fd o (l : list (Z * object)) : (forall fd' o', In (fd', o') l -> fd' < k) -> k <= fd -> find (fun x => fst x =? fd) (l ++ [(fd, o)]) = Some (fd, o).
Proof.
  intros H L. induction l as [|[f x] l IH]; cbn [app find fst].
  - now rewrite Z.eqb_refl.
  - specialize (H f x (or_introl eq_refl)) as A. destruct (Z.eqb_spec f fd); [lia|]. apply IH. intros f' o' I. apply (H f' o'). now right.
Qed.
Lemma filter_old fd (l : list (Z * object)) : (forall fd' o', In (fd', o') l -> fd' <> fd) -> filter (fun x => negb (fst x =? fd)) l = l.
Proof.
  induction l as [|[f x] l IH]; intros H; [reflexivity|]. cbn [filter fst]. destruct (Z.eqb_spec f fd) as [E|E].
  - exfalso. exact (H f x (or_introl eq_refl) E).
  - cbn [negb]. rewrite IH; [reflexivity|]. intros f' o' I. apply (H f' o'). now right.
Qed.
Lemma nth_last {A} (l : list A) x : nth_error (l ++ [x]) (length l) = Some x.
Proof. rewrite nth_error_app2 by lia. now rewrite Nat.sub_diag. Qed.
Lemma upd_last {A} (l : list A) x y : upd (length l) y (l ++ [x]) = l ++ [y].
Proof. apply (upd_app l []). Qed.

Lemma grows_refl k : grows k k.
Proof. constructor; [reflexivity|lia|exists []; now rewrite app_nil_r|exists []; split; [now rewrite app_nil_r|contradiction]]. Qed.

(** Attaching to the event just opened. *)
Lemma perf_attach_shape e g id k ra k' : sound k -> 
  (let '(fd, k1) := new_fd (OPerf (length (k_perfs k))) k in
   perf_attach e g fd None {| k_perfs := k_perfs k1 ++ [{| pf_id := id; pf_prog := None; pf_on := true |}]; k_links := k_links k1; k_fds := k_fds k1; k_next := k_next k1; k_fail := k_fail k1 |}) = (ra, k') ->
  match ra with
  | Ok (LFd fd) => e_perf_link e = true /\ linked g (AtPerf (length (k_perfs k))) [{| pf_id := id; pf_prog := None; pf_on := true |}] fd k k'
  | Ok (LPerf fd) => e_perf_link e = false /\ evented g id fd k k'
  | Err _ => grows k k'
  end.
Proof.
  intros S. cbn [new_fd k_perfs k_links k_fds k_next k_fail]. unfold perf_attach. destruct (e_perf_link e).
  - unfold attach_bpf_link, object_at. cbn [k_fds]. rewrite (find_new (k_next k)); [|exact (so_old k S)|lia]. cbn [option_map snd].
    unfold link_create. destruct (call _) as [f k1] eqn:C. apply call_same in C as (C1 & C2 & C3 & C4). cbn [k_perfs k_links k_fds k_next] in C1, C2, C3, C4.
    destruct f.
    + intros H. apply pair_equal_spec in H as [<- <-]. unfold close. constructor; cbn [k_perfs k_links k_fds k_next].
      * rewrite C3, filter_app. cbn [filter fst]. rewrite Z.eqb_refl. cbn [negb]. rewrite app_nil_r. apply filter_old.
        intros f o I. specialize (so_old k S f o I). lia.
      * lia.
      * eexists. exact C1.
      * exists []. split; [rewrite app_nil_r; exact C2|contradiction].
    + cbn [new_fd k_perfs k_links k_fds k_next k_fail]. intros H. apply pair_equal_spec in H as [<- <-]. split; [reflexivity|]. unfold close.
      constructor; cbn [k_perfs k_links k_fds k_next].
      * rewrite C3, !filter_app, C2. cbn [filter fst]. rewrite Z.eqb_refl, C4. cbn [negb]. rewrite app_nil_r.
        replace (k_next k + 1 =? k_next k) with false by lia. cbn [negb]. f_equal. apply filter_old.
        intros f o I. specialize (so_old k S f o I). lia.
      * rewrite C4. lia.
      * exact C1.
      * rewrite C2. reflexivity.
  - unfold attach_perf_event, ioctl. destruct (call _) as [f k1] eqn:C. apply call_same in C as (C1 & C2 & C3 & C4). cbn [k_perfs k_links k_fds k_next] in C1, C2, C3, C4.
    assert (forall k2 ps, k_fds k2 = k_fds k ++ [(k_next k, OPerf (length (k_perfs k)))] -> k_next k2 = k_next k + 1 -> k_links k2 = k_links k -> k_perfs k2 = k_perfs k ++ ps -> grows k (close (k_next k) k2)) as G.
    { intros k2 ps F1 F2 F3 F4. unfold close. constructor; cbn [k_perfs k_links k_fds k_next].
      - rewrite F1, filter_app. cbn [filter fst]. rewrite Z.eqb_refl. cbn [negb]. rewrite app_nil_r. apply filter_old.
        intros f' o I. specialize (so_old k S f' o I). lia.
      - lia.
      - now exists ps.
      - exists []. split; [rewrite app_nil_r; exact F3|contradiction]. }
    destruct f.
    { intros H. apply pair_equal_spec in H as [<- <-]. exact (G k1 _ C3 C4 C2 C1). }
    unfold object_at at 1. rewrite C3. rewrite (find_new (k_next k)); [|exact (so_old k S)|lia]. cbn [option_map snd]. rewrite C1, nth_last, upd_last.
    destruct (call _) as [f k2] eqn:D in |- *. apply call_same in D as (D1 & D2 & D3 & D4). cbn [k_perfs k_links k_fds k_next] in D1, D2, D3, D4.
    rewrite ?C2 in D2. rewrite ?C4 in D4. rewrite ?C3 in D3.
    destruct f.
    { intros H. apply pair_equal_spec in H as [<- <-]. exact (G k2 _ D3 D4 D2 D1). }
    unfold object_at. rewrite D3. rewrite (find_new (k_next k)); [|exact (so_old k S)|lia]. cbn [option_map snd]. rewrite D1, nth_last, upd_last.
    intros H. apply pair_equal_spec in H as [<- <-]. split; [reflexivity|]. constructor; cbn [k_perfs k_links k_fds k_next].
    + reflexivity.
    + rewrite D4. lia.
    + reflexivity.
    + exact D2.
Qed.

Lemma attach_shape e g category name k ra k' : sound k -> attach_trace_point e (Some g) category name k = (ra, k') ->
  match ra with
  | Ok l => exists t id, mounted e t /\ read_id e t category name = Ok id /\
      match l with
      | LFd fd => e_perf_link e = true /\ linked g (AtPerf (length (k_perfs k))) [{| pf_id := id; pf_prog := None; pf_on := true |}] fd k k'
      | LPerf fd => e_perf_link e = false /\ evented g id fd k k'
      end
  | Err _ => grows k k'
  end.
Proof.
  intros S. unfold attach_trace_point. destruct (find_tracefs e) as [t|] eqn:T.
  2: { intros H. apply pair_equal_spec in H as [<- <-]. apply grows_refl. }
  apply tracefs_eq in T. destruct (read_id e t category name) as [id|x] eqn:I.
  2: { intros H. apply pair_equal_spec in H as [<- <-]. apply grows_refl. }
  unfold perf_open. destruct (call k) as [f k1] eqn:C. apply call_same in C as (C1 & C2 & C3 & C4).
  assert (forall k2, grows k1 k2 -> grows k k2) as G.
  { intros k2 [G1 G2 G3 G4]. constructor; [congruence|lia|now rewrite <- C1|now rewrite <- C2]. }
  destruct f.
  { intros H. apply pair_equal_spec in H as [<- <-]. apply G, grows_refl. }
  assert (sound k1) as S1.
  { destruct S as [S1 S2 S3 S4]. constructor; rewrite ?C1, ?C2, ?C3, ?C4; assumption. }
  intros H. apply (perf_attach_shape e g id k1) in H; [|exact S1]. destruct ra as [l|x]; [|now apply G].
  exists t, id. split; [exact T|]. split; [exact I|]. destruct l as [fd|fd]; destruct H as [P [H1 H2 H3 H4]]; (split; [exact P|]); constructor; rewrite <- ?C1, <- ?C2, <- ?C3, <- ?C4; assumption.
Qed.

Lemma iter_shape g k ra k' : attach_iter (Some g) k = (ra, k') ->
  match ra with
  | Ok l => exists fd, l = LFd fd /\ linked g AtIter [] fd k k'
  | Err _ => grows k k'
  end.
Proof.
  unfold attach_iter, link_create. destruct (call k) as [f k1] eqn:C. apply call_same in C as (C1 & C2 & C3 & C4). destruct f.
  - intros H. apply pair_equal_spec in H as [<- <-]. destruct (grows_refl k1) as [G1 G2 G3 G4]. constructor; [congruence|lia|now rewrite <- C1|now rewrite <- C2].
  - cbn [new_fd k_perfs k_links k_fds k_next k_fail]. intros H. apply pair_equal_spec in H as [<- <-]. eexists. split; [reflexivity|]. constructor; cbn [k_perfs k_links k_fds k_next].
    + now rewrite C2, C3.
    + lia.
    + now rewrite app_nil_r.
    + now rewrite C2.
Qed.
