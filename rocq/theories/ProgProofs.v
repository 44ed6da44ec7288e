(** Proofs about loading and attaching programs. *)
From Coq Require Import String.
From Verif Require Import Base Text ObjModel ObjSpec ObjProofs ObjProofs6 BtfExt SysModel SysSpec SysProofs ProgModel ProgSpec.
Local Open Scope Z_scope.

(** * Section names *)
Lemma split_cat s t : split_slash (s ++ 47 :: t) = split_slash s ++ split_slash t.
Proof.
  induction s as [|x s IH]; cbn [app]; [reflexivity|]. cbn [split_slash]. destruct (x =? 47); [now rewrite IH|].
  rewrite IH. destruct (split_slash s) as [|p ps] eqn:E; [now elim (split_nonempty s)|]. reflexivity.
Qed.
Lemma parse_more s p t : parse_psec s = Ok p -> takes_name p = true -> parse_psec (s ++ 47 :: t) = Ok p.
Proof.
  intros H N. apply psec_parsed in H as (K & names & rest & S & _ & E). apply (psec_parse p names (rest ++ split_slash t)); auto.
  rewrite split_cat, E. now rewrite app_assoc.
Qed.

(** What a kind of section is loaded as. *)
Definition opt_eqb (a b : option Z) : bool := match a, b with Some x, Some y => x =? y | None, None => true | _, _ => false end.
Definition hook_eqb (a b : option (list Z * Z)) : bool :=
  match a, b with Some (x, i), Some (y, j) => str_eqb x y && (i =? j) | None, None => true | _, _ => false end.
Lemma opt_eqb_eq a b : opt_eqb a b = true -> a = b.
Proof. destruct a, b; cbn; try discriminate; try reflexivity. intros H. apply Z.eqb_eq in H. now subst. Qed.
Lemma hook_eqb_eq a b : hook_eqb a b = true -> a = b.
Proof.
  destruct a as [[x i]|], b as [[y j]|]; cbn; try discriminate; try reflexivity. intros H. apply andb_true_iff in H as [H1 H2].
  apply str_eqb_eq in H1. apply Z.eqb_eq in H2. now subst.
Qed.
Definition row_is (r : row) (ps : psec) : bool :=
  let (p, fl) := of_section false ps in
  let (ty, eat) := kind_type p in
  (r_type r =? ty) && opt_eqb (r_attach r) eat && (r_flags r =? fl) && hook_eqb (r_hook r) (hook_name p).
Definition row_ok (r : row) : bool :=
  match parse_psec (r_name r) with Ok ps => row_is r ps && (negb (r_more r) || takes_name ps) | Err _ => false end.
Lemma rows_ok : forallb row_ok table = true.
Proof. vm_compute. reflexivity. Qed.
Lemma row_is_eq r ps : row_is r ps = true ->
  kind_type (fst (of_section false ps)) = (r_type r, r_attach r) /\ snd (of_section false ps) = r_flags r /\ hook_name (fst (of_section false ps)) = r_hook r.
Proof.
  unfold row_is. destruct (of_section false ps) as [p fl]. cbn [fst snd]. destruct (kind_type p) as [ty eat]. intros H.
  apply andb_true_iff in H as [H H4]. apply andb_true_iff in H as [H H3]. apply andb_true_iff in H as [H1 H2].
  apply Z.eqb_eq in H1, H3. apply opt_eqb_eq in H2. apply hook_eqb_eq in H4. subst. auto.
Qed.
Lemma row_parse r s : In r table -> matches r s -> exists ps, parse_psec s = Ok ps /\ parse_psec (r_name r) = Ok ps /\ row_is r ps = true.
Proof.
  intros I M. pose proof rows_ok as F. rewrite forallb_forall in F. specialize (F r I). unfold row_ok in F.
  destruct (parse_psec (r_name r)) as [ps|] eqn:P; [|discriminate]. apply andb_true_iff in F as [F1 F2]. exists ps. split; [|auto].
  destruct M as [->|[M [t ->]]]; [exact P|]. rewrite M in F2. cbn in F2. now apply parse_more.
Qed.

Lemma join_app a b : a <> [] -> b <> [] -> join_slash (a ++ b) = join_slash a ++ 47 :: join_slash b.
Proof.
  intros Ha Hb. destruct a as [|x a]; [congruence|]. destruct b as [|y b]; [congruence|]. unfold join_slash. cbn [app].
  rewrite flat_map_app. cbn [flat_map]. rewrite <- !app_assoc. reflexivity.
Qed.
Definition find_row (n : list Z) : option row := find (fun r => str_eqb (r_name r) n) table.
Definition row_for (p : psec) (names : list (list Z)) : bool :=
  match find_row (join_slash names) with Some r => negb (takes_name p) || r_more r | None => false end.
Lemma row_for_all p names : psec_ok p -> spelled p names -> row_for p names = true.
Proof.
  intros K [->|S].
  - destruct p; cbn [psec_ok] in K; try destruct sleepable; try destruct multi; try destruct frags; try destruct verdict; try destruct set; try destruct migrate;
      try (vm_compute; reflexivity).
    + assert (at_ = 0 \/ at_ = 1 \/ at_ = 2) as [-> | [-> | ->]] by lia; vm_compute; reflexivity.
    + assert (at_ = 0 \/ at_ = 1 \/ at_ = 2) as [-> | [-> | ->]] by lia; vm_compute; reflexivity.
    + destruct at_ as [[|]|]; vm_compute; reflexivity.
    + assert (at_ = 0 \/ at_ = 1 \/ at_ = 2 \/ at_ = 3) as [-> | [-> | [-> | ->]]] by lia; vm_compute; reflexivity.
    + assert (at_ = 0 \/ at_ = 1 \/ at_ = 2 \/ at_ = 3 \/ at_ = 4 \/ at_ = 5 \/ at_ = 6 \/ at_ = 7 \/ at_ = 8 \/ at_ = 9 \/ at_ = 10 \/ at_ = 11) as X by lia.
      repeat (destruct X as [->|X]; [vm_compute; reflexivity|]). subst at_. vm_compute. reflexivity.
  - destruct p; cbn [alias] in S; try (destruct S as [<-|[]]; vm_compute; reflexivity); try destruct S.
    destruct at_; cbn [In] in S; try (destruct S as [<-|[]]; vm_compute; reflexivity); destruct S.
Qed.
Lemma spelled_nonempty p names : spelled p names -> names <> [].
Proof.
  intros [->|S] E.
  - destruct p; try discriminate. all: try (destruct at_ as [[|]|]; discriminate).
  - subst. destruct p; cbn [alias] in S; try (destruct S as [S|[]]; discriminate); try destruct S.
    destruct at_; cbn [In] in S; try (destruct S as [S|[]]; discriminate); destruct S.
Qed.
Lemma row_complete s ps : parse_psec s = Ok ps -> exists r, In r table /\ matches r s.
Proof.
  intros H. apply psec_parsed in H as (K & names & rest & S & T & E). pose proof (row_for_all ps names K S) as F. unfold row_for in F.
  destruct (find_row (join_slash names)) as [r|] eqn:R; [|discriminate]. exists r. apply find_some in R as [I R]. apply str_eqb_eq in R. split; [exact I|].
  pose proof (join_split s) as J. rewrite E in J. destruct rest as [|y rest].
  - left. rewrite app_nil_r in J. congruence.
  - destruct T as [T|T]; [|discriminate]. rewrite T in F. cbn in F. right. split; [exact F|]. exists (join_slash (y :: rest)).
    rewrite <- J, R. apply join_app; [now apply (spelled_nonempty ps)|discriminate].
Qed.

(** * Loading *)
Definition name_bad (d : data) : bool := match d_name d with Some n => has_zero n | None => false end.
Definition version_of (running : Z) (o : object) : Z := match ob_version o with Some v => v | None => running end.

Inductive lp_case (k : loader) (running ty : Z) (eat : option Z) (d : data) : res perr unit -> data -> list req -> Prop :=
| LPLoaded : d_fd d <> None \/ d_obj d = None -> lp_case k running ty eat d (Err PAlreadyLoaded) d []
| LPName : d_fd d = None -> d_obj d <> None -> name_bad d = true -> lp_case k running ty eat d (Err PInvalidName) d []
| LPCall o r d' bufs : d_fd d = None -> d_obj d = Some o -> name_bad d = false ->
    bufs = snd (retry_with_verifier_logs 10 (fun i b => k i (load_req ty eat (version_of running o) (d_name d) d o b))) ->
    (r = Err PLogPanic /\ d' = d \/
     (exists e log, fst (retry_with_verifier_logs 10 (fun i b => k i (load_req ty eat (version_of running o) (d_name d) d o b))) = Some (Err e, log) /\
        r = Err (PLoad e log) /\ d' = d) \/
     (exists fd log, fst (retry_with_verifier_logs 10 (fun i b => k i (load_req ty eat (version_of running o) (d_name d) d o b))) = Some (Ok fd, log) /\
        r = Ok tt /\ d' = with_fd (Some fd) d)) ->
    lp_case k running ty eat d r d' (map (load_req ty eat (version_of running o) (d_name d) d o) bufs).
Lemma lp_cases k running ty eat d r d' qs : load_program k running ty eat d = (r, d', qs) -> lp_case k running ty eat d r d' qs.
Proof.
  unfold load_program. destruct (d_fd d) as [fd|] eqn:F.
  { intros H. apply pair_equal_spec in H as [H <-]. apply pair_equal_spec in H as [<- <-]. apply LPLoaded. left. congruence. }
  destruct (d_obj d) as [o|] eqn:O.
  2:{ intros H. apply pair_equal_spec in H as [H <-]. apply pair_equal_spec in H as [<- <-]. apply LPLoaded. now right. }
  fold (name_bad d). destruct (name_bad d) eqn:N.
  { intros H. apply pair_equal_spec in H as [H <-]. apply pair_equal_spec in H as [<- <-]. apply LPName; congruence. }
  fold (version_of running o). cbv zeta.
  destruct (retry_with_verifier_logs 10 _) as [x bufs] eqn:R. intros H.
  assert (qs = map (load_req ty eat (version_of running o) (d_name d) d o) bufs) as ->.
  { destruct x as [[[fd|e] log]|]; apply pair_equal_spec in H as [_ <-]; reflexivity. }
  apply (LPCall k running ty eat d o r d' bufs); auto; [now rewrite R|]. rewrite R. cbn [fst].
  destruct x as [[[fd|e] log]|]; apply pair_equal_spec in H as [H _]; apply pair_equal_spec in H as [<- <-]; [right; right|right; left|left]; eauto.
Qed.

(** [load] is either refused before anything happens or goes on to
    [load_program] with a target recorded. *)
Inductive ld_case (k : loader) (running : Z) (p : kind) (t : target) (d : data) : res perr unit * data * list req -> Prop :=
| LDNone e : ld_case k running p t d (Err e, d, [])
| LDPlain : (hook_name p = None \/ forall n l, t <> THook n l) -> (p <> KExtension \/ forall f n b, t <> TProgram f n b) ->
    ld_case k running p t d (load_program k running (fst (kind_type p)) (snd (kind_type p)) d)
| LDHook n lookup prefix bk id : t = THook n lookup -> hook_name p = Some (prefix, bk) -> lookup (prefix ++ n) bk = Some id ->
    ld_case k running p t d (load_program k running (fst (kind_type p)) (snd (kind_type p)) (with_target (d_btf_obj_fd d) (Some id) (d_prog_fd d) d))
| LDProg fd n btf_fd lookup id : t = TProgram fd n (Some (btf_fd, lookup)) -> p = KExtension -> lookup n 12 = Some id ->
    ld_case k running p t d (load_program k running 28 None (with_target (Some btf_fd) (Some id) (Some fd) d)).
Lemma ld_cases k running p t d : ld_case k running p t d (load k running p t d).
Proof.
  unfold load. destruct (kind_type p) as [ty eat] eqn:KT.
  assert (load_program k running ty eat d = load_program k running (fst (kind_type p)) (snd (kind_type p)) d) as E by now rewrite KT.
  destruct t as [|n lookup|fd n btf].
  - assert (ld_case k running p TNone d (load_program k running ty eat d)) as X by (rewrite E; apply LDPlain; right; discriminate).
    destruct p; cbn [hook_name]; try exact X.
  - destruct (hook_name p) as [[prefix bk]|] eqn:HN.
    + assert (ld_case k running p (THook n lookup) d match lookup (prefix ++ n) bk with
        | None => (Err PBtf, d, []) | Some id => load_program k running ty eat (with_target (d_btf_obj_fd d) (Some id) (d_prog_fd d) d) end) as X.
      { destruct (lookup (prefix ++ n) bk) as [id|] eqn:L; [|apply LDNone].
        replace ty with (fst (kind_type p)) by now rewrite KT. replace eat with (snd (kind_type p)) by now rewrite KT.
        now apply (LDHook k running p (THook n lookup) d n lookup prefix bk id). }
      destruct p; try discriminate HN; rewrite HN; exact X.
    + assert (ld_case k running p (THook n lookup) d (load_program k running ty eat d)) as X by (rewrite E; apply LDPlain; [now left|right; discriminate]).
      destruct p; try discriminate HN; exact X.
  - assert (p = KExtension \/ p <> KExtension) as [-> |NE] by (destruct p; auto; right; discriminate).
    + cbn in KT. apply pair_equal_spec in KT as [<- <-]. cbn [hook_name]. destruct btf as [[btf_fd lookup]|]; [|apply LDNone].
      change BTF_FUNC with 12. destruct (lookup n 12) as [id|] eqn:L; [|apply LDNone]. now apply (LDProg k running KExtension _ d fd n btf_fd lookup id).
    + assert (ld_case k running p (TProgram fd n btf) d (load_program k running ty eat d)) as X by (rewrite E; apply LDPlain; [right; discriminate|now left]).
      destruct p; cbn [hook_name]; try exact X. congruence.
Qed.

(** Every request is [load_req] for the recorded target. *)
Lemma lp_requests k running ty eat d q : In q (snd (load_program k running ty eat d)) ->
  exists o b, d_obj d = Some o /\ q = load_req ty eat (version_of running o) (d_name d) d o b.
Proof.
  destruct (load_program k running ty eat d) as [[r d'] qs] eqn:E. apply lp_cases in E. cbn [snd]. intros I. destruct E as [H|H1 H2 H3|o r d' bufs H1 H2 H3 Hb _]; [destruct I|destruct I|].
  apply in_map_iff in I as (b & <- & _). eauto.
Qed.
Lemma ld_requests k running p t d q : In q (snd (load k running p t d)) ->
  exists o b d0, d_obj d = Some o /\ q = load_req (fst (kind_type p)) (snd (kind_type p)) (version_of running o) (d_name d) d0 o b /\
    d_flags d0 = d_flags d /\ d_level d0 = d_level d /\ d_btf_fd d0 = d_btf_fd d /\
    match t with
    | THook n lookup =>
        match hook_name p with
        | Some (prefix, bk) => exists id, lookup (prefix ++ n) bk = Some id /\ d_btf_id d0 = Some id /\ d_btf_obj_fd d0 = d_btf_obj_fd d /\ d_prog_fd d0 = d_prog_fd d
        | None => d0 = d
        end
    | TProgram fd n btf =>
        (p = KExtension -> exists bfd lookup id, btf = Some (bfd, lookup) /\ lookup n 12 = Some id /\ d_btf_id d0 = Some id /\ d_prog_fd d0 = Some fd) /\
        (p <> KExtension -> d0 = d)
    | TNone => d0 = d
    end.
Proof.
  intros I. remember (load k running p t d) as L eqn:EL. pose proof (ld_cases k running p t d) as C. rewrite <- EL in C. clear EL. destruct C as [e|H1 H2|n lookup prefix bk id Ht HN HL|fd n bfd lookup id Ht Hp HL].
  - destruct I.
  - apply lp_requests in I as (o & b & O & ->). exists o, b, d. split; [exact O|]. do 4 (split; [reflexivity|]).
    destruct t as [|n l|f n b']; [reflexivity| |].
    + destruct H1 as [H1|H1]; [now rewrite H1|now elim (H1 n l)].
    + split; [|reflexivity]. intros ->. destruct H2 as [H2|H2]; [congruence|now elim (H2 f n b')].
  - apply lp_requests in I as (o & b & O & ->). exists o, b. eexists. split; [exact O|]. split; [reflexivity|]. do 3 (split; [reflexivity|]).
    subst t. rewrite HN. exists id. auto.
  - apply lp_requests in I as (o & b & O & ->). exists o, b. eexists. split; [exact O|]. subst p. split; [reflexivity|]. do 3 (split; [reflexivity|]).
    subst t. split; [|congruence]. intros _. exists bfd, lookup, id. auto.
Qed.

Lemma table_requests r s : In r table -> matches r s ->
  exists ps, parse_psec s = Ok ps /\
    forall k running t name o btf level q, In q (requests k running false ps t name o btf level) -> asked r t q.
Proof.
  intros I M. destruct (row_parse r s I M) as (ps & P & _ & R). exists ps. split; [exact P|]. intros k running t name o btf level q Q.
  apply row_is_eq in R as (R1 & R2 & R3). unfold requests in Q. destruct (of_section false ps) as [p fl]. cbn [fst snd] in *.
  apply ld_requests in Q as (o' & b & d0 & O & -> & F & _ & _ & T). rewrite R1. unfold asked. cbn [fst snd load_req q_type q_attach q_flags q_btf_id q_target].
  split; [reflexivity|]. split; [reflexivity|]. split; [rewrite F; exact R2|]. rewrite <- R3. destruct (hook_name p) as [[prefix bk]|] eqn:HN; [|exact Logic.I].
  destruct t as [|n lookup|fd n btf']; [exact Logic.I| |exact Logic.I]. destruct T as (id & L & E1 & E2 & E3). rewrite E1, E2, E3. cbn. auto.
Qed.

Lemma table_complete s ps : parse_psec s = Ok ps ->
  exists r, In r table /\ matches r s /\
    forall k running t name o btf level q, In q (requests k running false ps t name o btf level) -> asked r t q.
Proof.
  intros P. destruct (row_complete s ps P) as (r & I & M). exists r. split; [exact I|]. split; [exact M|].
  destruct (table_requests r s I M) as (ps' & P' & Q). rewrite P in P'. apply ok_inj in P'. subst ps'. exact Q.
Qed.

Lemma extension_requests k running ps fd n btf name o prog_btf level q :
  In q (requests k running true ps (TProgram fd n btf) name o prog_btf level) ->
  q_type q = 28 /\ q_attach q = 0 /\ q_flags q = 0 /\ q_target q = fd /\
  exists bfd lookup, btf = Some (bfd, lookup) /\ lookup n 12 = Some (q_btf_id q).
Proof.
  unfold requests. cbn [of_section]. intros Q. apply ld_requests in Q as (o' & b & d0 & O & -> & F & _ & _ & T & _).
  destruct (T eq_refl) as (bfd & lookup & id & E1 & E2 & E3 & E4). cbn [load_req q_type q_attach q_flags q_btf_id q_target]. rewrite F, E3, E4.
  cbn. repeat split; auto. exists bfd, lookup. auto.
Qed.
