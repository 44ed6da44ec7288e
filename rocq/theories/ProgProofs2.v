(** Proofs about the content of the requests, failed loads and attaching. *)
From Coq Require Import String.
From Verif Require Import Base Text ObjModel ObjSpec ObjProofs6 BtfExt SysModel SysSpec SysProofs ProgModel ProgSpec ProgProofs.
Local Open Scope Z_scope.

(** * Content *)
Lemma nth_repeat0 i n : nth i (repeat 0 n) 0 = 0.
Proof. revert i. induction n as [|n IH]; intros [|i]; cbn; auto. Qed.
Lemma nth_firstn_lt {A} (l : list A) n i x : (i < n)%nat -> nth i (firstn n l) x = nth i l x.
Proof. revert n i. induction l as [|a l IH]; intros [|n] [|i] H; cbn; auto; try lia. apply IH. lia. Qed.
Lemma name_field_ok name : name_ok name (name_field name).
Proof.
  unfold name_ok, name_field. set (n := match name with Some n => n | None => [] end).
  replace (match name with Some n => firstn 15 n | None => [] end) with (firstn 15 n) by now destruct name.
  assert (forall i, match name with Some n => nth i n 0 | None => 0 end = nth i n 0) as E by (intros i; destruct name; [reflexivity|destruct i; reflexivity]).
  assert (length (firstn 15 n) <= 15)%nat as L by apply firstn_le_length. split; [rewrite app_length, repeat_length; lia|]. intros i. rewrite E.
  destruct (Nat.ltb_spec i 15) as [H|H].
  - destruct (Nat.lt_ge_cases i (length (firstn 15 n))) as [J|J].
    + rewrite app_nth1 by exact J. now apply nth_firstn_lt.
    + rewrite app_nth2 by exact J. rewrite nth_repeat0. rewrite firstn_length in J. symmetry. apply nth_overflow. lia.
  - rewrite app_nth2 by lia. apply nth_repeat0.
Qed.
Lemma load_req_own running d d0 ty eat o b :
  d_flags d0 = d_flags d -> d_level d0 = d_level d -> d_btf_fd d0 = d_btf_fd d ->
  own running d o (load_req ty eat (version_of running o) (d_name d) d0 o b).
Proof.
  intros F L B. unfold own. cbn [load_req q_name q_flags q_insns q_insn_cnt q_license q_version q_btf_fd q_func q_line q_func_cnt q_line_cnt q_log q_log_size q_level].
  rewrite F, L, B. split; [apply name_field_ok|]. split; [reflexivity|]. split; [reflexivity|].
  split; [intros H; apply Z.mod_small; lia|]. split; [reflexivity|]. split; [unfold version_of; now destruct (ob_version o)|].
  split; [destruct (d_btf_fd d); cbn; auto|]. destruct b as [|x b]; cbn [negb]; [auto|]. split; [reflexivity|]. intros H. apply Z.mod_small. lia.
Qed.
Lemma ld_own k running p t d q : In q (snd (load k running p t d)) -> exists o, d_obj d = Some o /\ own running d o q.
Proof. intros I. apply ld_requests in I as (o & b & d0 & O & -> & F & L & B & _). exists o. split; [exact O|now apply load_req_own]. Qed.

Lemma lp_same k running ty eat d q q' : In q (snd (load_program k running ty eat d)) -> In q' (snd (load_program k running ty eat d)) -> same_but_log q q'.
Proof.
  intros I I'. apply lp_requests in I as (o & b & O & ->). apply lp_requests in I' as (o' & b' & O' & ->). rewrite O in O'. apply some_inj in O'. subst o'.
  unfold same_but_log. do 3 eexists. unfold load_req. cbn [q_name q_flags q_type q_attach q_insns q_insn_cnt q_license q_version q_btf_fd q_func q_func_cnt q_func_rec q_line q_line_cnt q_line_rec q_target q_btf_id].
  reflexivity.
Qed.
Lemma ld_same k running p t d q q' : In q (snd (load k running p t d)) -> In q' (snd (load k running p t d)) -> same_but_log q q'.
Proof. destruct (ld_cases k running p t d); [intros []| | |]; apply lp_same. Qed.

(** When no request is made. *)
Definition hidden (d : data) : Prop := d_fd d <> None \/ d_obj d = None \/ exists n, d_name d = Some n /\ In 0 n.
Lemma has_zero_in l : has_zero l = true <-> In 0 l.
Proof. unfold has_zero. rewrite existsb_exists. split; [intros (x & I & E); apply Z.eqb_eq in E; now subst|intros I; exists 0; now split]. Qed.
Lemma lp_refused k running ty eat d : hidden d -> exists e, load_program k running ty eat d = (Err e, d, []) /\ (e = PAlreadyLoaded \/ e = PInvalidName).
Proof.
  intros H. destruct (load_program k running ty eat d) as [[r d'] qs] eqn:E. apply lp_cases in E. destruct E as [H1|H1 H2 H3|o r d' bufs H1 H2 H3 _ _].
  - exists PAlreadyLoaded. auto.
  - exists PInvalidName. auto.
  - exfalso. destruct H as [H|[H|(n & N & Z0)]]; [congruence|congruence|]. unfold name_bad in H3. rewrite N in H3. apply has_zero_in in Z0. congruence.
Qed.
Lemma hidden_target a b c d : hidden (with_target a b c d) <-> hidden d.
Proof. unfold hidden. cbn. tauto. Qed.
Lemma ld_refused k running p t d : hidden d -> snd (load k running p t d) = [] /\ exists e, fst (fst (load k running p t d)) = Err e.
Proof.
  intros H. destruct (ld_cases k running p t d) as [e|H1 H2|n lookup prefix bk id Ht HN HL|fd n bfd lookup id Ht Hp HL].
  - cbn [fst snd]. eauto.
  - destruct (lp_refused k running (fst (kind_type p)) (snd (kind_type p)) d H) as (e & -> & _). cbn [fst snd]. eauto.
  - destruct (lp_refused k running (fst (kind_type p)) (snd (kind_type p)) _ (proj2 (hidden_target (d_btf_obj_fd d) (Some id) (d_prog_fd d) d) H)) as (e & -> & _). cbn [fst snd]. eauto.
  - destruct (lp_refused k running 28 None _ (proj2 (hidden_target (Some bfd) (Some id) (Some fd) d) H)) as (e & -> & _). cbn [fst snd]. eauto.
Qed.

(** The calls made and what decides the outcome. *)
Lemma honest_keeps k ty eat v name d o : honest k -> keeps (fun i b => k i (load_req ty eat v name d o b)).
Proof. intros H i b. rewrite H. cbn [load_req q_log]. now destruct b. Qed.
Lemma last_map {A B} (f : A -> B) l x y : last (map f (l ++ [x])) y = f x.
Proof. rewrite map_app. cbn [map]. apply last_last. Qed.
Lemma lp_calls k running ty eat d r d' qs : honest k -> ~ hidden d -> load_program k running ty eat d = (r, d', qs) ->
  (1 <= length qs <= 11)%nat /\
  exists pre q, qs = pre ++ [q] /\
    (forall fd, r = Ok tt -> d_fd d' = Some fd <-> fst (k (length pre) q) = Ok fd) /\
    (r = Ok tt -> exists fd, d' = with_fd (Some fd) d) /\
    (forall e log, r = Err (PLoad e log) -> fst (k (length pre) q) = Err e) /\
    (forall i c, nth_error pre i = Some c -> exists e, fst (k i c) = Err e).
Proof.
  intros Hk Hd E. apply lp_cases in E. destruct E as [H|H1 H2 H3|o r d' bufs H1 H2 H3 Hb Hr].
  { exfalso. apply Hd. unfold hidden. tauto. }
  { exfalso. apply Hd. unfold hidden. unfold name_bad in H3. destruct (d_name d) as [n|]; [|discriminate]. right. right. exists n. split; [reflexivity|now apply has_zero_in]. }
  set (q := load_req ty eat (version_of running o) (d_name d) d o) in *. pose proof (honest_keeps k ty eat (version_of running o) (d_name d) d o Hk) as Kf. fold q in Kf.
  pose proof (retry_bounded 10 _ Kf) as (B & _). rewrite <- Hb in B. rewrite map_length. split; [lia|].
  destruct (retry_outcome 10 _ Kf) as (pre & b & E1 & E2 & E3 & _). rewrite <- Hb in E1. exists (map q pre), (q b).
  split; [rewrite E1, map_app; reflexivity|]. rewrite map_length. split; [|split; [|split]].
  - intros fd Hok. destruct Hr as [[Hr _]|[(e & log & _ & Hr & _)|(fd' & log & R & _ & ->)]]; [congruence|congruence|]. destruct (E3 _ _ R) as [<- _]. cbn [with_fd d_fd].
    split; intros X; [apply some_inj in X|apply ok_inj in X]; now subst.
  - intros Hok. destruct Hr as [[Hr _]|[(e & log & _ & Hr & _)|(fd' & log & R & _ & ->)]]; [congruence|congruence|]. eauto.
  - intros e log Herr. destruct Hr as [[Hr _]|[(e' & log' & R & Hr & _)|(fd' & log' & R & Hr & ->)]]; [congruence| |congruence].
    rewrite Hr in Herr. injection Herr as -> ->. now destruct (E3 _ _ R) as [<- _].
  - intros i c N. rewrite nth_error_map in N. destruct (nth_error pre i) as [c'|] eqn:N'; [|discriminate]. cbn in N. apply some_inj in N. subst c.
    destruct (E2 _ _ N') as (e & -> & _). eauto.
Qed.
Lemma ld_calls k running p t d r d' qs : honest k -> ~ hidden d -> found p t -> load k running p t d = (r, d', qs) ->
  (1 <= length qs <= 11)%nat /\
  exists pre q, qs = pre ++ [q] /\
    (forall fd, r = Ok tt -> d_fd d' = Some fd <-> fst (k (length pre) q) = Ok fd) /\
    (forall e log, r = Err (PLoad e log) -> fst (k (length pre) q) = Err e) /\
    (forall i c, nth_error pre i = Some c -> exists e, fst (k i c) = Err e).
Proof.
  intros Hk Hd F E.
  assert (exists ty eat a b c, load k running p t d = load_program k running ty eat (with_target a b c d)) as (ty & eat & a & b & c & L).
  { assert (with_target (d_btf_obj_fd d) (d_btf_id d) (d_prog_fd d) d = d) as W by now destruct d.
    unfold load. destruct (kind_type p) as [ty eat]. destruct t as [|n lookup|fd n btf]; cbn [found] in F.
    - destruct F as [F1 F2]. exists ty, eat, (d_btf_obj_fd d), (d_btf_id d), (d_prog_fd d). rewrite W. destruct p; try reflexivity; discriminate F1.
    - destruct F as (prefix & bk & id & F1 & F2). exists ty, eat, (d_btf_obj_fd d), (Some id), (d_prog_fd d).
      destruct p; try discriminate F1; rewrite F1, F2; reflexivity.
    - destruct F as (-> & bfd & lookup & id & -> & F2). change BTF_FUNC with 12. rewrite F2. exists ty, eat, (Some bfd), (Some id), (Some fd). reflexivity. }
  rewrite L in E. apply lp_calls in E as (E1 & pre & q & E2 & E3 & _ & E5 & E6); auto.
  split; [exact E1|]. exists pre, q. auto.
Qed.

(** The info records lie in memory when the record sizes are those of the
    structures. *)
Lemma concat_len {A} (f : A -> list Z) n l : (forall x, length (f x) = n) -> length (concat (map f l)) = (n * length l)%nat.
Proof. intros H. induction l as [|x l IH]; cbn [map concat length]; [lia|]. rewrite app_length, H, IH. lia. Qed.
Lemma finfo_len f : length (finfo_bytes f) = 8%nat.
Proof. unfold finfo_bytes. rewrite app_length, !le_enc_length. reflexivity. Qed.
Lemma linfo_len l : length (linfo_bytes l) = 16%nat.
Proof. unfold linfo_bytes. rewrite !app_length, !le_enc_length. reflexivity. Qed.
Lemma u32_le x : 0 <= x -> u32 x <= x.
Proof. intros H. unfold u32. apply Z.mod_le; lia. Qed.
Lemma load_req_infos ty eat v name d o b : (0 <= ob_func_rec o <= 8 \/ d_btf_fd d = None) -> (0 <= ob_line_rec o <= 16 \/ d_btf_fd d = None) ->
  infos_ok (load_req ty eat v name d o b).
Proof.
  intros F L. unfold infos_ok, region. cbn [load_req q_func q_func_cnt q_func_rec q_line q_line_cnt q_line_rec].
  destruct (d_btf_fd d) as [bf|] eqn:B; cbn [andb]; [|auto]. destruct F as [F|F]; [|discriminate]. destruct L as [L|L]; [|discriminate].
  assert (forall z n m, 0 <= z -> 0 <= n <= m -> u32 z * u32 n <= z * m) as M.
  { intros z n m Hz Hn. pose proof (u32_le z Hz). pose proof (u32_le n (proj1 Hn)). assert (forall x, 0 <= u32 x) as P by (intros x; apply Z.mod_pos_bound; reflexivity). pose proof (P z). pose proof (P n). apply Z.mul_le_mono_nonneg; lia. }
  split.
  - destruct (0 <? ob_func_rec o); [|reflexivity]. rewrite (concat_len _ 8) by apply finfo_len.
    pose proof (M (Z.of_nat (length (ob_func o))) (ob_func_rec o) 8). lia.
  - destruct (0 <? ob_line_rec o); [|reflexivity]. rewrite (concat_len _ 16) by apply linfo_len.
    pose proof (M (Z.of_nat (length (ob_line o))) (ob_line_rec o) 16). lia.
Qed.
Lemma ld_infos k running p t d o q : d_obj d = Some o -> 0 <= ob_func_rec o <= 8 -> 0 <= ob_line_rec o <= 16 ->
  In q (snd (load k running p t d)) -> infos_ok q.
Proof.
  intros O F L I. apply ld_requests in I as (o' & b & d0 & O' & -> & _). rewrite O in O'. apply some_inj in O'. subst o'. apply load_req_infos; auto.
Qed.

(** * Failed loads *)
Lemma lp_failed k running ty eat d e d' qs : load_program k running ty eat d = (Err e, d', qs) -> d' = d.
Proof.
  intros H. apply lp_cases in H. inversion H as [| |o r d1 bufs H1 H2 H3 Hb Hr]; subst; auto.
  destruct Hr as [[_ Hr]|[(e' & log & _ & _ & Hr)|(fd & log & _ & Hr & _)]]; auto. discriminate.
Qed.
Lemma with_target_fields a b c d :
  d_fd (with_target a b c d) = d_fd d /\ d_name (with_target a b c d) = d_name d /\ d_obj (with_target a b c d) = d_obj d /\
  d_btf_fd (with_target a b c d) = d_btf_fd d /\ d_level (with_target a b c d) = d_level d /\ d_flags (with_target a b c d) = d_flags d.
Proof. repeat split. Qed.
Lemma ld_failed k running p t d e d' qs : load k running p t d = (Err e, d', qs) ->
  exists a b c, d' = with_target a b c d /\
    (hook_name p = None -> p <> KExtension -> d' = d) /\ (p <> KExtension -> a = d_btf_obj_fd d /\ c = d_prog_fd d).
Proof.
  intros H. assert (with_target (d_btf_obj_fd d) (d_btf_id d) (d_prog_fd d) d = d) as W by now destruct d.
  pose proof (ld_cases k running p t d) as C. rewrite H in C.
  remember (Err e, d', qs) as L eqn:EL. destruct C as [e'|H1 H2|n lookup prefix bk id Ht HN HL|fd n bfd lookup id Ht Hp HL].
  - apply pair_equal_spec in EL as [EL _]. apply pair_equal_spec in EL as [_ <-]. exists (d_btf_obj_fd d), (d_btf_id d), (d_prog_fd d). rewrite W. auto.
  - apply lp_failed in EL. subst d'. exists (d_btf_obj_fd d), (d_btf_id d), (d_prog_fd d). rewrite W. auto.
  - apply lp_failed in EL. subst d'. do 3 eexists. split; [reflexivity|]. split; [congruence|auto].
  - apply lp_failed in EL. subst d'. do 3 eexists. split; [reflexivity|]. split; congruence.
Qed.
Lemma attach_target link p s a b c d : p <> KExtension -> attach_req link p s (with_target a b c d) = attach_req link p s d.
Proof. intros N. unfold attach_req. cbn [with_target d_fd]. destruct (d_fd d); [|reflexivity]. destruct p; try reflexivity. congruence. Qed.
Lemma ld_failed_attach k running p t d e d' qs : load k running p t d = (Err e, d', qs) -> (p <> KExtension \/ d_fd d = None) ->
  d_fd d' = d_fd d /\ forall link s, attach_req link p s d' = attach_req link p s d.
Proof.
  intros H C. destruct (ld_failed _ _ _ _ _ _ _ _ H) as (a & b & c & -> & _). split; [reflexivity|]. intros link s.
  destruct C as [C|C]; [now apply attach_target|]. unfold attach_req. cbn [with_target d_fd]. now rewrite C.
Qed.

(** * Attaching *)
Lemma attach_loaded link p s d a : attach_req link p s d = Ok a -> d_fd d = Some (areq_prog a).
Proof.
  unfold attach_req. destruct (d_fd d) as [g|]; [|discriminate]. intros H. f_equal.
  destruct p, s; try discriminate H; try (apply ok_inj in H; subst a; unfold by_cgroup; destruct link; reflexivity).
  destruct (d_prog_fd d), (d_btf_id d); try discriminate H. apply ok_inj in H. now subst a.
Qed.
Lemma attach_site link p s d a f : attach_req link p s d = Ok a -> site_fd s = Some f -> areq_fd a = Some f.
Proof.
  unfold attach_req. destruct (d_fd d) as [g|]; [|discriminate]. intros H S.
  destruct p, s; try discriminate H; try discriminate S; cbn in S; apply some_inj in S; subst; try (apply ok_inj in H; subst a; unfold by_cgroup; destruct link; reflexivity).
Qed.
Lemma attach_ext link s d a : attach_req link KExtension s d = Ok a ->
  areq_fd a = d_prog_fd d /\ exists g t id, a = ALinkCreate g (WFd t) 0 0 (Some id) /\ d_btf_id d = Some id.
Proof.
  unfold attach_req. destruct (d_fd d) as [g|]; [|discriminate]. destruct s; try discriminate. destruct (d_prog_fd d) as [t|]; [|discriminate].
  destruct (d_btf_id d) as [id|] eqn:B; [|discriminate]. intros H. apply ok_inj in H. subst a. split; [reflexivity|]. exists g, t, id. auto.
Qed.
Lemma attach_type_kind link p s d a t : attach_req link p s d = Ok a -> areq_type a = Some t ->
  match s with
  | SSkb _ at_ _ => t = at_ /\ fst (kind_type p) = 8
  | _ => snd (kind_type p) = Some t \/ p = KSkSkb t \/ p = KExtension /\ t = 0
  end.
Proof.
  unfold attach_req. destruct (d_fd d) as [g|]; [|discriminate]. intros H A.
  destruct p, s; try discriminate H;
    try (apply ok_inj in H; subst a; unfold by_cgroup in A; destruct link; cbn in A; first [discriminate A|apply some_inj in A; subst t; cbn; auto; fail]).
  destruct (d_prog_fd d), (d_btf_id d); try discriminate H. apply ok_inj in H. subst a. cbn in A. apply some_inj in A. subst t. auto.
Qed.
Lemma late_rows : forallb (fun r => match parse_psec (r_name r) with
  | Ok ps => match fst (of_section false ps) with KSkSkb t => existsb (fun x => str_eqb (fst x) (r_name r) && (snd x =? t)) late && opt_eqb (r_attach r) None
                                             | KExtension => existsb (fun x => str_eqb (fst x) (r_name r) && (snd x =? 0)) late && opt_eqb (r_attach r) None | _ => true end
  | Err _ => false end) table = true.
Proof. vm_compute. reflexivity. Qed.
Lemma existsb_late r t : existsb (fun x => str_eqb (fst x) (r_name r) && (snd x =? t)) late && opt_eqb (r_attach r) None = true ->
  r_attach r = None /\ In (r_name r, t) late.
Proof.
  intros H. apply andb_true_iff in H as [H1 H2]. apply opt_eqb_eq in H2. split; [exact H2|]. apply existsb_exists in H1 as ((n, v) & I & E). cbn [fst snd] in E.
  apply andb_true_iff in E as [E1 E2]. apply str_eqb_eq in E1. apply Z.eqb_eq in E2. now subst.
Qed.
Lemma attach_type_row r sec ps p fl link s d a t : In r table -> matches r sec -> parse_psec sec = Ok ps -> of_section false ps = (p, fl) ->
  attach_req link p s d = Ok a -> areq_type a = Some t -> attach_type_ok r s t.
Proof.
  intros I M P O A T. destruct (row_parse r sec I M) as (ps' & P' & PN & R). rewrite P in P'. apply ok_inj in P'. subst ps'.
  apply row_is_eq in R as (R1 & R2 & R3). rewrite O in R1. cbn [fst] in R1. pose proof (attach_type_kind _ _ _ _ _ _ A T) as K. unfold attach_type_ok.
  pose proof late_rows as F. rewrite forallb_forall in F. specialize (F r I). cbv beta in F. rewrite PN, O in F. cbn [fst] in F.
  rewrite R1 in K. cbn [fst snd] in K.
  assert (p = KSkSkb t \/ p = KExtension /\ t = 0 -> r_attach r = None /\ In (r_name r, t) late) as X
    by (intros [-> | [-> ->]]; now apply existsb_late).
  destruct s; tauto.
Qed.

(** The mode. *)
Lemma mode_old p s d a m : cgroup_kind p = true -> site_mode s = Some m -> attach_req false p s d = Ok a -> kernel_cgroup a = Ok m.
Proof.
  intros C S. unfold attach_req. destruct (d_fd d) as [g|]; [|discriminate]. intros H.
  destruct p; try discriminate C; destruct s; try discriminate H; try discriminate S; cbn in S; apply some_inj in S; subst; apply ok_inj in H; subst a;
    destruct m; reflexivity.
Qed.
Lemma mode_new p s d a m : cgroup_kind p = true -> site_mode s = Some m -> attach_req true p s d = Ok a ->
  kernel_cgroup a = match m with CSingle => Ok CAllowMultiple | _ => Err 22 end.
Proof.
  intros C S. unfold attach_req. destruct (d_fd d) as [g|]; [|discriminate]. intros H.
  destruct p; try discriminate C; destruct s; try discriminate H; try discriminate S; cbn in S; apply some_inj in S; subst; apply ok_inj in H; subst a;
    destruct m; reflexivity.
Qed.
Lemma detach_same link p s d a g f t : attach_req link p s d = Ok a -> detach_req a = Some (g, f, t) ->
  g = areq_prog a /\ areq_fd a = Some f /\ areq_type a = Some t /\ d_fd d = Some g /\ site_fd s = Some f.
Proof.
  intros H D. destruct a as [| g' f' t' fl| |]; try discriminate D. cbn in D. injection D as -> -> ->. pose proof (attach_loaded _ _ _ _ _ H) as L.
  repeat split; auto. unfold attach_req in H. rewrite L in H.
  destruct p, s; try discriminate H; try (apply ok_inj in H; unfold by_cgroup in H; destruct link; first [discriminate H|injection H as -> -> -> ->; reflexivity|injection H as -> -> ->; reflexivity|injection H as -> ->; reflexivity|injection H as ->; reflexivity]).
  destruct (d_prog_fd d), (d_btf_id d); discriminate H.
Qed.

Lemma attach_call link p s d a : attach_req link p s d = Ok a -> call_ok (fst (kind_type p)) s a.
Proof.
  unfold attach_req. destruct (d_fd d) as [g|]; [|discriminate]. intros H.
  destruct p, s; try discriminate H; cbn [call_ok kind_type fst];
    try (apply ok_inj in H; subst a; unfold by_cgroup; destruct link; cbn; repeat split; intros; try discriminate; eauto; fail).
  intros X. now elim X.
Qed.
