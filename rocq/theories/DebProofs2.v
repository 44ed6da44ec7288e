(** Unpacking the packages of a kernel: what is found. *)
From Coq Require Import String.
From Verif Require Import Base Text TextParse LogModel TextSplit KmodModel KmodProofs UbuntuProofs DebModel DebSpec DebProofs.
Local Open Scope Z_scope.

Lemma below_iff prefix e : below_boot prefix e <-> snd e = true /\ exists n rest, fst (fst e) = txt "boot" :: n :: rest /\ starts_with prefix n = true.
Proof.
  destruct e as ((names, slash), file). unfold below_boot. cbn [fst snd]. split.
  - intros (v & rest & sl & E). apply pair_equal_spec in E as [E ->]. apply pair_equal_spec in E as [-> _]. split; [reflexivity|]. exists (prefix ++ v), rest. split; [reflexivity|apply starts_with_app].
  - intros (-> & n & rest & -> & S). apply starts_with_iff in S as (v & ->). exists v, rest, slash. reflexivity.
Qed.
Lemma image_select e : fine_entry e -> (wanted_image e /\ select_image (tar_of e) = DUnpack (Some KImage)) \/ (~ wanted_image e /\ select_image (tar_of e) = DSkip).
Proof.
  intros F. unfold wanted_image. rewrite below_iff. unfold select_image. change (t_file (tar_of e)) with (snd e). destruct (snd e); cbn [negb]; [|right; split; [intros (X & _); discriminate X|reflexivity]].
  destruct (first_component_after (t_path (tar_of e)) (txt "./boot/")) as [n|] eqn:B.
  - apply (first_boot e n F) in B as (rest & E). rewrite E. destruct (starts_with (txt "vmlinuz-") n) eqn:S.
    + left. split; [|reflexivity]. split; [reflexivity|]. exists n, rest. split; [reflexivity|exact S].
    + right. split; [|reflexivity]. intros (_ & m & r & Q & X). apply cons_inj in Q as [_ Q]. apply cons_inj in Q as [-> _]. congruence.
  - right. split; [|reflexivity]. intros (_ & m & r & Q & _). assert (X : first_component_after (t_path (tar_of e)) (txt "./boot/") = Some m) by (apply first_boot; [exact F|exists r; exact Q]). congruence.
Qed.
(** The kind of an entry of the other package. *)
Inductive sorted_as : entry -> option kind -> Prop :=
  | s_modules e : modules_entry e -> sorted_as e (Some KModules)
  | s_inside e : (exists r, fst (fst e) = txt "lib" :: txt "modules" :: r \/ fst (fst e) = txt "usr" :: txt "lib" :: txt "modules" :: r) -> ~ modules_entry e -> sorted_as e None
  | s_config e : below_boot (txt "config-") e -> sorted_as e (Some KConfig)
  | s_map e : below_boot (txt "System.map-") e -> sorted_as e (Some KMap).
Lemma one_component_iff r : one_component (map Normal r) = true <-> exists v, r = [v].
Proof. destruct r as [|a [|b r]]; cbn; split; try discriminate; try (intros (v & E); discriminate E). - intros _. exists a. reflexivity. - reflexivity. Qed.
Lemma modules_entry_iff e : modules_entry e <-> exists v, fst (fst e) = [txt "lib"; txt "modules"; v] \/ fst (fst e) = [txt "usr"; txt "lib"; txt "modules"; v].
Proof.
  destruct e as ((names, slash), file). unfold modules_entry. cbn [fst]. split.
  - intros (v & sl & f & [E|E]); apply pair_equal_spec in E as [E _]; apply pair_equal_spec in E as [-> _]; exists v; auto.
  - intros (v & [-> | ->]); exists v, slash, file; auto.
Qed.
Lemma wanted_modules_iff e : wanted_modules e <-> (exists r, fst (fst e) = txt "lib" :: txt "modules" :: r \/ fst (fst e) = txt "usr" :: txt "lib" :: txt "modules" :: r) \/ below_boot (txt "config-") e \/ below_boot (txt "System.map-") e.
Proof.
  destruct e as ((names, slash), file). unfold wanted_modules. cbn [fst]. split; (intros [H|H]; [left|right; exact H]).
  - destruct H as (r & sl & f & [E|E]); apply pair_equal_spec in E as [E _]; apply pair_equal_spec in E as [-> _]; exists r; auto.
  - destruct H as (r & [-> | ->]); exists r, slash, file; auto.
Qed.
Lemma modules_select e : fine_entry e -> (exists k, sorted_as e k /\ wanted_modules e /\ select_modules (tar_of e) = DUnpack k) \/ (~ wanted_modules e /\ select_modules (tar_of e) = DSkip).
Proof.
  intros F. pose proof (wanted_modules_iff e) as W. remember (wanted_modules e) as w eqn:Ew. clear Ew. unfold select_modules.
  destruct (strip_comps (components (txt "./lib/modules/")) (components (t_path (tar_of e)))) as [x|] eqn:L.
  { left. apply (lib_strip e x F) in L as (r & E & ->). destruct (one_component (map Normal r)) eqn:O.
    - apply one_component_iff in O as (v & ->). exists (Some KModules). split; [constructor; apply modules_entry_iff; exists v; left; exact E|]. split; [apply W; left; exists [v]; left; exact E|reflexivity].
    - exists None. split; [|split; [apply W; left; exists r; left; exact E|reflexivity]]. constructor; [exists r; left; exact E|]. intros M. apply modules_entry_iff in M as (v & [Q|Q]); rewrite E in Q.
      + apply cons_inj in Q as [_ Q]. apply cons_inj in Q as [_ ->]. discriminate O.
      + apply cons_inj in Q as [Q _]. discriminate Q. }
  destruct (strip_comps (components (txt "./usr/lib/modules/")) (components (t_path (tar_of e)))) as [x|] eqn:U.
  { left. apply (usr_strip e x F) in U as (r & E & ->). destruct (one_component (map Normal r)) eqn:O.
    - apply one_component_iff in O as (v & ->). exists (Some KModules). split; [constructor; apply modules_entry_iff; exists v; right; exact E|]. split; [apply W; left; exists [v]; right; exact E|reflexivity].
    - exists None. split; [|split; [apply W; left; exists r; right; exact E|reflexivity]]. constructor; [exists r; right; exact E|]. intros M. apply modules_entry_iff in M as (v & [Q|Q]); rewrite E in Q.
      + apply cons_inj in Q as [Q _]. discriminate Q.
      + apply cons_inj in Q as [_ Q]. apply cons_inj in Q as [_ Q]. apply cons_inj in Q as [_ ->]. discriminate O. }
  assert (NL : ~ exists r, fst (fst e) = txt "lib" :: txt "modules" :: r \/ fst (fst e) = txt "usr" :: txt "lib" :: txt "modules" :: r).
  { intros (r & [E|E]).
    - assert (X : strip_comps (components (txt "./lib/modules/")) (components (t_path (tar_of e))) = Some (map Normal r)) by (apply lib_strip; [exact F|exists r; auto]). congruence.
    - assert (X : strip_comps (components (txt "./usr/lib/modules/")) (components (t_path (tar_of e))) = Some (map Normal r)) by (apply usr_strip; [exact F|exists r; auto]). congruence. }
  rewrite !below_iff in W. change (t_file (tar_of e)) with (snd e). destruct (snd e) eqn:Fl; cbn [negb]; [|right; split; [intros H; apply W in H as [H|[(H & _)|(H & _)]]; [exact (NL H)|discriminate H|discriminate H]|reflexivity]].
  destruct (first_component_after (t_path (tar_of e)) (txt "./boot/")) as [n|] eqn:B.
  - apply (first_boot e n F) in B as (rest & E). destruct (starts_with (txt "config-") n) eqn:C.
    { left. exists (Some KConfig). split; [constructor; apply below_iff; split; [exact Fl|]; exists n, rest; auto|]. split; [|reflexivity]. apply W. right. left. split; [reflexivity|]. exists n, rest. auto. }
    destruct (starts_with (txt "System.map-") n) eqn:M.
    { left. exists (Some KMap). split; [constructor; apply below_iff; split; [exact Fl|]; exists n, rest; auto|]. split; [|reflexivity]. apply W. right. right. split; [reflexivity|]. exists n, rest. auto. }
    right. split; [|reflexivity]. intros H. apply W in H as [H|[(_ & m & r & Q & X)|(_ & m & r & Q & X)]]; [exact (NL H)| |]; rewrite E in Q; apply cons_inj in Q as [_ Q]; apply cons_inj in Q as [<- _]; congruence.
  - right. split; [|reflexivity]. intros H. apply W in H as [H|[(_ & m & r & Q & X)|(_ & m & r & Q & X)]]; [exact (NL H)| |];
      (assert (Y : first_component_after (t_path (tar_of e)) (txt "./boot/") = Some m) by (apply first_boot; [exact F|exists r; exact Q])); congruence.
Qed.
(** Kinds exclude each other. *)
Lemma boot_not_modules p e : below_boot p e -> ~ (exists r, fst (fst e) = txt "lib" :: txt "modules" :: r \/ fst (fst e) = txt "usr" :: txt "lib" :: txt "modules" :: r).
Proof. intros B. apply below_iff in B as (_ & n & rest & -> & _). intros (r & [E|E]); apply cons_inj in E as [E _]; discriminate E. Qed.
Lemma config_not_map e : below_boot (txt "config-") e -> ~ below_boot (txt "System.map-") e.
Proof.
  intros A B. apply below_iff in A as (_ & n & rest & E & S), B as (_ & m & r & Q & T). rewrite E in Q. apply cons_inj in Q as [_ Q]. apply cons_inj in Q as [<- _].
  apply starts_with_iff in S as (x & ->). discriminate T.
Qed.
Lemma modules_are_inside e : modules_entry e -> exists r, fst (fst e) = txt "lib" :: txt "modules" :: r \/ fst (fst e) = txt "usr" :: txt "lib" :: txt "modules" :: r.
Proof. intros M. apply modules_entry_iff in M as (v & [E|E]); exists [v]; auto. Qed.
Lemma sorted_iff e k : sorted_as e k ->
  (k = Some KModules <-> modules_entry e) /\ (k = Some KConfig <-> below_boot (txt "config-") e) /\ (k = Some KMap <-> below_boot (txt "System.map-") e).
Proof.
  intros S. destruct S as [e M|e I N|e C|e C].
  - pose proof (modules_are_inside e M) as I. split; [split; auto|]. split; split; try discriminate; intros B; exfalso; exact (boot_not_modules _ _ B I).
  - split; [split; [discriminate|contradiction]|]. split; split; try discriminate; intros B; exfalso; exact (boot_not_modules _ _ B I).
  - split; [split; [discriminate|intros M; exfalso; exact (boot_not_modules _ _ C (modules_are_inside e M))]|]. split; [split; auto|]. split; [discriminate|]. intros B. exfalso. exact (config_not_map e C B).
  - split; [split; [discriminate|intros M; exfalso; exact (boot_not_modules _ _ C (modules_are_inside e M))]|]. split; [|split; auto]. split; [discriminate|]. intros B. exfalso. exact (config_not_map e B C).
Qed.

(** * Unpacking *)

Definition found_of (select : tar_entry -> disposition) (e : entry) : list (kind * str) := match select (tar_of e) with DUnpack (Some k) => [(k, entry_path e)] | _ => [] end.
Definition done_of (select : tar_entry -> disposition) (e : entry) : list str := match select (tar_of e) with DUnpack _ => [entry_path e] | _ => [] end.
Lemma entries_unpack select l : Forall fine_entry l -> unpack_entries select (map (fun e => Some (tar_of e)) l) = Ok (flat_map (found_of select) l, flat_map (done_of select) l).
Proof.
  induction 1 as [|e l F _ IH]; [reflexivity|]. cbn [map unpack_entries flat_map]. unfold found_of at 1, done_of at 1. destruct (select (tar_of e)) as [|k]; [exact IH|].
  rewrite (entry_unpackable e F), IH. cbn [bind]. destruct k; reflexivity.
Qed.
Lemma is_data_iff n : is_data n = true <-> exists m, n = Some m /\ In m [txt "data.tar"; txt "data.tar.xz"; txt "data.tar.zst"].
Proof.
  unfold is_data. destruct n as [n|]; [|split; [discriminate|intros (m & E & _); discriminate E]]. rewrite !orb_true_iff, !str_eqb_iff. split.
  - intros H. exists n. split; [reflexivity|]. cbn [In]. intuition.
  - intros (m & E & I). apply some_inj in E. subst m. cbn [In] in I. intuition.
Qed.
Lemma members_none select l : Forall (fun m => is_data (fst m) = false) l -> unpack_members select l = Ok ([], [], 0%nat).
Proof. induction 1 as [|(n, e) l D _ IH]; [reflexivity|]. cbn [fst] in D. cbn [unpack_members]. rewrite D. exact IH. Qed.
Lemma with_deb_ok select d l : data_of d l -> Forall fine_entry l -> with_deb select d = Ok (flat_map (found_of select) l, flat_map (done_of select) l).
Proof.
  intros (a & n & b & -> & I & O) F. unfold with_deb.
  assert (O' : Forall (fun m => is_data (fst m) = false) (a ++ b)).
  { eapply Forall_impl; [|exact O]. intros m H. destruct (is_data (fst m)) eqn:D; [|reflexivity]. apply is_data_iff in D as (x & E & J). exfalso. exact (H x E J). }
  apply Forall_app in O' as (Oa & Ob).
  assert (E : unpack_members select (a ++ (Some n, map (fun e => Some (tar_of e)) l) :: b) = Ok (flat_map (found_of select) l, flat_map (done_of select) l, 1%nat)).
  { induction Oa as [|(m, x) a D Oa IH].
    - cbn [app unpack_members]. assert (Dn : is_data (Some n) = true) by (apply is_data_iff; exists n; auto). rewrite Dn, (entries_unpack select l F). cbn [bind]. rewrite (members_none select b Ob). cbn [bind]. rewrite !app_nil_r. reflexivity.
    - cbn [fst] in D. cbn [app unpack_members]. rewrite D. apply IH. inversion O; assumption. }
  rewrite E. reflexivity.
Qed.
(** Without exactly one member with data there is an error. *)
Lemma members_count select l : forall f d k, unpack_members select l = Ok (f, d, k) -> k = length (filter (fun m => is_data (fst m)) l).
Proof.
  induction l as [|(n, e) l IH]; intros f d k E; cbn [unpack_members filter fst] in *; [apply ok_inj in E; apply pair_equal_spec in E as [_ <-]; reflexivity|].
  destruct (is_data n); [|exact (IH _ _ _ E)]. destruct (unpack_entries select e) as [(f1, d1)|x]; [|discriminate E]. cbn [bind] in E.
  destruct (unpack_members select l) as [((f2, d2), k2)|x]; [|discriminate E]. cbn [bind] in E. apply ok_inj in E. apply pair_equal_spec in E as [_ <-]. cbn [length]. f_equal. exact (IH _ _ _ eq_refl).
Qed.
Section One.
Context {A : Type} (f : A -> bool) (P : A -> Prop).
Lemma filter_nothing l : (forall x, In x l -> (f x = true <-> P x)) -> (filter f l = [] <-> Forall (fun x => ~ P x) l).
Proof.
  intros H. induction l as [|x l IH]; cbn [filter]; [split; [constructor|reflexivity]|].
  assert (Hl : forall y, In y l -> (f y = true <-> P y)) by (intros y I; apply H; right; exact I). pose proof (H x (or_introl eq_refl)) as Hx. destruct (f x) eqn:E.
  - split; [discriminate|]. intros F. inversion F; subst. exfalso. apply H2. apply Hx. reflexivity.
  - rewrite (IH Hl). split; [intros F; constructor; [|exact F]; intros Px; apply Hx in Px; discriminate Px|intros F; inversion F; assumption].
Qed.
Lemma filter_single l u : (forall x, In x l -> (f x = true <-> P x)) -> (filter f l = [u] <-> only_one P l u).
Proof.
  unfold only_one. intros H. induction l as [|x l IH]; cbn [filter].
  - split; [discriminate|]. intros (a & b & E & _). destruct a; discriminate E.
  - assert (Hl : forall y, In y l -> (f y = true <-> P y)) by (intros y I; apply H; right; exact I). pose proof (H x (or_introl eq_refl)) as Hx. destruct (f x) eqn:E.
    + split.
      * intros Q. apply cons_inj in Q as [-> Q]. exists [], l. split; [reflexivity|]. split; [apply Hx; reflexivity|]. split; [constructor|]. apply filter_nothing; assumption.
      * intros (a & b & Q & Pu & Aa & B). destruct a as [|y a]; cbn [app] in Q; apply cons_inj in Q as [<- ->].
        -- f_equal. apply filter_nothing; assumption.
        -- inversion Aa; subst. exfalso. apply H2. apply Hx. reflexivity.
    + rewrite (IH Hl). split.
      * intros (a & b & -> & Pu & Aa & B). exists (x :: a), b. split; [reflexivity|]. split; [exact Pu|]. split; [constructor; [|exact Aa]; intros Px; apply Hx in Px; discriminate Px|exact B].
      * intros (a & b & Q & Pu & Aa & B). destruct a as [|y a]; cbn [app] in Q; apply cons_inj in Q as [<- ->].
        -- apply Hx in Pu. discriminate Pu.
        -- inversion Aa; subst. exists a, b. auto.
Qed.
End One.
Definition kind_eqb (a b : kind) : bool := match a, b with KImage, KImage | KConfig, KConfig | KModules, KModules | KMap, KMap => true | _, _ => false end.
Lemma kind_eqb_iff a b : kind_eqb a b = true <-> a = b. Proof. destruct a, b; cbn; split; congruence. Qed.
Definition has_kind (select : tar_entry -> disposition) (k : kind) (e : entry) : bool := match select (tar_of e) with DUnpack (Some k') => kind_eqb k k' | _ => false end.
Lemma of_kind_found select k l : of_kind k (flat_map (found_of select) l) = map entry_path (filter (has_kind select k) l).
Proof.
  induction l as [|e l IH]; [reflexivity|]. cbn [flat_map filter]. unfold of_kind in *. rewrite flat_map_app, IH. unfold found_of at 1, has_kind at 2. destruct (select (tar_of e)) as [|[k'|]]; try reflexivity.
  destruct k, k'; reflexivity.
Qed.
Lemma of_kind_app k a b : of_kind k (a ++ b) = of_kind k a ++ of_kind k b. Proof. apply flat_map_app. Qed.
Lemma image_kind l : Forall fine_entry l -> forall e, In e l -> (has_kind select_image KImage e = true <-> wanted_image e).
Proof. intros F e I. rewrite Forall_forall in F. unfold has_kind. destruct (image_select e (F e I)) as [(W & ->)|(W & ->)]; cbn; split; try contradiction; try discriminate; auto. Qed.
Lemma image_other k l : Forall fine_entry l -> k <> KImage -> filter (has_kind select_image k) l = [].
Proof.
  intros F N. apply (filter_nothing _ (fun _ => False)); [|apply Forall_forall; auto]. intros e I. rewrite Forall_forall in F. unfold has_kind. destruct (image_select e (F e I)) as [(W & ->)|(W & ->)]; [|split; [discriminate|intros []]].
  split; [|intros []]. intros E. apply kind_eqb_iff in E. contradiction.
Qed.
Lemma modules_kind l k P : (k = KConfig /\ P = below_boot (txt "config-")) \/ (k = KMap /\ P = below_boot (txt "System.map-")) \/ (k = KModules /\ P = modules_entry) ->
  Forall fine_entry l -> forall e, In e l -> (has_kind select_modules k e = true <-> P e).
Proof.
  intros K F e I. rewrite Forall_forall in F. unfold has_kind. destruct (modules_select e (F e I)) as [(k' & S & W & ->)|(W & ->)].
  - apply sorted_iff in S as (A & B & C). destruct K as [(-> & ->)|[(-> & ->)|(-> & ->)]]; [rewrite <- B|rewrite <- C|rewrite <- A]; (destruct k' as [k'|]; [rewrite kind_eqb_iff; split; congruence|split; discriminate]).
  - split; [discriminate|]. intros Pe. exfalso. apply W. apply wanted_modules_iff. destruct K as [(-> & ->)|[(-> & ->)|(-> & ->)]]; [right; left; exact Pe|right; right; exact Pe|left; apply modules_are_inside; exact Pe].
Qed.
Lemma modules_no_image l : Forall fine_entry l -> filter (has_kind select_modules KImage) l = [].
Proof.
  intros F. apply (filter_nothing _ (fun _ => False)); [|apply Forall_forall; auto]. intros e I. rewrite Forall_forall in F. unfold has_kind. destruct (modules_select e (F e I)) as [(k' & S & W & ->)|(W & ->)]; [|split; [discriminate|intros []]].
  split; [|intros []]. destruct S; discriminate.
Qed.
Lemma one_iff k l1 l2 p : one k (flat_map (found_of select_image) l1 ++ flat_map (found_of select_modules) l2) = Ok p <->
  exists e, filter (has_kind select_image k) l1 ++ filter (has_kind select_modules k) l2 = [e] /\ p = entry_path e.
Proof.
  unfold one. rewrite of_kind_app, !of_kind_found, <- map_app. destruct (filter (has_kind select_image k) l1 ++ filter (has_kind select_modules k) l2) as [|e [|e2 l]]; cbn [map].
  - split; [discriminate|intros (e & E & _); discriminate E].
  - split; [intros E; apply ok_inj in E; exists e; auto|intros (x & E & ->); apply cons_inj in E as [-> _]; reflexivity].
  - split; [discriminate|intros (x & E & _); discriminate E].
Qed.
Lemma entry_name e : fine_entry e -> name_of (entry_path e) = last (fst (fst e)) [].
Proof.
  intros F. unfold name_of. change (entry_path e) with (t_path (tar_of e)). rewrite (entry_components e F). destruct e as ((names, sl), fl). destruct F as (N & _). cbn [fst].
  destruct names as [|n names] using rev_ind; [congruence|]. rewrite map_app. cbn [map]. rewrite app_comm_cons, !last_last. reflexivity.
Qed.
Lemma kernel_iff unzstd read di dm li lm p : data_of di li -> data_of dm lm -> Forall fine_entry li -> Forall fine_entry lm ->
  (unpack_kernel unzstd read di dm = Ok p <-> exists ei ec em es,
     only_one wanted_image li ei /\ only_one (below_boot (txt "config-")) lm ec /\ only_one modules_entry lm em /\ only_one (below_boot (txt "System.map-")) lm es /\
     maybe_extract unzstd (last (fst (fst ei)) []) (read (entry_path ei)) = Ok (p_start p) /\
     p_image p = entry_path ei /\ p_config p = entry_path ec /\ p_modules p = entry_path em /\ p_map p = entry_path es).
Proof.
  intros Di Dm Fi Fm. unfold unpack_kernel. rewrite (with_deb_ok select_image di li Di Fi), (with_deb_ok select_modules dm lm Dm Fm). cbn [bind]. set (f := _ ++ _).
  assert (Oi : forall q, one KImage f = Ok q <-> exists e, only_one wanted_image li e /\ q = entry_path e).
  { intros q. unfold f. rewrite one_iff, (modules_no_image lm Fm), app_nil_r. split; intros (e & E & ->); exists e; (split; [|reflexivity]); apply (filter_single _ _ li e (image_kind li Fi)); exact E. }
  assert (Oo : forall k P, (k = KConfig /\ P = below_boot (txt "config-")) \/ (k = KMap /\ P = below_boot (txt "System.map-")) \/ (k = KModules /\ P = modules_entry) ->
    forall q, one k f = Ok q <-> exists e, only_one P lm e /\ q = entry_path e).
  { intros k P K q. unfold f. rewrite one_iff, (image_other k li Fi) by (destruct K as [(-> & _)|[(-> & _)|(-> & _)]]; discriminate). cbn [app].
    split; intros (e & E & ->); exists e; (split; [|reflexivity]); apply (filter_single _ _ lm e (modules_kind lm k P K Fm)); exact E. }
  pose proof (Oo KConfig _ (or_introl (conj eq_refl eq_refl))) as Oc. pose proof (Oo KMap _ (or_intror (or_introl (conj eq_refl eq_refl)))) as Os. pose proof (Oo KModules _ (or_intror (or_intror (conj eq_refl eq_refl)))) as Om. clear Oo. clearbody f. split.
  - intros H. destruct (one KImage f) as [i|] eqn:E1; [|discriminate H]. cbn [bind] in H. destruct (maybe_extract unzstd (name_of i) (read i)) as [st|] eqn:E2; [|discriminate H]. cbn [bind] in H.
    destruct (one KConfig f) as [c|] eqn:E3; [|discriminate H]. cbn [bind] in H. destruct (one KModules f) as [m|] eqn:E4; [|discriminate H]. cbn [bind] in H. destruct (one KMap f) as [s|] eqn:E5; [|discriminate H]. cbn [bind] in H.
    apply ok_inj in H. subst p. cbn [p_image p_start p_config p_modules p_map]. destruct (proj1 (Oi _) eq_refl) as (ei & A1 & ->). destruct (proj1 (Oc _) eq_refl) as (ec & A2 & ->). destruct (proj1 (Om _) eq_refl) as (em & A3 & ->). destruct (proj1 (Os _) eq_refl) as (es & A4 & ->).
    rewrite (entry_name ei) in E2 by (destruct A1 as (a & b & Q & _); rewrite Q in Fi; apply Forall_app in Fi as (_ & Fi); inversion Fi; assumption). exists ei, ec, em, es. repeat (split; [assumption|]). repeat split; reflexivity.
  - intros (ei & ec & em & es & A1 & A2 & A3 & A4 & X & B1 & B2 & B3 & B4).
    assert (E1 : one KImage f = Ok (entry_path ei)) by (apply Oi; exists ei; auto). assert (E2 : one KConfig f = Ok (entry_path ec)) by (apply Oc; exists ec; auto).
    assert (E3 : one KModules f = Ok (entry_path em)) by (apply Om; exists em; auto). assert (E4 : one KMap f = Ok (entry_path es)) by (apply Os; exists es; auto).
    rewrite E1. cbn [bind]. rewrite (entry_name ei) by (destruct A1 as (a & b & Q & _); rewrite Q in Fi; apply Forall_app in Fi as (_ & Fi); inversion Fi; assumption). rewrite X. cbn [bind]. rewrite E2, E3, E4. cbn [bind]. destruct p. cbn in *. subst. reflexivity.
Qed.
