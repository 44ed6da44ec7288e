(** Choosing the kernel to test: packages and the choice. *)
From Coq Require Import String.
From Verif Require Import Base Text TextParse LogModel TextSplit KmodModel KmodProofs UbuntuModel UbuntuSpec UbuntuProofs UbuntuProofs2.
Local Open Scope Z_scope.

Lemma once_same x s a b c d : once x s = Some (a, b) -> s = c ++ x :: d -> ~ In x c -> a = c /\ b = d.
Proof. intros E F N. assert (G : once x s = Some (c, d)) by (apply once_some; auto). rewrite E in G. apply some_inj in G. apply pair_equal_spec in G. exact G. Qed.
Lemma package_case kind build arch url : 
  (exists base, package_file kind build arch url base) <->
  exists file name r, url_file_name url = Some file /\ once 95 file = Some (name, r) /\ (exists y, strip_suffix (txt "-generic") name = Some y) /\
    (exists z, strip_suffix (txt "_" ++ arch ++ txt ".deb") file = Some z) /\ starts_with (kind ++ drop_char 118 build ++ txt "-") name = true.
Proof.
  split.
  - intros (base & file & r & v & x & y & z & k & N & E & U & B & V & X & Y & D). exists file, (kind ++ base), r. apply file_name_iff in N. split; [exact N|].
    split; [apply once_some; split; [rewrite E, <- app_assoc; reflexivity|exact U]|]. split; [exists y; apply strip_suffix_iff; exact Y|]. split; [exists z; apply strip_suffix_iff; exact D|].
    apply starts_with_iff. exists x. rewrite B, drop_repeat. replace (drop_char 118 v) with v; [rewrite X, <- !app_assoc; reflexivity|].
    destruct v as [|c v]; [reflexivity|]. symmetry. apply drop_not. intros ->. exact (V v eq_refl).
  - intros (file & name & r & N & O & (y & Y) & (z & D) & P). apply starts_with_iff in P as (x & ->). apply once_some in O as (E & U). destruct (drop_spec 118 build) as (k & B & V).
    exists (drop_char 118 build ++ txt "-" ++ x), file, r, (drop_char 118 build), x, y, z, k. apply file_name_iff in N. apply strip_suffix_iff in Y, D.
    split; [exact N|]. split; [rewrite E, <- !app_assoc; reflexivity|]. split; [rewrite <- !app_assoc in U; exact U|]. split; [exact B|]. split; [exact V|]. split; [reflexivity|].
    split; [rewrite <- Y, <- !app_assoc; reflexivity|exact D].
Qed.
Lemma image_iff build arch url : is_image build arch url = true <-> an_image build arch url.
Proof.
  unfold an_image. rewrite package_case. unfold is_image, package_of. change (txt "linux-image-unsigned-") with image_package. split.
  - intros H. destruct (url_file_name url) as [file|]; [|discriminate H]. destruct (once 95 file) as [(name, r)|] eqn:O; [|discriminate H].
    destruct (strip_suffix (txt "-generic") name) as [y|] eqn:Y; [|discriminate H]. destruct (strip_suffix (txt "_" ++ arch ++ txt ".deb") file) as [z|] eqn:Z; [|discriminate H]. cbn [negb orb] in H.
    destruct (starts_with (image_package ++ drop_char 118 build ++ txt "-") name) eqn:P; [|destruct (starts_with (modules_package ++ drop_char 118 build ++ txt "-") name); discriminate H].
    exists file, name, r. split; [reflexivity|]. split; [exact O|]. split; [exists y; exact Y|]. split; [exists z; exact Z|exact P].
  - intros (file & name & r & -> & -> & (y & ->) & (z & ->) & ->). reflexivity.
Qed.
Lemma modules_iff build arch url : is_modules build arch url = true <-> a_modules build arch url.
Proof.
  unfold a_modules. rewrite package_case. unfold is_modules, package_of. change (txt "linux-modules-") with modules_package. split.
  - intros H. destruct (url_file_name url) as [file|]; [|discriminate H]. destruct (once 95 file) as [(name, r)|] eqn:O; [|discriminate H].
    destruct (strip_suffix (txt "-generic") name) as [y|] eqn:Y; [|discriminate H]. destruct (strip_suffix (txt "_" ++ arch ++ txt ".deb") file) as [z|] eqn:Z; [|discriminate H]. cbn [negb orb] in H.
    destruct (starts_with (image_package ++ drop_char 118 build ++ txt "-") name); [discriminate H|].
    destruct (starts_with (modules_package ++ drop_char 118 build ++ txt "-") name) eqn:P; [|discriminate H].
    exists file, name, r. split; [reflexivity|]. split; [exact O|]. split; [exists y; exact Y|]. split; [exists z; exact Z|exact P].
  - intros (file & name & r & -> & -> & (y & ->) & (z & ->) & P). cbn [negb orb]. rewrite P. apply starts_with_iff in P as (s & ->).
    replace (starts_with _ _) with false; [reflexivity|]. reflexivity.
Qed.
Section Filter.
Context (f : str -> bool) (P : str -> Prop) (H : forall x, f x = true <-> P x).
Lemma filter_none l : filter f l = [] <-> none P l.
Proof.
  unfold none. induction l as [|x l IH]; cbn [filter]; [split; [constructor|reflexivity]|]. destruct (f x) eqn:E.
  - split; [discriminate|]. intros F. inversion F; subst. apply H in E. contradiction.
  - rewrite IH. split; [intros F; constructor; [|exact F]; intros Px; apply H in Px; congruence|intros F; inversion F; assumption].
Qed.
Lemma filter_one l u : filter f l = [u] <-> only P l u.
Proof.
  unfold only. induction l as [|x l IH]; cbn [filter].
  - split; [discriminate|]. intros (a & b & E & _). destruct a; discriminate E.
  - destruct (f x) eqn:E.
    + split.
      * intros Q. apply cons_inj in Q as [-> Q]. exists [], l. split; [reflexivity|]. split; [apply H; exact E|]. split; [constructor|]. apply filter_none. exact Q.
      * intros (a & b & Q & Pu & A & B). destruct a as [|y a]; cbn [app] in Q; apply cons_inj in Q as [<- ->].
        -- f_equal. apply filter_none. exact B.
        -- inversion A; subst. apply H in E. contradiction.
    + rewrite IH. split.
      * intros (a & b & -> & Pu & A & B). exists (x :: a), b. split; [reflexivity|]. split; [exact Pu|]. split; [constructor; [|exact A]; intros Px; apply H in Px; congruence|exact B].
      * intros (a & b & Q & Pu & A & B). destruct a as [|y a]; cbn [app] in Q; apply cons_inj in Q as [<- ->].
        -- apply H in Pu. congruence.
        -- inversion A; subst. exists a, b. auto.
Qed.
End Filter.
Lemma base_of build arch url base : package_file (txt "linux-image-unsigned-") build arch url base ->
  exists file r, url_file_name url = Some file /\ once 95 file = Some (image_package ++ base, r).
Proof.
  intros (file & r & v & x & y & z & k & N & E & U & _). exists file, r. split; [apply file_name_iff; exact N|]. apply once_some. split; [rewrite E, <- app_assoc; reflexivity|exact U].
Qed.
Lemma listed_iff u l : existsb (str_eqb u) l = true <-> In u l.
Proof. rewrite existsb_exists. split; [intros (x & I & E); apply str_eqb_iff in E; subst x; exact I|intros I; exists u; split; [exact I|apply str_eqb_iff; reflexivity]]. Qed.

Lemma try_found get arch build u : try_build get arch build = Found u <-> complete get arch build u.
Proof.
  unfold try_build, complete, offers. change (mainline_url ++ build ++ txt "/") with (release_url build). change (release_url build ++ arch ++ txt "/") with (packages_url build arch). split.
  - intros E. destruct (get (release_url build)) as [page|] eqn:G; [|discriminate E]. destruct (existsb (str_eqb (packages_url build arch)) (listing page (release_url build))) eqn:X; [|discriminate E]. cbn [negb] in E.
    destruct (get (packages_url build arch)) as [pk|] eqn:K; [|discriminate E]. set (l := listing pk (packages_url build arch)) in *.
    destruct (filter (is_image build arch) l) as [|i [|i2 il]] eqn:FI; try discriminate E. destruct (filter (is_modules build arch) l) as [|m [|m2 ml]] eqn:FM; try discriminate E.
    apply (filter_one _ _ (image_iff build arch)) in FI. apply (filter_one _ _ (modules_iff build arch)) in FM.
    destruct FI as (a & b & L & Pi & A & B). destruct Pi as (base & Pi). destruct (base_of _ _ _ _ Pi) as (file & r & U & O). rewrite U, O in E.
    replace (strip_prefix image_package (image_package ++ base)) with (Some base) in E by (symmetry; apply strip_prefix_iff; reflexivity).
    assert (Q : {| u_base := base; u_image := i; u_modules := m |} = u) by congruence. subst u. cbn [u_base u_image u_modules]. exists l. split.
    + exists page, pk. split; [reflexivity|]. split; [apply listed_iff; exact X|]. split; reflexivity.
    + split; [exists a, b; split; [exact L|]; split; [exists base; exact Pi|]; split; assumption|]. split; [exact FM|exact Pi].
  - intros (l & (page & pk & G & X & K & ->) & OI & OM & Pi). rewrite G. apply listed_iff in X. rewrite X. cbn [negb]. rewrite K.
    apply (filter_one _ _ (image_iff build arch)) in OI. apply (filter_one _ _ (modules_iff build arch)) in OM. rewrite OI, OM.
    destruct (base_of _ _ _ _ Pi) as (file & r & U & O). rewrite U, O. replace (strip_prefix image_package (image_package ++ u_base u)) with (Some (u_base u)) by (symmetry; apply strip_prefix_iff; reflexivity).
    destruct u. reflexivity.
Qed.
Lemma try_skip get arch build : try_build get arch build = Skip <-> incomplete get arch build.
Proof.
  unfold try_build, incomplete, offers. change (mainline_url ++ build ++ txt "/") with (release_url build). change (release_url build ++ arch ++ txt "/") with (packages_url build arch). split.
  - intros E. destruct (get (release_url build)) as [page|] eqn:G; [|discriminate E]. destruct (existsb (str_eqb (packages_url build arch)) (listing page (release_url build))) eqn:X.
    2: { left. exists page. split; [reflexivity|]. intros I. apply listed_iff in I. congruence. }
    right. cbn [negb] in E. destruct (get (packages_url build arch)) as [pk|] eqn:K; [|discriminate E]. exists (listing pk (packages_url build arch)). split.
    { exists page, pk. split; [reflexivity|]. split; [apply listed_iff; exact X|]. split; reflexivity. }
    destruct (filter (is_image build arch) _) as [|i [|i2 il]] eqn:FI; [left; apply (filter_none _ _ (image_iff build arch)); exact FI| |discriminate E]. right.
    split; [exists i; apply (filter_one _ _ (image_iff build arch)); exact FI|].
    destruct (filter (is_modules build arch) _) as [|m [|m2 ml]] eqn:FM; [apply (filter_none _ _ (modules_iff build arch)); exact FM| |discriminate E]. exfalso.
    apply (filter_one _ _ (image_iff build arch)) in FI as (a & b & _ & (base & Pi) & _). destruct (base_of _ _ _ _ Pi) as (file & r & U & O). rewrite U, O in E.
    replace (strip_prefix image_package (image_package ++ base)) with (Some base) in E by (symmetry; apply strip_prefix_iff; reflexivity). discriminate E.
  - intros [(page & G & N)|(l & (page & pk & G & X & K & ->) & [N|((i & O) & N)])]; rewrite G.
    + destruct (existsb (str_eqb (packages_url build arch)) (listing page (release_url build))) eqn:X; [apply listed_iff in X; contradiction|reflexivity].
    + apply listed_iff in X. rewrite X, K. cbn [negb]. apply (filter_none _ _ (image_iff build arch)) in N. rewrite N. reflexivity.
    + apply listed_iff in X. rewrite X, K. cbn [negb]. apply (filter_one _ _ (image_iff build arch)) in O. apply (filter_none _ _ (modules_iff build arch)) in N. rewrite O, N. reflexivity.
Qed.
Lemma tries_ok get arch u : forall l skipped, try_builds get arch skipped l = Ok u <-> exists newer b older, l = newer ++ b :: older /\ Forall (incomplete get arch) newer /\ complete get arch b u.
Proof.
  induction l as [|b l IH]; intros skipped; cbn [try_builds]; [split; [discriminate|intros (n & b & o & E & _); destruct n; discriminate E]|].
  destruct (try_build get arch b) as [v| |e] eqn:T.
  - split.
    + intros E. apply ok_inj in E. subst v. apply try_found in T. exists [], b, l. split; [reflexivity|]. split; [constructor|exact T].
    + intros (n & c & o & E & F & C). destruct n as [|x n]; cbn [app] in E; apply cons_inj in E as [<- ->]; [apply try_found in C; congruence|]. inversion F; subst. apply try_skip in H1. congruence.
  - rewrite IH. split.
    + intros (n & c & o & -> & F & C). exists (b :: n), c, o. split; [reflexivity|]. split; [constructor; [apply try_skip; exact T|exact F]|exact C].
    + intros (n & c & o & E & F & C). destruct n as [|x n]; cbn [app] in E; apply cons_inj in E as [<- ->]; [apply try_found in C; congruence|]. inversion F; subst. exists n, c, o. auto.
  - split; [discriminate|]. intros (n & c & o & E & F & C). destruct n as [|x n]; cbn [app] in E; apply cons_inj in E as [<- ->]; [apply try_found in C; congruence|]. inversion F; subst. apply try_skip in H1. congruence.
Qed.
Lemma tries_none get arch s : forall l skipped, try_builds get arch skipped l = Err (ENoBuild s) <-> s = skipped ++ l /\ Forall (incomplete get arch) l.
Proof.
  induction l as [|b l IH]; intros skipped; cbn [try_builds].
  - rewrite app_nil_r. split; [intros E; split; [congruence|constructor]|intros (-> & _); reflexivity].
  - destruct (try_build get arch b) as [v| |e] eqn:T.
    + split; [discriminate|]. intros (_ & F). inversion F; subst. apply try_skip in H1. congruence.
    + rewrite IH, <- app_assoc. cbn [app]. split; intros (-> & F); (split; [reflexivity|]); [constructor; [apply try_skip; exact T|exact F]|inversion F; assumption].
    + split.
      * intros E. exfalso. assert (Q : e = ENoBuild s) by congruence. subst e. clear - T. unfold try_build in T.
        repeat match type of T with context [match ?x with _ => _ end] => destruct x; try discriminate T end.
      * intros (_ & F). inversion F; subst. apply try_skip in H1. congruence.
Qed.
