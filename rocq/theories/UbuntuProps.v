(** Claims about choosing the kernel to test. *)
From Coq Require Import String.
From Verif Require Import Base Text TextParse LogModel TextSplit KmodModel UbuntuModel UbuntuSpec UbuntuProofs UbuntuProofs2 UbuntuProofs3.
Local Open Scope Z_scope.

(** * C111: the kernel tested is the newest complete build of its line *)

(** The links of a page of tags with quoted attributes are found, in order. *)
Theorem C111_links_partial : forall start l targets, no_link start -> Forall fine_piece l -> Forall2 target l targets ->
  hrefs (page_text start l) = flat_map (fun o => match o with Some h => [h] | None => [] end) targets.
Proof. exact page_hrefs. Qed.
Print Assumptions C111_links_partial.
(** Links from the root, whole addresses and names below the directory. *)
Theorem C111_addresses : forall scheme host path h, ~ In 58 scheme -> ~ In 47 host ->
  (forall r, h = 47 :: r -> absolute (directory scheme host path) h = scheme ++ txt "://" ++ host ++ h) /\
  (forall r, h = txt "http://" ++ r \/ h = txt "https://" ++ r -> absolute (directory scheme host path) h = h) /\
  ((forall r, h <> 47 :: r) -> ~ has_scheme h -> (forall r, host ++ [47] ++ path <> r ++ [47]) -> absolute (directory scheme host path) h = directory scheme host path ++ h).
Proof.
  intros scheme host path h S H. split; [intros r ->; apply absolute_root; assumption|]. split.
  - intros r [-> | ->]; [exact (absolute_whole _ (txt "http") r (or_introl eq_refl))|exact (absolute_whole _ (txt "https") r (or_intror eq_refl))].
  - intros R N E. unfold directory. assert (X : exists dir x, host ++ [47] ++ path = dir ++ [x]) by (destruct (exists_last (l := host ++ [47] ++ path)) as (d & x & Q); [destruct host; discriminate|eauto]).
    destruct X as (dir & x & Q). assert (X : x <> 47) by (intros ->; exact (E dir Q)).
    replace (scheme ++ txt "://" ++ host ++ [47] ++ path ++ [47]) with (((scheme ++ txt "://" ++ dir) ++ [x]) ++ [47]).
    + rewrite (absolute_below (scheme ++ txt "://" ++ dir) x h X R N), <- !app_assoc. reflexivity.
    + replace (host ++ [47] ++ path ++ [47]) with ((host ++ [47] ++ path) ++ [47]) by (rewrite <- !app_assoc; reflexivity). rewrite Q, <- !app_assoc. reflexivity.
Qed.
Print Assumptions C111_addresses.
Theorem C111_file_name : forall url n, url_file_name url = Some n <-> named url n.
Proof. exact file_name_iff. Qed.
Print Assumptions C111_file_name.

(** The build chosen has all packages, which are the only ones of their kind, and
    every newer build of the line lacks some. *)
Theorem C111_newest : forall get version arch u, kernel_urls get version arch = Ok u ->
  exists page n b, get (txt "https://kernel.ubuntu.com/mainline/") = Some page /\ listed_build page version n b /\ complete get arch b u /\
    forall n' b', listed_build page version n' b' -> n < n' -> incomplete get arch b'.
Proof.
  intros get version arch u H. unfold kernel_urls in H. change (txt "https://kernel.ubuntu.com/mainline/") with mainline_url. destruct (get mainline_url) as [page|] eqn:G; [|discriminate H].
  apply tries_ok in H as (newer & b & older & E & F & C). destruct (candidates_spec page version) as (l & L & D & _ & A & B). rewrite L in E.
  apply map_eq_app in E as (l1 & l2 & -> & <- & E). apply map_eq_cons in E as ((n, b0) & l3 & -> & Q & _). cbn [snd] in Q. subst b0.
  exists page, n, b. split; [reflexivity|]. split; [apply A; apply in_app_iff; right; left; reflexivity|]. split; [exact C|]. intros n' b' LB N.
  rewrite Forall_map in F. destruct (B n' b' LB) as [I|(_ & I)].
  - apply in_app_iff in I as [I|[I|I]].
    + rewrite Forall_forall in F. exact (F _ I).
    + apply pair_equal_spec in I as [-> _]. lia.
    + exfalso. assert (X : n' <= n); [|lia]. replace (l1 ++ (n, b) :: l3) with ((l1 ++ [(n, b)]) ++ l3) in D by (rewrite <- app_assoc; reflexivity). apply descending_cut in D as (_ & D). refine (D (n, b) (n', b') _ I). apply in_app_iff. right. left. reflexivity.
  - rewrite Forall_forall in I. specialize (I (n, b)). cbn [fst] in I. exfalso. assert (n' <= n); [|lia]. apply I. apply in_app_iff. right. left. reflexivity.
Qed.
Print Assumptions C111_newest.
(** What is tried: at most ten builds, the newest first. *)
Theorem C111_candidates : forall page version, exists l, candidates page version = map snd l /\ (length l <= 10)%nat /\
  (forall a x b, l = a ++ x :: b -> Forall (fun y => fst y <= fst x) b) /\
  (forall n b, In (n, b) l -> listed_build page version n b) /\
  forall n b, listed_build page version n b -> In (n, b) l \/ length l = 10%nat /\ Forall (fun x => n <= fst x) l.
Proof.
  intros page version. destruct (candidates_spec page version) as (l & L & D & N & A & B). exists l. split; [exact L|]. split; [exact N|]. split; [|split; assumption].
  intros a x b ->. replace (a ++ x :: b) with ((a ++ [x]) ++ b) in D by (rewrite <- app_assoc; reflexivity). apply descending_cut in D as (_ & D).
  apply Forall_forall. intros y I. apply (D x y); [apply in_app_iff; right; left; reflexivity|exact I].
Qed.
Print Assumptions C111_candidates.
(** The choice, and when there is none. *)
Theorem C111_chosen : forall get version arch u, kernel_urls get version arch = Ok u <->
  exists page newer b older, get (txt "https://kernel.ubuntu.com/mainline/") = Some page /\ candidates page version = newer ++ b :: older /\
    Forall (incomplete get arch) newer /\ complete get arch b u.
Proof.
  intros get version arch u. unfold kernel_urls. change (txt "https://kernel.ubuntu.com/mainline/") with mainline_url. split.
  - intros H. destruct (get mainline_url) as [page|]; [|discriminate H]. apply tries_ok in H as (n & b & o & H). exists page, n, b, o. auto.
  - intros (page & n & b & o & -> & H). apply tries_ok. exists n, b, o. exact H.
Qed.
Print Assumptions C111_chosen.
Theorem C111_none : forall get version arch s, kernel_urls get version arch = Err (ENoBuild s) <->
  exists page, get (txt "https://kernel.ubuntu.com/mainline/") = Some page /\ s = candidates page version /\ Forall (incomplete get arch) s.
Proof.
  intros get version arch s. unfold kernel_urls. change (txt "https://kernel.ubuntu.com/mainline/") with mainline_url. split.
  - intros H. destruct (get mainline_url) as [page|]; [|discriminate H]. apply tries_none in H as (-> & H). exists page. auto.
  - intros (page & -> & -> & H). apply tries_none. auto.
Qed.
Print Assumptions C111_none.
(** The packages chosen: both generic, for the build and the architecture. *)
Theorem C111_packages : forall get arch build u, complete get arch build u ->
  package_file (txt "linux-image-unsigned-") build arch (u_image u) (u_base u) /\ exists base, package_file (txt "linux-modules-") build arch (u_modules u) base.
Proof. intros get arch build u (l & _ & _ & (a & b & _ & M & _) & I). split; [exact I|exact M]. Qed.
Print Assumptions C111_packages.

(** * Examples and refutations *)

Definition link (h : string) : str := txt "<a href=""" ++ txt h ++ txt """>" ++ txt h ++ txt "</a>".
Definition main_page : str := txt "<html>" ++ link "/mainline/v6.6/" ++ link "/mainline/v6.6.9/" ++ link "v6.6.10/" ++ link "https://kernel.ubuntu.com/mainline/v6.6.11/" ++ link "v6.60.1/" ++ link "v6.6.12-rc1/".
Definition image_name := "linux-image-unsigned-6.6.10-060610-generic_6.6.10-060610.2024_amd64.deb"%string.
Definition modules_name := "linux-modules-6.6.10-060610-generic_6.6.10-060610.2024_amd64.deb"%string.
Definition site (image modules : list string) (url : str) : option str :=
  if str_eqb url (txt "https://kernel.ubuntu.com/mainline/") then Some main_page
  else if str_eqb url (txt "https://kernel.ubuntu.com/mainline/v6.6.11/") then Some (link "arm64/")
  else if str_eqb url (txt "https://kernel.ubuntu.com/mainline/v6.6.10/") then Some (link "amd64/")
  else if str_eqb url (txt "https://kernel.ubuntu.com/mainline/v6.6.10/amd64/") then Some (flat_map link (image ++ modules))
  else None.
Example C111_some : kernel_urls (site [image_name; "linux-image-unsigned-6.6.10-060610-generic-64k_6.6.10_amd64.deb"%string] [modules_name]) (txt "6.6") (txt "amd64") =
  Ok {| u_base := txt "6.6.10-060610-generic"; u_image := txt "https://kernel.ubuntu.com/mainline/v6.6.10/amd64/linux-image-unsigned-6.6.10-060610-generic_6.6.10-060610.2024_amd64.deb";
        u_modules := txt "https://kernel.ubuntu.com/mainline/v6.6.10/amd64/linux-modules-6.6.10-060610-generic_6.6.10-060610.2024_amd64.deb" |}.
Proof. vm_compute. reflexivity. Qed.
Example C111_some_order : candidates main_page (txt "6.6") = [txt "v6.6.11"; txt "v6.6.10"; txt "v6.6.9"].
Proof. vm_compute. reflexivity. Qed.

(** Refuted: modules of another kernel are accepted with an image. *)
Theorem C111_pair_refuted : exists get u base', kernel_urls get (txt "6.6") (txt "amd64") = Ok u /\ package_file (txt "linux-modules-") (txt "v6.6.10") (txt "amd64") (u_modules u) base' /\ u_base u <> base'.
Proof.
  exists (site [image_name] ["linux-modules-6.6.10-060611-generic_6.6.10-060611.2024_amd64.deb"%string]). eexists. exists (txt "6.6.10-060611-generic").
  split; [vm_compute; reflexivity|]. split; [|discriminate].
  exists (txt "linux-modules-6.6.10-060611-generic_6.6.10-060611.2024_amd64.deb"), (txt "6.6.10-060611.2024_amd64.deb"), (txt "6.6.10"), (txt "060611-generic"), (txt "linux-modules-6.6.10-060611"), (txt "linux-modules-6.6.10-060611-generic_6.6.10-060611.2024"), 1%nat.
  split; [apply file_name_iff; vm_compute; reflexivity|]. split; [reflexivity|]. split; [vm_compute; intuition discriminate|]. split; [reflexivity|]. split; [intros s; discriminate|]. repeat split; reflexivity.
Qed.
Print Assumptions C111_pair_refuted.
(** Refuted: a page that links a package twice is an error, though there is one. *)
Theorem C111_twice_refuted : kernel_urls (site [image_name; image_name] [modules_name]) (txt "6.6") (txt "amd64") = Err (EAmbiguousImage (txt "v6.6.10")).
Proof. vm_compute. reflexivity. Qed.
Print Assumptions C111_twice_refuted.
(** Refuted: the first release of a line is never a candidate. *)
Theorem C111_first_refuted : exists page, In (txt "https://kernel.ubuntu.com/mainline/v6.6/") (listing page mainline_url) /\ candidates page (txt "6.6") = [].
Proof. exists (link "v6.6/"). split; [left; reflexivity|vm_compute; reflexivity]. Qed.
Print Assumptions C111_first_refuted.
(** Refuted: a link in a comment counts, one behind an attribute without value or
    without quotes does not. *)
Theorem C111_html_refuted : hrefs (txt "<!-- <a href=""v6.6.1/"">old</a> -->") = [txt "v6.6.1/"] /\ hrefs (txt "<a download href=""v6.6.1/"">") = [] /\ hrefs (txt "<a href=v6.6.1/>") = [].
Proof. vm_compute. auto. Qed.
Print Assumptions C111_html_refuted.
(** Refuted: addresses that leave out the scheme only. *)
Theorem C111_scheme_refuted : absolute mainline_url (txt "//example.org/v6.6.1/") = txt "https://kernel.ubuntu.com//example.org/v6.6.1/".
Proof. vm_compute. reflexivity. Qed.
Print Assumptions C111_scheme_refuted.
Example C111_some_page : fine_piece (Link 97 [{| a_before := [32]; a_name := txt "href"; a_left := []; a_right := []; a_quote := 34; a_value := txt "v6.6.1/" |}] (txt ">v6.6.1")) /\ fine_piece (Other (txt "/a>")) /\ no_link [].
Proof.
  split; [|split].
  - cbn [fine_piece]. split; [left; reflexivity|]. split.
    + apply Forall_cons; [|apply Forall_nil]. unfold fine_attr, blanks. cbn [a_before a_name a_left a_right a_quote a_value]. split; [apply Forall_cons; [reflexivity|apply Forall_nil]|].
      split; [apply Forall_nil|]. split; [apply Forall_nil|]. split; [left; reflexivity|]. split; [vm_compute; intuition discriminate|]. split; [vm_compute; intuition discriminate|]. split; [discriminate|].
      apply Forall_forall. intros c I. vm_compute in I. destruct I as [<- |[<- |[<- |[<- |[]]]]]; (split; [reflexivity|lia]).
    + split; [vm_compute; intuition discriminate|]. split; [exists [], 62, (txt "v6.6.1"); split; [reflexivity|]; split; [apply Forall_nil|left; reflexivity]|].
      eexists 32, _. split; [reflexivity|]. cbn [In]. auto 10.
  - split; [vm_compute; intuition discriminate|]. intros w c r B W E. left. destruct w as [|x w]; cbn [app] in E.
    + change (txt "/a>") with (47 :: txt "a>") in E. injection E as <- _. lia.
    + change (txt "/a>") with (47 :: txt "a>") in E. injection E as <- _. inversion B; subst. discriminate.
  - split; [intros []|]. intros w c r _ _ E. destruct w; discriminate E.
Qed.
