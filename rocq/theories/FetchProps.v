(** Claims about downloading the packages. *)
From Coq Require Import String.
From Verif Require Import Base Text TextParse LogModel TextSplit KmodModel UbuntuModel UbuntuSpec UbuntuProofs UbuntuProofs2 UbuntuProofs3 UbuntuProps FetchModel FetchSpec FetchProofs.
Local Open Scope Z_scope.

(** * C112: kernel packages in the cache are whole and current *)

(** Whatever the server does, a file is left alone or replaced by a whole body. *)
Theorem C112_whole : forall fs dest tagfile tmp serve ok fs' e, dest <> tagfile -> dest <> tmp -> download fs dest tagfile tmp serve ok = (fs', e) ->
  fs' dest = fs dest \/ exists sent b tag, serve sent = ABody b true tag /\ fs' dest = Some b.
Proof. intros fs dest tagfile tmp serve ok fs' e D T E. pose proof (download_whole fs dest tagfile tmp serve ok D T) as X. rewrite E in X. exact X. Qed.
Print Assumptions C112_whole.
(** Other files are left alone. *)
Theorem C112_others : forall fs dest tagfile tmp serve ok n, n <> dest -> n <> tagfile -> n <> tmp -> fst (download fs dest tagfile tmp serve ok) n = fs n.
Proof. exact download_frame. Qed.
Print Assumptions C112_others.
(** With an honest server a file is current after success, or the one from before if
    the server does not answer; its tag stands for it; a failure leaves it alone. *)
Theorem C112_current : forall of_tag body fs dest tagfile tmp serve fs' e, dest <> tagfile -> dest <> tmp -> tagfile <> tmp ->
  honest of_tag body serve -> tagged of_tag fs dest tagfile -> download fs dest tagfile tmp serve true = (fs', e) ->
  tagged of_tag fs' dest tagfile /\ (e = None -> fs' dest <> None /\ up_to_date fs fs' dest body serve) /\ (e <> None -> fs' dest = fs dest).
Proof.
  intros of_tag body fs dest tagfile tmp serve fs' e D T TT H G E. pose proof (download_right of_tag body fs dest tagfile tmp serve D T TT H G) as X. rewrite E in X. destruct X as (A & _ & B & C). auto.
Qed.
Print Assumptions C112_current.
(** A server that answers makes the download succeed, and the file current. *)
Theorem C112_succeeds : forall of_tag body fs dest tagfile tmp serve, dest <> tagfile -> dest <> tmp -> tagfile <> tmp ->
  honest of_tag body serve -> reachable serve -> tagged of_tag fs dest tagfile ->
  exists fs', download fs dest tagfile tmp serve true = (fs', None) /\ fs' dest = Some body.
Proof.
  intros of_tag body fs dest tagfile tmp serve D T TT H R G. pose proof (download_right of_tag body fs dest tagfile tmp serve D T TT H G) as X.
  destruct (download fs dest tagfile tmp serve true) as (fs', e) eqn:E. destruct X as (_ & _ & B & _).
  assert (Q : e = None).
  { unfold download in E. pose proof (R (tag_sent fs dest tagfile)) as Rs. pose proof (H (tag_sent fs dest tagfile)) as Hs. destruct (serve (tag_sent fs dest tagfile)) as [| |c|b w tag]; [destruct Rs| |destruct Rs|].
    - destruct Hs as (t & S & _). unfold tag_sent in S. destruct (fs dest); [congruence|discriminate S].
    - subst w. cbn [negb] in E. congruence. }
  subst e. exists fs'. split; [reflexivity|]. destruct (B eq_refl) as (_ & [Y|((sent & Y) & _)]); [exact Y|]. specialize (R sent). rewrite Y in R. destruct R.
Qed.
Print Assumptions C112_succeeds.

(** A run: the packages of every version are there, current, and nothing else is
    left; the archives are in the order of the versions. *)
Theorem C112_run : forall of_tag body get serve pid arch fs versions fs' l, number pid -> good_cache of_tag fs -> honest_site of_tag body get serve arch versions ->
  fetch get serve pid arch fs versions = (fs', Ok l) ->
  Forall2 (fun v r => exists u, kernel_urls get v arch = Ok u /\ r_base r = u_base u /\ fresh body serve fs fs' (u_image u) (r_image r) /\ fresh body serve fs fs' (u_modules u) (r_modules r)) versions l /\
  good_cache of_tag fs' /\
  forall n, fs' n <> None -> exists r, In r l /\ (n = r_image r \/ n = r_image r ++ txt ".etag" \/ n = r_modules r \/ n = r_modules r ++ txt ".etag").
Proof.
  intros of_tag body get serve pid arch fs versions fs' l P C H E. unfold fetch in E.
  pose proof (run_right of_tag body get serve pid arch fs P versions fs) as X. destruct (fetch_all get serve pid arch fs versions) as (fs1, [(l1, keep)|e]); [|discriminate E].
  apply pair_equal_spec in E as [<- E]. apply ok_inj in E. subst l1. destruct X as (S & _ & X).
  { intros v u url I U O n N. split; [exact (chosen_names get v arch u url n U O N)|exact (H v u url n I U O N)]. }
  { intros n N. split; [exact (C n N)|left; reflexivity]. }
  destruct (X l keep eq_refl) as (F & K). subst keep. set (keep := flat_map _ l). assert (G : forall n, In n keep -> prune fs1 keep n = fs1 n) by (intros n I; unfold prune; destruct (in_dec (list_eq_dec Z.eq_dec) n keep); [reflexivity|contradiction]).
  split; [|split].
  - assert (I : forall r, In r l -> In (r_image r) keep /\ In (r_modules r) keep) by (intros r I; unfold keep; split; apply in_flat_map; exists r; (split; [exact I|]); cbn [In]; auto).
    clearbody keep. clear - F G I. induction F as [|v r vs l (u & U & B & Gi & Gm) _ IH]; [constructor|]. constructor; [|apply IH; intros x J; apply I; right; exact J].
    destruct (I r (or_introl eq_refl)) as (Ii & Im). exists u. split; [exact U|]. split; [exact B|]. unfold fresh. rewrite !G by assumption. split; assumption.
  - intros n N d t Fd Ft. unfold prune in Fd, Ft. destruct (in_dec (list_eq_dec Z.eq_dec) n keep); [|discriminate Fd]. destruct (in_dec (list_eq_dec Z.eq_dec) (n ++ txt ".etag") keep); [|discriminate Ft]. destruct (S n N) as (T & _). exact (T d t Fd Ft).
  - intros n N. unfold prune in N. destruct (in_dec (list_eq_dec Z.eq_dec) n keep) as [I|]; [|contradiction]. unfold keep in I. apply in_flat_map in I as (r & I & J). exists r. split; [exact I|].
    cbn [In] in J. destruct J as [<- |[<- |[<- |[<- |[]]]]]; auto.
Qed.
Print Assumptions C112_run.
(** A run that fails loses no package. *)
Theorem C112_failed : forall of_tag body get serve pid arch fs versions fs' e n, number pid -> good_cache of_tag fs -> honest_site of_tag body get serve arch versions ->
  fetch get serve pid arch fs versions = (fs', Err e) -> package_name n -> fs' n = fs n \/ fs' n = Some (body n).
Proof.
  intros of_tag body get serve pid arch fs versions fs' e n P C H E N. unfold fetch in E.
  pose proof (run_right of_tag body get serve pid arch fs P versions fs) as X. destruct (fetch_all get serve pid arch fs versions) as (fs1, [(l1, keep)|e1]); [discriminate E|].
  apply pair_equal_spec in E as [<- _]. destruct X as (S & _).
  { intros v u url I U O m M. split; [exact (chosen_names get v arch u url m U O M)|exact (H v u url m I U O M)]. }
  { intros m M. split; [exact (C m M)|left; reflexivity]. }
  apply (S n N).
Qed.
Print Assumptions C112_failed.

(** * Examples and refutations *)

Definition some_server (url : str) (sent : option str) : answer := match sent with Some e => if str_eqb e (txt """1""") then ANotModified else ABody (txt "data") true (Some (txt """1""")) | None => ABody (txt "data") true (Some (txt """1""")) end.
Example C112_some : let '(fs, r) := fetch (site [image_name] [modules_name]) some_server (txt "42") (txt "amd64") (fun n => if str_eqb n (txt "old.deb") then Some [] else None) [txt "6.6"] in
  r = Ok [{| r_base := txt "6.6.10-060610-generic"; r_image := txt image_name; r_modules := txt modules_name |}] /\ fs (txt image_name) = Some (txt "data") /\ fs (txt image_name ++ txt ".etag") = Some (txt """1""") /\ fs (txt "old.deb") = None.
Proof. vm_compute. auto. Qed.
Example C112_some_honest : forall url, honest (fun _ => txt "data") (txt "data") (some_server url) /\ reachable (some_server url).
Proof.
  intros url. split; intros sent; unfold some_server; (destruct sent as [e|]; [destruct (str_eqb e (txt """1"""))|]); try exact I; try reflexivity; try (split; [reflexivity|intros; reflexivity]).
  exists e. split; reflexivity.
Qed.
(** Refuted: a package the server no longer has is used all the same. *)
Theorem C112_gone_refuted : exists fs fs' serve, (forall sent, serve sent = AError) /\ download fs (txt "k.deb") (txt "k.deb.etag") (txt "k.deb.tmp-1") serve true = (fs', None) /\ fs' (txt "k.deb") = Some (txt "old").
Proof. exists (fun n => if str_eqb n (txt "k.deb") then Some (txt "old") else None). eexists. exists (fun _ => AError). split; [reflexivity|]. split; [reflexivity|]. vm_compute. reflexivity. Qed.
Print Assumptions C112_gone_refuted.
(** Refuted: if the new tag cannot be written, the old one stays with the new file;
    when the server goes back to the old file, the new one is kept. *)
Theorem C112_tag_refuted : exists of_tag fs fs1 fs2 s1 s2, tagged of_tag fs (txt "k.deb") (txt "k.deb.etag") /\
  honest of_tag (txt "new") s1 /\ honest of_tag (txt "old") s2 /\
  download fs (txt "k.deb") (txt "k.deb.etag") (txt "k.deb.tmp-1") s1 false = (fs1, Some ETag) /\
  download fs1 (txt "k.deb") (txt "k.deb.etag") (txt "k.deb.tmp-1") s2 true = (fs2, None) /\ fs2 (txt "k.deb") = Some (txt "new").
Proof.
  exists (fun e => if str_eqb e (txt "1") then txt "old" else txt "new"), (fun n => if str_eqb n (txt "k.deb") then Some (txt "old") else if str_eqb n (txt "k.deb.etag") then Some (txt "1") else None).
  eexists. eexists. exists (fun _ => ABody (txt "new") true (Some (txt "2"))), (fun sent => match sent with Some e => if str_eqb e (txt "1") then ANotModified else AError | None => AError end).
  split; [|split; [|split; [|split; [reflexivity|split; [reflexivity|vm_compute; reflexivity]]]]].
  - intros d t Fd Ft _. vm_compute in Fd, Ft. apply some_inj in Fd, Ft. subst d t. vm_compute. reflexivity.
  - intros sent. split; [reflexivity|]. intros t _ E _. apply some_inj in E. subst t. vm_compute. reflexivity.
  - intros sent. destruct sent as [e|]; [|exact I]. destruct (str_eqb e (txt "1")) eqn:E; [|exact I]. exists e. split; [reflexivity|]. rewrite E. reflexivity.
Qed.
Print Assumptions C112_tag_refuted.
