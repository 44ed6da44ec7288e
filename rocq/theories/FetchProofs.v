(** Downloading the packages. *)
From Coq Require Import String.
From Verif Require Import Base Text TextParse LogModel TextSplit KmodModel KmodProofs UbuntuModel UbuntuSpec UbuntuProofs UbuntuProofs2 UbuntuProofs3 FetchModel FetchSpec.
Local Open Scope Z_scope.

Lemma put_same fs n d : put fs n d n = d.
Proof. unfold put. destruct (list_eq_dec Z.eq_dec n n); [reflexivity|contradiction]. Qed.
Lemma put_other fs n d m : m <> n -> put fs n d m = fs m.
Proof. unfold put. intros H. destruct (list_eq_dec Z.eq_dec m n); [contradiction|reflexivity]. Qed.

Lemma download_whole fs dest tagfile tmp serve ok : dest <> tagfile -> dest <> tmp ->
  let '(fs', e) := download fs dest tagfile tmp serve ok in
  fs' dest = fs dest \/ exists sent b tag, serve sent = ABody b true tag /\ fs' dest = Some b.
Proof.
  intros D T. unfold download. destruct (serve (tag_sent fs dest tagfile)) as [| |c|b w tag] eqn:S; cbv beta iota; [left; reflexivity|left; reflexivity|left; reflexivity|].
  destruct w; cbn [negb]; cbv beta iota; [|left; apply put_other; exact T]. destruct ok; cbv beta iota zeta; right; exists (tag_sent fs dest tagfile), b, tag; (split; [exact S|]); [rewrite put_other by exact D|]; apply put_same.
Qed.
Lemma download_frame fs dest tagfile tmp serve ok n : n <> dest -> n <> tagfile -> n <> tmp -> fst (download fs dest tagfile tmp serve ok) n = fs n.
Proof.
  intros A B C. unfold download. destruct (serve (tag_sent fs dest tagfile)) as [| |c|b w tag]; try reflexivity. destruct w; cbn [negb]; [|apply put_other; exact C].
  destruct ok; cbn [fst]; [rewrite (put_other _ tagfile) by exact B|]; rewrite put_other by exact A; apply put_other; exact C.
Qed.
Lemma download_right of_tag body fs dest tagfile tmp serve : dest <> tagfile -> dest <> tmp -> tagfile <> tmp -> honest of_tag body serve -> tagged of_tag fs dest tagfile ->
  let '(fs', e) := download fs dest tagfile tmp serve true in
  tagged of_tag fs' dest tagfile /\ (fs' dest = fs dest \/ fs' dest = Some body) /\ (e = None -> fs' dest <> None /\ up_to_date fs fs' dest body serve) /\ (e <> None -> fs' dest = fs dest).
Proof.
  intros D T TT H G. unfold download. pose proof (H (tag_sent fs dest tagfile)) as X. destruct (serve (tag_sent fs dest tagfile)) as [| |c|b w tag] eqn:S; cbv beta iota.
  - split; [exact G|]. split; [left; reflexivity|]. split; [|intros _; reflexivity]. destruct (fs dest) as [d|] eqn:F; [|discriminate]. intros _. split; [discriminate|]. right. split; [eexists; exact S|]. split; [rewrite F; discriminate|reflexivity].
  - split; [exact G|]. split; [left; reflexivity|]. split; [|intros _; reflexivity]. destruct X as (e & E & O). intros _. unfold tag_sent in E. destruct (fs dest) as [d|] eqn:F; [|discriminate E].
    destruct (fs tagfile) as [t|] eqn:Q; [|discriminate E]. destruct (utf8 t); [|discriminate E]. assert (Y : trim t = e /\ trim t <> []) by (destruct (trim t); [discriminate E|]; apply some_inj in E; split; [exact E|discriminate]).
    destruct Y as (Y & N). split; [discriminate|]. left. rewrite F, <- O, <- Y, (G d t F Q N). reflexivity.
  - split; [exact G|]. split; [left; reflexivity|]. split; [discriminate|reflexivity].
  - destruct w; cbn [negb]; cbv beta iota zeta.
    + destruct X as (X & Y). specialize (X eq_refl). subst b.
      assert (P : put (put (put fs tmp None) dest (Some body)) tagfile tag dest = Some body) by (rewrite put_other by exact D; apply put_same). rewrite P. split.
      * intros d t Fd Ft N. rewrite P in Fd. apply some_inj in Fd. subst d. rewrite put_same in Ft. exact (Y t eq_refl Ft N).
      * split; [right; reflexivity|]. split; [|congruence]. intros _. split; [discriminate|]. left. exact P.
    + assert (P : put fs tmp (Some b) dest = fs dest) by (apply put_other; exact T). split.
      * intros d t Fd Ft N. rewrite put_other in Fd by exact T. rewrite put_other in Ft by exact TT. exact (G d t Fd Ft N).
      * rewrite P. split; [left; reflexivity|]. split; [discriminate|reflexivity].
Qed.

(** * Names *)

Lemma app_last_neq (a b s t : str) c d : c <> d -> a ++ s ++ [c] <> b ++ t ++ [d].
Proof. intros N E. rewrite !app_assoc in E. apply app_inj_tail in E as (_ & E). contradiction. Qed.
Lemma number_ends s : number s -> exists r c, s = r ++ [c] /\ 48 <= c <= 57.
Proof. intros (N & F). destruct (exists_last N) as (r & c & ->). exists r, c. split; [reflexivity|]. apply Forall_app in F as (_ & F). inversion F; assumption. Qed.
Lemma deb_not_tag n m : package_name n -> n <> m ++ txt ".etag".
Proof. intros (r & ->) E. change (txt ".deb") with (txt ".de" ++ [98]) in E. change (txt ".etag") with (txt ".eta" ++ [103]) in E. revert E. apply app_last_neq. discriminate. Qed.
Lemma deb_not_tmp n m pid : number pid -> package_name n -> n <> m ++ txt ".tmp-" ++ pid.
Proof.
  intros P (r & ->) E. apply number_ends in P as (q & c & -> & C). change (txt ".deb") with (txt ".de" ++ [98]) in E. rewrite (app_assoc (txt ".tmp-")) in E. revert E. apply app_last_neq. lia.
Qed.
Lemma tag_not_tmp n m pid : number pid -> n ++ txt ".etag" <> m ++ txt ".tmp-" ++ pid.
Proof.
  intros P E. apply number_ends in P as (q & c & -> & C). change (txt ".etag") with (txt ".eta" ++ [103]) in E. rewrite (app_assoc (txt ".tmp-")) in E. revert E. apply app_last_neq. lia.
Qed.
Lemma package_named kind build arch url base n : package_file kind build arch url base -> named url n -> package_name n.
Proof.
  intros (file & r & v & x & y & z & k & N & _ & _ & _ & _ & _ & _ & D) M. apply file_name_iff in N, M. rewrite N in M. apply some_inj in M. subst n.
  exists (z ++ txt "_" ++ arch). rewrite D, <- !app_assoc. reflexivity.
Qed.
Lemma chosen_names get version arch u url n : kernel_urls get version arch = Ok u -> url = u_image u \/ url = u_modules u -> named url n -> package_name n.
Proof.
  intros H C N. unfold kernel_urls in H. destruct (get mainline_url) as [page|]; [|discriminate H]. apply tries_ok in H as (newer & b & older & _ & _ & (l & _ & _ & M & I)).
  destruct C as [-> | ->]; [exact (package_named _ _ _ _ _ _ I N)|]. destruct M as (a & c & _ & (base & P) & _). exact (package_named _ _ _ _ _ _ P N).
Qed.

(** * A run *)
Section Run.
Context (of_tag : str -> str -> str) (body : str -> str) (get : str -> option str) (serve : str -> option str -> answer) (pid arch : str) (fs0 : files) (P : number pid).

Definition settled (fs : files) : Prop := forall n, package_name n -> tagged (of_tag n) fs n (n ++ txt ".etag") /\ (fs n = fs0 n \/ fs n = Some (body n)).
Definition fine_url (url : str) : Prop := forall n, named url n -> package_name n /\ honest (of_tag n) (body n) (serve url).
Definition got (fs : files) (url n : str) : Prop := named url n /\ (fs n = Some (body n) \/ (exists sent, serve url sent = AError) /\ fs n <> None /\ fs n = fs0 n).

Lemma to_dir fs url : settled fs -> fine_url url ->
  let '(fs', r) := download_to_dir fs url pid serve true in
  settled fs' /\ (forall u n, package_name n -> got fs u n -> got fs' u n) /\ forall n, r = Ok n -> got fs' url n.
Proof.
  intros S F. unfold download_to_dir. destruct (url_file_name url) as [n|] eqn:U; [|split; [exact S|]; split; [auto|discriminate]].
  apply file_name_iff in U. destruct (F n U) as (Pn & H). destruct (S n Pn) as (T & O).
  pose proof (deb_not_tag n n Pn) as D1. pose proof (deb_not_tmp n n pid P Pn) as D2. pose proof (tag_not_tmp n n pid P) as D3.
  pose proof (download_right (of_tag n) (body n) fs n _ (n ++ txt ".tmp-" ++ pid) (serve url) D1 D2 D3 H T) as R.
  assert (Fr : forall m, package_name m -> m <> n -> fst (download fs n (n ++ txt ".etag") (n ++ txt ".tmp-" ++ pid) (serve url) true) m = fs m /\
    fst (download fs n (n ++ txt ".etag") (n ++ txt ".tmp-" ++ pid) (serve url) true) (m ++ txt ".etag") = fs (m ++ txt ".etag")).
  { intros m Pm N. split; apply download_frame.
    - exact N.
    - apply deb_not_tag. exact Pm.
    - apply deb_not_tmp; assumption.
    - intros E. symmetry in E. revert E. apply deb_not_tag. exact Pn.
    - intros E. apply app_inv_tail in E. contradiction.
    - apply tag_not_tmp. exact P. }
  destruct (download fs n (n ++ txt ".etag") (n ++ txt ".tmp-" ++ pid) (serve url) true) as (fs', e). cbn [fst] in Fr. destruct R as (R1 & R2 & R3 & R4).
  assert (S' : settled fs').
  { intros m Pm. destruct (list_eq_dec Z.eq_dec m n) as [-> |N].
    - split; [exact R1|]. destruct R2 as [-> |R2]; [exact O|right; exact R2].
    - destruct (Fr m Pm N) as (E1 & E2). destruct (S m Pm) as (A & B). split; [|rewrite E1; exact B]. unfold tagged in *. rewrite E1, E2. exact A. }
  assert (K : forall u m, package_name m -> got fs u m -> got fs' u m).
  { intros u m Pm (A & B). split; [exact A|]. destruct (list_eq_dec Z.eq_dec m n) as [-> |N]; [destruct R2 as [-> |R2]; [exact B|left; exact R2]|]. destruct (Fr m Pm N) as (-> & _). exact B. }
  assert (G : e = None -> got fs' url n).
  { intros E. split; [exact U|]. destruct (R3 E) as (N & [Q|(A & B & C)]); [left; exact Q|]. destruct O as [O|O]; [right|left; congruence]. split; [exact A|]. split; [exact N|congruence]. }
  destruct e as [e|]; (split; [exact S'|]; split; [exact K|]); intros m E; [discriminate E|]. apply ok_inj in E. subst m. apply G. reflexivity.
Qed.
Definition archive_right (fs : files) (v : str) (r : archives) : Prop :=
  exists u, kernel_urls get v arch = Ok u /\ r_base r = u_base u /\ got fs (u_image u) (r_image r) /\ got fs (u_modules u) (r_modules r).
Lemma run_right versions : forall fs,
  (forall v u url, In v versions -> kernel_urls get v arch = Ok u -> url = u_image u \/ url = u_modules u -> fine_url url) -> settled fs ->
  let '(fs', r) := fetch_all get serve pid arch fs versions in
  settled fs' /\ (forall u n, package_name n -> got fs u n -> got fs' u n) /\
  forall l keep, r = Ok (l, keep) -> Forall2 (archive_right fs') versions l /\ keep = flat_map (fun r => [r_image r ++ txt ".etag"; r_image r; r_modules r ++ txt ".etag"; r_modules r]) l.
Proof.
  induction versions as [|v vs IH]; intros fs F S; cbn [fetch_all].
  - split; [exact S|]. split; [auto|]. intros l keep E. apply ok_inj in E. apply pair_equal_spec in E as [<- <-]. split; [constructor|reflexivity].
  - destruct (kernel_urls get v arch) as [u|e] eqn:U; [|split; [exact S|]; split; [auto|discriminate]].
    pose proof (to_dir fs (u_image u) S (F v u _ (or_introl eq_refl) U (or_introl eq_refl))) as A. destruct (download_to_dir fs (u_image u) pid serve true) as (fs1, [i|e]); destruct A as (S1 & K1 & G1).
    2: { split; [exact S1|]. split; [exact K1|discriminate]. }
    pose proof (to_dir fs1 (u_modules u) S1 (F v u _ (or_introl eq_refl) U (or_intror eq_refl))) as B. destruct (download_to_dir fs1 (u_modules u) pid serve true) as (fs2, [m|e]); destruct B as (S2 & K2 & G2).
    2: { split; [exact S2|]. split; [intros; apply K2; auto|discriminate]. }
    specialize (IH fs2 (fun w x url I => F w x url (or_intror I)) S2). destruct (fetch_all get serve pid arch fs2 vs) as (fs3, [(l, keep)|e]); destruct IH as (S3 & K3 & G3).
    2: { split; [exact S3|]. split; [intros; apply K3; auto|discriminate]. }
    split; [exact S3|]. split; [intros; apply K3; auto|]. intros l' keep' E. apply ok_inj in E. apply pair_equal_spec in E as [<- <-]. destruct (G3 l keep eq_refl) as (A & ->). split; [|reflexivity].
    constructor; [|exact A]. exists u. split; [exact U|]. split; [reflexivity|]. cbn [r_image r_modules].
    assert (Pi : package_name i) by (apply (chosen_names get v arch u (u_image u)); [exact U|left; reflexivity|apply (G1 i eq_refl)]).
    assert (Pm : package_name m) by (apply (chosen_names get v arch u (u_modules u)); [exact U|right; reflexivity|apply (G2 m eq_refl)]).
    split; [apply K3, K2; try assumption; apply G1; reflexivity|apply K3; try assumption; apply G2; reflexivity].
Qed.
End Run.
