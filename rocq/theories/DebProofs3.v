(** Unpacking the packages of a kernel: images. *)
From Coq Require Import String.
From Verif Require Import Base Text TextParse LogModel TextSplit KmodModel KmodProofs UbuntuProofs DebModel DebSpec DebProofs DebProofs2.
Local Open Scope Z_scope.

Lemma slice_iff s off len x : slice s off len = Some x <-> at_ s off x /\ length x = len.
Proof.
  unfold slice, at_. split.
  - destruct (Nat.leb_spec (off + len) (length s)) as [L|L]; [|discriminate]. intros E. apply some_inj in E. subst x. split.
    + exists (firstn off s), (skipn len (skipn off s)). rewrite !firstn_skipn. split; [reflexivity|]. rewrite firstn_length. lia.
    + rewrite firstn_length, skipn_length. lia.
  - intros ((a & b & -> & <-) & <-). destruct (Nat.leb_spec (length a + length x) (length (a ++ x ++ b))) as [L|L]; [|rewrite !app_length in L; lia].
    rewrite skipn_app, skipn_all, Nat.sub_diag. cbn [app skipn]. rewrite firstn_app, firstn_all, Nat.sub_diag. cbn [firstn]. rewrite app_nil_r. reflexivity.
Qed.
Lemma at_unique s off x y : at_ s off x -> at_ s off y -> length x = length y -> x = y.
Proof. intros A B L. assert (E : slice s off (length x) = Some x) by (apply slice_iff; auto). assert (F : slice s off (length x) = Some y) by (apply slice_iff; auto). congruence. Qed.
Lemma slice_is_iff s off b : slice_is s off b = true <-> at_ s off b.
Proof.
  unfold slice_is. destruct (slice s off (length b)) as [x|] eqn:E.
  - apply slice_iff in E as (A & L). rewrite str_eqb_iff. split; [intros <-; exact A|]. intros B. exact (at_unique _ _ _ _ A B L).
  - split; [discriminate|]. intros A. assert (X : slice s off (length b) = Some b) by (apply slice_iff; auto). congruence.
Qed.
Lemma le4 b0 b1 b2 b3 : le [b0; b1; b2; b3] = b0 + 256 * b1 + 65536 * b2 + 16777216 * b3.
Proof. unfold le. cbn [fold_right]. lia. Qed.
Lemma word_iff s off v : word_at s off v <-> exists b, slice s off 4 = Some b /\ le b = v.
Proof.
  unfold word_at. split.
  - intros (b0 & b1 & b2 & b3 & A & ->). exists [b0; b1; b2; b3]. split; [apply slice_iff; auto|apply le4].
  - intros (b & E & <-). apply slice_iff in E as (A & L). destruct b as [|b0 [|b1 [|b2 [|b3 [|? ?]]]]]; try discriminate L. exists b0, b1, b2, b3. split; [exact A|]. apply le4.
Qed.
Lemma word_unique s off v w : word_at s off v -> word_at s off w -> v = w.
Proof. rewrite !word_iff. intros (b & E & <-) (c & F & <-). congruence. Qed.
Lemma at_bytes s off x : Forall (fun b => 0 <= b < 256) s -> at_ s off x -> Forall (fun b => 0 <= b < 256) x.
Proof. intros F (a & b & -> & _). apply Forall_app in F as (_ & F). apply Forall_app in F as (F & _). exact F. Qed.
Lemma arm_iff s : Forall (fun b => 0 <= b < 256) s -> (is_aarch64_pe s = true <-> arm_program s).
Proof.
  intros R. unfold is_aarch64_pe, arm_program. rewrite andb_true_iff, slice_is_iff. split; intros (M & H); (split; [exact M|]).
  - destruct (slice s 60 4) as [o|] eqn:E; [|discriminate H]. exists (le o). split; [apply word_iff; exists o; auto|].
    destruct (slice s (Z.to_nat (le o)) 6) as [h|] eqn:G; [|discriminate H]. apply slice_iff in G as (A & L). apply andb_prop in H as (S & V). apply str_eqb_iff in S. apply Z.eqb_eq in V.
    pose proof (at_bytes _ _ _ R A) as B. destruct h as [|h0 [|h1 [|h2 [|h3 [|h4 [|h5 [|? ?]]]]]]]; try discriminate L. cbn [firstn] in S. cbn [skipn le fold_right] in V.
    apply Forall_inv_tail, Forall_inv_tail, Forall_inv_tail, Forall_inv_tail in B. pose proof (Forall_inv B) as B4. apply Forall_inv_tail in B. pose proof (Forall_inv B) as B5. cbn beta in B4, B5.
    assert (V' : h4 + 256 * h5 = 43620) by (rewrite <- V; unfold le; cbn [fold_right]; lia).
    assert (h4 = 100 /\ h5 = 170) as (-> & ->) by lia. replace (txt "PE" ++ [0; 0; 100; 170]) with ((txt "PE" ++ [0; 0]) ++ [100; 170]) by reflexivity. rewrite <- S. exact A.
  - destruct H as (o & W & A). apply word_iff in W as (b & E & <-). rewrite E. assert (G : slice s (Z.to_nat (le b)) 6 = Some (txt "PE" ++ [0; 0; 100; 170])) by (apply slice_iff; auto). rewrite G. reflexivity.
Qed.
Lemma until_zero_iff c x : until_zero c = x <-> ~ In 0 x /\ (c = x \/ exists r, c = x ++ 0 :: r).
Proof.
  unfold until_zero. destruct (once 0 c) as [(a, r)|] eqn:E.
  - apply once_some in E as (-> & N). split.
    + intros <-. split; [exact N|]. right. exists r. reflexivity.
    + intros (Nx & [<- | (r' & Q)]); [exfalso; apply Nx; apply in_app_iff; right; left; reflexivity|].
      assert (A : once 0 (a ++ 0 :: r) = Some (a, r)) by (apply once_some; auto). assert (B : once 0 (a ++ 0 :: r) = Some (x, r')) by (apply once_some; auto). rewrite A in B. apply some_inj in B. apply pair_equal_spec in B as [-> _]. reflexivity.
  - assert (N : ~ In 0 c).
    { intros I. apply in_split in I as (l1 & l2 & ->). clear -E. induction l1 as [|y l IH]; cbn [app once] in E; [discriminate E|]. destruct (y =? 0); [discriminate E|]. destruct (once 0 (l ++ 0 :: l2)) as [(?, ?)|]; [discriminate E|]. apply IH. reflexivity. }
    split; [intros <-; auto|]. intros (_ & [<- | (r & ->)]); [reflexivity|]. exfalso. apply N. apply in_app_iff. right. left. reflexivity.
Qed.
Lemma zboot_none s : parse_zboot s = Ok None <-> ~ at_ s 4 (txt "zimg").
Proof.
  unfold parse_zboot. rewrite <- slice_is_iff. destruct (slice_is s 4 (txt "zimg")); cbn [negb].
  - split; [|intros N; exfalso; apply N; reflexivity]. destruct (slice s 8 4) as [o|]; [|discriminate]. destruct (slice s 12 4) as [n|]; [|discriminate].
    destruct (slice s (Z.to_nat (le o)) (Z.to_nat (le n))); [|discriminate]. destruct (slice s 24 32) as [c|]; [|discriminate]. destruct (utf8 (until_zero c)); discriminate.
  - split; [intros _ X; discriminate X|reflexivity].
Qed.
Lemma zboot_some s c p : parse_zboot s = Ok (Some (c, p)) <-> zboot s c p /\ utf8 c = true.
Proof.
  unfold parse_zboot, zboot. rewrite <- slice_is_iff. destruct (slice_is s 4 (txt "zimg")); cbn [negb]; [|split; [discriminate|intros ((X & _) & _); discriminate X]]. split.
  - intros H. destruct (slice s 8 4) as [o|] eqn:E1; [|discriminate H]. destruct (slice s 12 4) as [n|] eqn:E2; [|discriminate H].
    destruct (slice s (Z.to_nat (le o)) (Z.to_nat (le n))) as [q|] eqn:E3; [|discriminate H]. destruct (slice s 24 32) as [z|] eqn:E4; [|discriminate H]. destruct (utf8 (until_zero z)) eqn:U; [|discriminate H].
    apply ok_inj, some_inj in H. apply pair_equal_spec in H as [Hc ->]. apply slice_iff in E3 as (A3 & L3). apply slice_iff in E4 as (A4 & L4). split; [|rewrite <- Hc; exact U].
    split; [reflexivity|]. exists (le o), (le n), z. split; [apply word_iff; exists o; auto|]. split; [apply word_iff; exists n; auto|]. split; [exact A3|]. split; [exact L3|]. split; [exact A4|]. split; [exact L4|]. apply until_zero_iff. exact Hc.
  - intros ((_ & o & n & z & W1 & W2 & A3 & L3 & A4 & L4 & Z) & U). apply word_iff in W1 as (b1 & -> & <-). apply word_iff in W2 as (b2 & -> & <-).
    assert (E3 : slice s (Z.to_nat (le b1)) (Z.to_nat (le b2)) = Some p) by (apply slice_iff; auto). assert (E4 : slice s 24 32 = Some z) by (apply slice_iff; auto). rewrite E3, E4.
    apply until_zero_iff in Z. rewrite Z, U. reflexivity.
Qed.
Lemma extract_same unzstd name s : Forall (fun b => 0 <= b < 256) s -> (maybe_extract unzstd name s = Ok Same <-> ~ arm_program s \/ ~ at_ s 4 (txt "zimg")).
Proof.
  intros R. unfold maybe_extract. rewrite <- (arm_iff s R), <- zboot_none. destruct (is_aarch64_pe s); cbn [negb]; [|split; [intros _; left; discriminate|reflexivity]].
  destruct (parse_zboot s) as [[(c, p)|]|x]; cbn [bind].
  - split; [|intros [N|N]; [exfalso; apply N; reflexivity|discriminate N]]. destruct (negb (str_eqb c (txt "zstd"))); [discriminate|]. destruct (unzstd p) as [d|]; [|discriminate]. destruct (slice_is d 56 (txt "ARMd")); discriminate.
  - split; auto.
  - split; [discriminate|]. intros [N|N]; [exfalso; apply N; reflexivity|discriminate N].
Qed.
Lemma extract_image unzstd name s n d : Forall (fun b => 0 <= b < 256) s ->
  (maybe_extract unzstd name s = Ok (Extracted n d) <-> arm_program s /\ n = image_name_of name /\ exists payload, zboot s (txt "zstd") payload /\ unzstd payload = Some d /\ at_ d 56 (txt "ARMd")).
Proof.
  intros R. unfold maybe_extract. rewrite <- (arm_iff s R). destruct (is_aarch64_pe s); cbn [negb]; [|split; [discriminate|intros (X & _); discriminate X]]. split.
  - intros H. split; [reflexivity|]. destruct (parse_zboot s) as [[(c, p)|]|x] eqn:P; cbn [bind] in H; try discriminate H. apply zboot_some in P as (Zb & _).
    destruct (str_eqb c (txt "zstd")) eqn:C; cbn [negb] in H; [|discriminate H]. apply str_eqb_iff in C. subst c. destruct (unzstd p) as [y|] eqn:U; [|discriminate H]. destruct (slice_is y 56 (txt "ARMd")) eqn:M; [|discriminate H].
    apply ok_inj in H. assert (image_name_of name = n /\ y = d) as (<- & <-) by (split; congruence). split; [reflexivity|]. exists p. split; [exact Zb|]. split; [exact U|]. apply slice_is_iff. exact M.
  - intros (_ & -> & p & Zb & U & M). assert (P : parse_zboot s = Ok (Some (txt "zstd", p))) by (apply zboot_some; split; [exact Zb|reflexivity]). rewrite P. cbn [bind].
    change (negb (str_eqb (txt "zstd") (txt "zstd"))) with false. cbv iota. rewrite U. apply slice_is_iff in M. rewrite M. reflexivity.
Qed.
Lemma image_name_vmlinuz v : image_name_of (txt "vmlinuz-" ++ v) = txt "Image-" ++ v.
Proof. unfold image_name_of. assert (E : strip_prefix (txt "vmlinuz-") (txt "vmlinuz-" ++ v) = Some v) by (apply strip_prefix_iff; reflexivity). rewrite E. reflexivity. Qed.

Lemma done_paths select P l : (forall e, In e l -> ((exists k, select (tar_of e) = DUnpack k) <-> P e)) -> paths_where P l (flat_map (done_of select) l).
Proof.
  intros H. exists (fun e => match select (tar_of e) with DUnpack _ => true | DSkip => false end). split.
  - intros e I. rewrite <- (H e I). destruct (select (tar_of e)) as [|k]; split; try discriminate; try (intros (k' & E); discriminate E); try reflexivity. intros _. exists k. reflexivity.
  - clear H. induction l as [|e l IH]; [reflexivity|]. cbn [flat_map filter]. rewrite IH. unfold done_of at 1. destruct (select (tar_of e)); reflexivity.
Qed.
Lemma image_done d l : data_of d l -> Forall fine_entry l -> exists f done, with_deb select_image d = Ok (f, done) /\ paths_where wanted_image l done.
Proof.
  intros D F. eexists _, _. split; [exact (with_deb_ok select_image d l D F)|]. apply done_paths. intros e I. rewrite Forall_forall in F. destruct (image_select e (F e I)) as [(W & ->)|(W & ->)].
  - split; [auto|]. intros _. eexists. reflexivity.
  - split; [intros (k & E); discriminate E|contradiction].
Qed.
Lemma modules_done d l : data_of d l -> Forall fine_entry l -> exists f done, with_deb select_modules d = Ok (f, done) /\ paths_where wanted_modules l done.
Proof.
  intros D F. eexists _, _. split; [exact (with_deb_ok select_modules d l D F)|]. apply done_paths. intros e I. rewrite Forall_forall in F. destruct (modules_select e (F e I)) as [(k & _ & W & ->)|(W & ->)].
  - split; [auto|]. intros _. eexists. reflexivity.
  - split; [intros (k & E); discriminate E|contradiction].
Qed.
Lemma one_data select d r : with_deb select d = Ok r -> exists m, only_one data_member d m.
Proof.
  unfold with_deb. destruct (unpack_members select d) as [((f, dn), k)|x] eqn:E; [|discriminate]. cbn [bind]. pose proof (members_count select d f dn k E) as K. destruct (Nat.eqb_spec k 1) as [->|]; [|discriminate]. intros _.
  destruct (filter (fun m => is_data (fst m)) d) as [|m [|? ?]] eqn:Fl; try discriminate K. exists m. apply (filter_single (fun m => is_data (fst m))); [|exact Fl]. intros x _. unfold data_member. rewrite is_data_iff. reflexivity.
Qed.
Lemma unpackable_iff p : unpackable p = true -> ~ In [46; 46] (split_at 47 p).
Proof.
  unfold unpackable, components. rewrite forallb_app. intros H I. apply andb_prop in H as (_ & H). rewrite forallb_forall in H.
  assert (X : In Parent (flat_map part (split_at 47 p))) by (apply in_flat_map; exists [46; 46]; split; [exact I|left; reflexivity]). apply H in X. destruct (comp_eq Parent Parent); [discriminate X|congruence].
Qed.
Lemma entries_inside select l : forall f d, unpack_entries select l = Ok (f, d) -> Forall (fun p => ~ In (txt "..") (split_at 47 p)) d.
Proof.
  induction l as [|[e|] l IH]; intros f d E; cbn [unpack_entries] in E; [apply ok_inj in E; apply pair_equal_spec in E as [_ <-]; constructor| |discriminate E].
  destruct (select e) as [|k]; [exact (IH _ _ E)|]. destruct (unpackable (t_path e)) eqn:U; [|discriminate E]. destruct (unpack_entries select l) as [(f2, d2)|]; [|discriminate E]. cbn [bind] in E. apply ok_inj in E. apply pair_equal_spec in E as [_ <-].
  apply Forall_cons; [exact (unpackable_iff _ U)|exact (IH _ _ eq_refl)].
Qed.
Lemma members_inside select l : forall f d k, unpack_members select l = Ok (f, d, k) -> Forall (fun p => ~ In (txt "..") (split_at 47 p)) d.
Proof.
  induction l as [|(n, e) l IH]; intros f d k E; cbn [unpack_members] in E; [apply ok_inj in E; apply pair_equal_spec in E as [E _]; apply pair_equal_spec in E as [_ <-]; constructor|].
  destruct (is_data n); [|exact (IH _ _ _ E)]. destruct (unpack_entries select e) as [(f1, d1)|x] eqn:U; [|discriminate E]. cbn [bind] in E.
  destruct (unpack_members select l) as [((f2, d2), k2)|x]; [|discriminate E]. cbn [bind] in E. apply ok_inj in E. apply pair_equal_spec in E as [E _]. apply pair_equal_spec in E as [_ <-]. apply Forall_app. split; [exact (entries_inside _ _ _ _ U)|exact (IH _ _ _ eq_refl)].
Qed.
Lemma deb_inside select d f done : with_deb select d = Ok (f, done) -> Forall (fun p => ~ In (txt "..") (split_at 47 p)) done.
Proof.
  unfold with_deb. destruct (unpack_members select d) as [((f', dn), k)|x] eqn:E; [|discriminate]. cbn [bind]. destruct (Nat.eqb k 1); [|discriminate]. intros Q. apply ok_inj in Q. apply pair_equal_spec in Q as [_ <-]. exact (members_inside _ _ _ _ _ E).
Qed.
