(** Proofs about loading objects. *)
From Verif Require Import Base Text Insn PatchModel LinkModel BtfTypes BtfModel BtfExt CoreModel BtfSanitize ExternModel PinModel UtilModel TypedModel ProgModel ObjModel WholeModel WholeSpec WholeProofs4 LoaderModel LoaderSpec.
Local Open Scope Z_scope.

(** * The object's BTF *)

Lemma sane_offered k o b : sane k o = Ok (Some b) <-> offered k o b.
Proof.
  unfold sane, offered. split.
  - destruct (p_btf o) as [b0|]; [|intros H; discriminate H]. destruct (k_feat k) as [feat|]; [|intros H; discriminate H].
    destruct (Nat.ltb_spec (length (b_types b0)) 2) as [L|L]; [intros H; discriminate H|]. intros H.
    exists b0, feat.
    destruct (p_externs o) as [|x xs] eqn:EX.
    + cbn [bind] in H. destruct (sanitize feat _ _ b0) as [b1|e] eqn:S; cbn [failing bind] in H; [|discriminate H]. apply ok_inj, some_inj in H. subst b1.
      exists b0. split; [reflexivity|]. split; [reflexivity|]. split; [lia|]. split; [left; split; reflexivity|exact S].
    + destruct (p_ksyms o) as [[ds pl]|]; [|cbn [bind] in H; discriminate H].
      destruct (fixup_ksyms b0 ds pl) as [b1|e] eqn:F; cbn [failing bind] in H; [|discriminate H].
      destruct (sanitize feat _ _ b1) as [b2|e] eqn:S; cbn [failing bind] in H; [|discriminate H]. apply ok_inj, some_inj in H. subst b2.
      exists b1. split; [reflexivity|]. split; [reflexivity|]. split; [lia|]. split; [|exact S].
      right. split; [intros E; discriminate E|]. exists ds, pl. split; [reflexivity|exact F].
  - intros (b0 & feat & b1 & -> & -> & L & X & S). destruct (Nat.ltb_spec (length (b_types b0)) 2) as [L'|_]; [lia|].
    destruct X as [(-> & ->)|(N & ds & pl & -> & F)].
    + cbn [bind]. rewrite S. reflexivity.
    + destruct (p_externs o); [destruct (N eq_refl)|]. rewrite F. cbn [failing bind]. rewrite S. reflexivity.
Qed.
Lemma sane_none k o : sane k o = Ok None <-> no_btf k o.
Proof.
  unfold sane, no_btf. destruct (p_btf o) as [b|]; [|tauto]. destruct (k_feat k) as [feat|]; [|split; [intros _; right; left; reflexivity|reflexivity]].
  destruct (Nat.ltb_spec (length (b_types b)) 2) as [L|L].
  - split; [|reflexivity]. intros _. right. right. exists b. split; [reflexivity|lia].
  - split.
    + intros H. exfalso. destruct (match p_externs o with [] => _ | _ => _ end) as [b1|]; cbn [bind] in H; [|discriminate H].
      destruct (sanitize _ _ _ b1); cbn [failing bind] in H; discriminate H.
    + intros [H|[H|(b' & H & L')]]; try discriminate H. apply some_inj in H. subst. lia.
Qed.

Lemma btf_section_spec s : btf_section s = true <-> section_needs_btf s.
Proof.
  unfold section_needs_btf, needs_btf. destruct s; cbn [btf_section of_section fst]; (split; [intros H; try discriminate H; tauto|]); intros H; try reflexivity;
    repeat (destruct H as [H|H]); discriminate H.
Qed.

Lemma relos_empty o : has_relos o = false <-> p_relos o = [].
Proof. unfold has_relos. destruct (p_relos o); split; intros H; (reflexivity || discriminate H). Qed.
Lemma relos_some o : has_relos o = true <-> p_relos o <> [].
Proof. rewrite <- relos_empty. destruct (has_relos o); split; intros H; (reflexivity || discriminate || (exfalso; apply H; reflexivity)). Qed.

Lemma blocked_b o : existsb (fun p => btf_section (pg_sec p)) (p_progs o) || has_relos o = true <-> blocked o.
Proof.
  unfold blocked. rewrite orb_true_iff, existsb_exists, relos_some. setoid_rewrite btf_section_spec. tauto.
Qed.

Lemma upload_ok k o o1 fd : upload k o = Ok (o1, fd) ->
  (no_btf k o /\ o1 = o /\ fd = None) \/
  (exists b, offered k o b /\ o1 = with_btf (Some b) o /\
     ((exists n, k_takes k b = Ok n /\ fd = Some n) \/ (exists e, k_takes k b = Err e /\ fd = None /\ ~ blocked o))).
Proof.
  unfold upload. destruct (sane k o) as [[b|]|e] eqn:S; cbn [bind]; [| |intros H; discriminate H].
  - apply sane_offered in S. destruct (k_takes k b) as [n|e] eqn:T.
    + intros H. apply ok_inj in H. apply pair_equal_spec in H as [<- <-]. right. exists b. split; [exact S|]. split; [reflexivity|]. left. now exists n.
    + destruct (existsb _ _ || has_relos _) eqn:B; [intros H; discriminate H|]. intros H. apply ok_inj in H. apply pair_equal_spec in H as [<- <-].
      right. exists b. split; [exact S|]. split; [reflexivity|]. right. exists e. split; [exact T|]. split; [reflexivity|].
      intros X. apply blocked_b in X. cbn [with_btf p_progs] in B. change (has_relos (with_btf (Some b) o)) with (has_relos o) in B. rewrite X in B. discriminate B.
  - apply sane_none in S. intros H. apply ok_inj in H. apply pair_equal_spec in H as [<- <-]. left. auto.
Qed.
Lemma upload_refused k o b e : offered k o b -> k_takes k b = Err e -> blocked o -> upload k o = Err (FLoadBtf e).
Proof.
  intros S T B. apply sane_offered in S. apply blocked_b in B. unfold upload. rewrite S. cbn [bind]. rewrite T.
  cbn [with_btf p_progs]. change (has_relos (with_btf (Some b) o)) with (has_relos o). rewrite B. reflexivity.
Qed.

(** * The target BTF *)

Lemma typed_spec o : has_typed o = true <-> exists n x, typed_extern o n x.
Proof.
  unfold has_typed, with_externs, typed_extern. rewrite andb_true_iff, existsb_exists. split.
  - intros (B & [n x] & I & T). exists n, x. cbn [snd] in T. split; [|split; [exact I|]].
    + destruct (p_btf o); [intros E; discriminate E|discriminate B].
    + destruct (xd_type x); [intros E; discriminate E|discriminate T].
  - intros (n & x & B & I & T). split; [destruct (p_btf o); [reflexivity|destruct (B eq_refl)]|].
    exists (n, x). split; [exact I|]. cbn [snd]. destruct (xd_type x); [reflexivity|destruct (T eq_refl)].
Qed.
Lemma strong_spec o : has_strong o = true <-> exists n x, typed_extern o n x /\ xd_weak x = false.
Proof.
  unfold has_strong, with_externs, typed_extern, strong_typed. rewrite andb_true_iff, existsb_exists. split.
  - intros (B & [n x] & I & T). exists n, x. cbn [snd] in T. destruct (xd_type x); [|discriminate T]. apply negb_true_iff in T. split; [|exact T].
    split; [destruct (p_btf o); [intros E; discriminate E|discriminate B]|]. split; [exact I|intros E; discriminate E].
  - intros (n & x & (B & I & T) & W). split; [destruct (p_btf o); [reflexivity|destruct (B eq_refl)]|].
    exists (n, x). split; [exact I|]. cbn [snd]. destruct (xd_type x); [now rewrite W|destruct (T eq_refl)].
Qed.
Lemma uses_spec o : has_relos o || has_typed o = true <-> uses_target o.
Proof. unfold uses_target. now rewrite orb_true_iff, relos_some, typed_spec. Qed.
Lemma needs_spec o : has_relos o || has_strong o = true <-> needs_target o.
Proof. unfold needs_target. now rewrite orb_true_iff, relos_some, strong_spec. Qed.

Lemma ask_spec q u : ask_btf q u = (next_answer u, {| u_btf := tl (u_btf u); u_asked := u_asked u ++ [q]; u_kernel := u_kernel u |}).
Proof. unfold ask_btf, next_answer. destruct (u_btf u); reflexivity. Qed.

Lemma get_unparsed t o u : unparsed t ->
  get_target t (p_big o) u = (next_answer u, {| u_btf := tl (u_btf u); u_asked := u_asked u ++ [question t o]; u_kernel := u_kernel u |}).
Proof. intros U. destruct t as [|b|]; cbn [get_target question]; [apply ask_spec|destruct (U b eq_refl)|apply ask_spec]. Qed.

Lemma adapt_step k o t u r t' u' : adapt k o t u = (r, t', u') ->
  u_kernel u' = u_kernel u /\ (quiet_step t u t' u' /\ ((exists b, t = TParsed b) \/ ~ uses_target o) \/ asked_step t o u t' u').
Proof.
  unfold adapt. destruct (has_relos o || has_typed o) eqn:E.
  - destruct t as [|b|].
    + rewrite get_unparsed by (intros ? X; discriminate X). unfold asked_step. apply uses_spec in E.
      destruct (next_answer u) as [tb|e] eqn:A.
      * intros H. apply pair_equal_spec in H as [H <-]. apply pair_equal_spec in H as [_ <-]. cbn. split; [reflexivity|]. right. rewrite ?A. split; [intros ? X; discriminate X|]. auto.
      * destruct (has_relos o || has_strong o); intros H; apply pair_equal_spec in H as [H <-]; apply pair_equal_spec in H as [_ <-]; cbn; (split; [reflexivity|]); right; rewrite ?A; (split; [intros ? X; discriminate X|]); auto.
    + cbn [get_target]. intros H. apply pair_equal_spec in H as [H <-]. apply pair_equal_spec in H as [_ <-]. split; [reflexivity|]. left. unfold quiet_step. split; [auto|]. left. now exists b.
    + rewrite get_unparsed by (intros ? X; discriminate X). unfold asked_step. apply uses_spec in E.
      destruct (next_answer u) as [tb|e] eqn:A.
      * intros H. apply pair_equal_spec in H as [H <-]. apply pair_equal_spec in H as [_ <-]. cbn. split; [reflexivity|]. right. rewrite ?A. split; [intros ? X; discriminate X|]. auto.
      * destruct (has_relos o || has_strong o); intros H; apply pair_equal_spec in H as [H <-]; apply pair_equal_spec in H as [_ <-]; cbn; (split; [reflexivity|]); right; rewrite ?A; (split; [intros ? X; discriminate X|]); auto.
  - intros H. apply pair_equal_spec in H as [H <-]. apply pair_equal_spec in H as [_ <-]. split; [reflexivity|]. left. unfold quiet_step. split; [auto|]. right.
    rewrite <- uses_spec, E. discriminate.
Qed.

Lemma settle_ok k tb o o2 : settle k tb o = Ok o2 -> (needs_target o -> tb <> None) -> suited k tb o o2.
Proof.
  unfold settle. intros H N.
  destruct (match tb with Some tb => relocated k tb o | None => Ok (p_funs o) end) as [fs|e] eqn:C; cbn [bind] in H; [|discriminate H].
  destruct (resolved k tb (settled fs (p_externs o) o)) as [x|e] eqn:X; cbn [bind] in H; [|discriminate H]. apply ok_inj in H. subst o2.
  unfold resolved in X. cbn [settled p_btf p_externs] in X. constructor; cbn; try reflexivity.
  - intros b t -> B R. unfold relocated in C. rewrite B in C. destruct (p_relos o); [destruct (R eq_refl)|].
    destruct (relocate_btf _ _ _ _ _ _ _) in C |- *; cbn [failing] in C; [now apply ok_inj in C; subst|discriminate C].
  - intros R. destruct tb as [tb|]; [|now apply ok_inj in C]. unfold relocated in C. destruct R as [R|R]; rewrite R in C; [destruct (p_btf o)|]; now apply ok_inj in C.
  - intros b B. rewrite B in X. destruct (resolve_externs _ b tb _ _) in X |- *; cbn [failing] in X; [now apply ok_inj in X; subst|discriminate X].
  - exact N.
Qed.

Lemma adapt_ok k o t u o2 t' u' : adapt k o t u = (Ok o2, t', u') ->
  exists tb, suited k tb o o2 /\ (forall b, tb = Some b -> t' = TParsed b) /\
    (tb = None -> uses_target o -> unparsed t /\ exists e, next_answer u = Err e).
Proof.
  unfold adapt. destruct (has_relos o || has_typed o) eqn:E.
  - destruct (get_target t (p_big o) u) as [[tb|e] u1] eqn:G.
    + intros H. apply pair_equal_spec in H as [H _]. apply pair_equal_spec in H as [H <-].
      exists (Some tb). split; [apply settle_ok; [exact H|intros _ X; discriminate X]|]. split; [intros b X; apply some_inj in X; now subst|intros X; discriminate X].
    + destruct (has_relos o || has_strong o) eqn:B; [intros H; apply pair_equal_spec in H as [H _]; apply pair_equal_spec in H as [H _]; discriminate H|].
      intros H. apply pair_equal_spec in H as [H _]. apply pair_equal_spec in H as [H <-].
      exists None. split; [apply settle_ok; [exact H|intros N; apply needs_spec in N; rewrite N in B; discriminate B]|].
      split; [intros b X; discriminate X|]. intros _ _.
      destruct t as [|b|]; cbn [get_target] in G; [|discriminate G|]; (split; [intros b X; discriminate X|]); rewrite ask_spec in G; apply pair_equal_spec in G as [G _]; now exists e.
  - intros H. apply pair_equal_spec in H as [H _]. apply pair_equal_spec in H as [H <-].
    exists None. split; [apply settle_ok; [exact H|]|].
    + intros N. apply needs_spec in N. apply orb_false_iff in E as [E1 E2]. rewrite E1 in N. cbn in N. apply strong_spec in N as (n & x & T & _).
      assert (Y : has_typed o = true) by (apply typed_spec; eauto). rewrite Y in E2. discriminate E2.
    + split; [intros b X; discriminate X|]. intros _ X. apply uses_spec in X. rewrite X in E. discriminate E.
Qed.
Lemma adapt_refused k o t u e : needs_target o -> unparsed t -> next_answer u = Err e ->
  exists u', adapt k o t u = (Err (FTarget e), t, u') /\ u_kernel u' = u_kernel u.
Proof.
  intros N U A. unfold adapt. apply needs_spec in N.
  assert (E : has_relos o || has_typed o = true).
  { apply orb_true_iff in N. apply orb_true_iff. destruct N as [N|N]; [now left|right]. apply strong_spec in N as (n & x & T & _). apply typed_spec. eauto. }
  rewrite E, (get_unparsed t o u U), A, N. eexists. split; [reflexivity|]. reflexivity.
Qed.
