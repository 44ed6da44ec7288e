(** Proofs about queries. *)
From Verif Require Import Base QueryModel QuerySpec.
Local Open Scope Z_scope.

Lemma written_full l buf : (length l <= length buf)%nat -> firstn (length l) (written l buf) = l.
Proof. intros _. unfold written. now rewrite firstn_app_exact. Qed.
Lemma written_length l buf : (length l <= length buf)%nat -> length (written l buf) = length buf.
Proof. intros H. unfold written. rewrite app_length, skipn_length. lia. Qed.
Lemma resize_written l buf : (length l <= length buf)%nat -> resize (length l) (written l buf) = l.
Proof. intros H. unfold resize. rewrite written_full, written_length by exact H. replace (length l - length buf)%nat with 0%nat by lia. apply app_nil_r. Qed.
Lemma resize_length n l : length (resize n l) = n.
Proof. unfold resize. rewrite app_length, firstn_length, repeat_length. lia. Qed.

Lemma call_fits h buf : (length (at_hook h) <= length buf)%nat ->
  let a := kernel_query (Sees h) (length buf) in
  an_err a = None /\ an_rev a = hk_rev h /\ resize (Z.to_nat (an_cnt a)) (written (an_write a) buf) = at_hook h.
Proof.
  intros H. cbv zeta. cbn [kernel_query an_err an_rev an_cnt an_write]. unfold ids. fold (at_hook h). replace (length (at_hook h) <=? length buf)%nat with true by (symmetry; apply Nat.leb_le; exact H).
  rewrite orb_true_r. repeat split. rewrite firstn_all2 by exact H. rewrite Nat2Z.id. now apply resize_written.
Qed.
Lemma query_fits h r2 : (length (at_hook h) <= 64)%nat -> query (Sees h) r2 = Ok (hk_rev h, at_hook h).
Proof.
  intros H. unfold query. set (buf := repeat 0 64). assert (length buf = 64%nat) as L by apply repeat_length. destruct (call_fits h buf ltac:(lia)) as (-> & -> & ->). reflexivity.
Qed.
Lemma query_grows h1 h2 : (64 < length (at_hook h1))%nat ->
  query (Sees h1) (Sees h2) = if (length (at_hook h2) <=? length (at_hook h1))%nat then Ok (hk_rev h2, at_hook h2) else Err ENOSPC.
Proof.
  intros H. unfold query. set (buf := repeat 0 64). assert (length buf = 64%nat) as L by apply repeat_length.
  assert (an_err (kernel_query (Sees h1) (length buf)) = Some ENOSPC) as ->.
  { cbn [kernel_query an_err]. unfold ids. fold (at_hook h1). rewrite L. replace (length (at_hook h1) <=? 64)%nat with false by (symmetry; apply Nat.leb_gt; exact H). reflexivity. }
  rewrite Z.eqb_refl. cbn [kernel_query an_cnt an_write]. unfold ids. fold (at_hook h1). rewrite Nat2Z.id.
  set (buf2 := resize (length (at_hook h1)) _). assert (length buf2 = length (at_hook h1)) as L2 by apply resize_length.
  change {| an_err := _; an_write := firstn (length buf2) (map en_id (hk_progs h2)); an_cnt := _; an_rev := _ |} with (kernel_query (Sees h2) (length buf2)).
  destruct (Nat.leb_spec (length (at_hook h2)) (length (at_hook h1))) as [G|G].
  - destruct (call_fits h2 buf2 ltac:(lia)) as (-> & E1 & E2). cbn [kernel_query an_rev an_write an_cnt] in *. unfold ids in *. now rewrite E2.
  - cbn [kernel_query an_err]. unfold ids. fold (at_hook h2). rewrite L2. replace (length (at_hook h1) =? 0)%nat with false by (symmetry; apply Nat.eqb_neq; lia).
    replace (length (at_hook h2) <=? length (at_hook h1))%nat with false by (symmetry; apply Nat.leb_gt; lia). reflexivity.
Qed.
Lemma query_error r e r2 : r = Fails e -> e <> ENOSPC -> query r r2 = Err e.
Proof. intros -> N. unfold query. cbn [kernel_query an_err]. destruct (Z.eqb_spec e ENOSPC); [contradiction|reflexivity]. Qed.
Lemma write_fits r room : (length (an_write (kernel_query r room)) <= room)%nat.
Proof. destruct r; cbn [kernel_query an_write length]; [|lia]. rewrite firstn_length. lia. Qed.
Lemma query_stable h r2 : r2 = Sees h -> query (Sees h) r2 = Ok (hk_rev h, at_hook h).
Proof.
  intros ->. destruct (Nat.le_gt_cases (length (at_hook h)) 64) as [L|L]; [now apply query_fits|]. rewrite query_grows by lia. now rewrite Nat.leb_refl.
Qed.

Lemma tcx_stable h get l : mapM get (at_hook h) = Ok l -> query_tcx (Sees h) (Sees h) get = Ok (hk_rev h, l).
Proof. intros M. unfold query_tcx. rewrite query_stable by reflexivity. cbn [bind]. now rewrite M. Qed.

Lemma make_all get l : (forall id, In id l -> exists x, get id = Ok x) -> make_links get l = (l, None).
Proof.
  induction l as [|id l IH]; intros G; cbn [make_links]; [reflexivity|]. destruct (G id (or_introl eq_refl)) as [x ->]. rewrite IH; [reflexivity|]. intros i I. apply G. now right.
Qed.
Lemma links_stable w h get : (forall id, In id (at_hook h) -> exists x, get id = Ok x) -> query_links w h get = (Ok (at_hook h), h).
Proof. intros G. unfold query_links. rewrite query_stable by reflexivity. now rewrite make_all. Qed.
Lemma lirc_unchanged h get : snd (lirc_query h get) = h /\ look false (lirc_query h get) = h.
Proof.
  unfold lirc_query, query_links. rewrite query_stable by reflexivity. destruct (make_links get (at_hook h)) as [made [e|]]; split; reflexivity.
Qed.

Lemma remove_linked id l : filter en_link (remove_prog id l) = filter en_link l.
Proof.
  induction l as [|e l IH]; cbn [remove_prog]; [reflexivity|]. destruct (en_id e =? id); cbn [andb]; [|cbn [filter]; now rewrite IH].
  destruct (en_link e) eqn:L; cbn [negb]; cbn [filter]; rewrite L; [now rewrite IH|reflexivity].
Qed.
Definition loose (l : list entry) : list Z := map en_id (filter (fun e => negb (en_link e)) l).
Lemma remove_loose id l : NoDup (loose l) -> NoDup (loose (remove_prog id l)) /\ forall x, In x (loose (remove_prog id l)) <-> In x (loose l) /\ x <> id.
Proof.
  unfold loose. induction l as [|e l IH]; intros N; cbn [remove_prog]; [split; [exact N|]; cbn; tauto|].
  destruct (en_link e) eqn:L; cbn [negb]; rewrite ?andb_false_r, ?andb_true_r.
  - cbn [filter] in *. rewrite L in *. cbn [negb] in *. exact (IH N).
  - cbn [filter] in N. rewrite L in N. cbn [negb map] in N. apply NoDup_cons_iff in N as [N1 N2]. destruct (IH N2) as [IH1 IH2]. destruct (Z.eqb_spec (en_id e) id) as [EQ|NE].
    + split; [exact N2|]. intros x. cbn [filter]. rewrite L. cbn [negb map In]. rewrite EQ in *. split; [intros I; split; [now right|]; intros ->; contradiction|]. intros [[<-|I] X]; [now destruct X|exact I].
    + cbn [filter]. rewrite L. cbn [negb map]. split; [constructor; [|exact IH1]; rewrite IH2; tauto|]. intros x. cbn [In]. rewrite IH2. split.
      * intros [<-|[I X]]; [split; [now left|exact NE]|split; [now right|exact X]].
      * intros [[<-|I] X]; [now left|right; tauto].
Qed.
Lemma drop_gone l : forall h, once_each h ->
  linked (drop_links true l h) = linked h /\ NoDup (loose (hk_progs (drop_links true l h))) /\
  forall x, In x (loose (hk_progs (drop_links true l h))) <-> In x (loose (hk_progs h)) /\ ~ In x l.
Proof.
  cbn [drop_links]. unfold linked. induction l as [|id l IH]; intros h O; cbn [fold_left]; [repeat split; auto; tauto|].
  destruct (remove_loose id (hk_progs h) O) as [R1 R2]. destruct (IH (kernel_detach id h) R1) as (I1 & I2 & I3). split; [rewrite I1; apply remove_linked|]. split; [exact I2|].
  intros x. rewrite I3. cbn [kernel_detach hk_progs]. rewrite R2. cbn [In]. split; [intros [[A B] C]; split; [exact A|]; intros [<-|D]; contradiction|]. intros [A B]. repeat split; auto.
Qed.
Lemma all_linked l : filter (fun e => negb (en_link e)) l = [] -> l = filter en_link l.
Proof. induction l as [|e l IH]; intros H; [reflexivity|]. cbn [filter] in *. destruct (en_link e); cbn [negb] in H; [now rewrite <- IH|discriminate H]. Qed.
Lemma device_detaches h get : once_each h -> (forall id, In id (at_hook h) -> exists x, get id = Ok x) ->
  hk_progs (look true (device_query h get)) = linked h.
Proof.
  intros O G. unfold device_query. rewrite links_stable by exact G. unfold look. destruct (drop_gone (at_hook h) h O) as (D1 & _ & D3).
  set (h' := drop_links true (at_hook h) h) in *. unfold linked in *. rewrite <- D1. apply all_linked.
  destruct (filter (fun e => negb (en_link e)) (hk_progs h')) as [|e r] eqn:E; [reflexivity|exfalso].
  assert (In (en_id e) (loose (hk_progs h'))) as I by (unfold loose; rewrite E; now left). apply D3 in I as [I1 I2]. apply I2. unfold loose in I1. apply in_map_iff in I1 as (x & <- & X).
  apply filter_In in X as [X _]. unfold at_hook. now apply in_map.
Qed.
