(** Running the tests: those that are blamed. *)
From Coq Require Import String.
From Verif Require Import Base Text TextParse LogModel TextSplit KmodModel VmModel VmSpec VmProofs VmProofs2 VmProofs3.
Local Open Scope Z_scope.

Lemma entries_blamed M args : forall l k j, In j (snd (run_entries M args k l)) <-> exists i x, j = (k + i)%nat /\ nth_error l i = Some x /\ ~ entry_passes M args x.
Proof.
  induction l as [|x l IH]; intros k j; [split; [intros []|intros (i & x & _ & E & _); destruct i; discriminate E]|].
  cbn [run_entries]. specialize (IH (S k) j). pose proof (entry_ok M args x) as O. destruct (run_entry M args x) as ((a, o), f). destruct (run_entries M args (S k) l) as ((acts, out), failed).
  cbn [snd] in *. assert (T : In j failed <-> exists i y, j = (k + S i)%nat /\ nth_error l i = Some y /\ ~ entry_passes M args y).
  { rewrite IH. split; intros (i & y & -> & R); exists i, y; (split; [lia|exact R]). }
  split.
  - intros I. destruct f.
    + destruct I as [<- |I]; [exists 0%nat, x; split; [lia|]; split; [reflexivity|]; intros P; apply O in P; discriminate P|]. apply T in I as (i & y & R). exists (S i), y. exact R.
    + apply T in I as (i & y & R). exists (S i), y. exact R.
  - intros (i & y & E & Y & P). destruct i as [|i].
    + cbn [nth_error] in Y. apply some_inj in Y. subst y. destruct f; [left; lia|]. exfalso. apply P. apply O. reflexivity.
    + assert (I : In j failed) by (apply T; exists i, y; auto). destruct f; [right; exact I|exact I].
Qed.
Lemma init_blames M c names l : mountable M -> k_cmdline M = Some c -> k_bin M = Some (map Some names) -> snd (init_run M) = Some (EPrograms l) ->
  forall j, In j l <-> exists n, nth_error names j = Some n /\ ~ passes M (init_args c) n.
Proof.
  intros H C B E j. unfold init_run in E. rewrite (mounts_ok M H), C, B in E. cbn [app] in E. pose proof (entries_blamed M (init_args c) (map Some names) 0 j) as X.
  destruct (run_entries M (init_args c) 0 (map Some names)) as ((acts, out), failed). cbn [snd] in *.
  assert (Q : failed = l) by (destruct failed; [discriminate E|]; congruence). subst l. rewrite X. split.
  - intros (i & x & -> & N & P). rewrite nth_error_map in N. cbn [Nat.add]. destruct (nth_error names i) as [n|] eqn:Y; [|discriminate N]. cbn [option_map] in N. apply some_inj in N. subst x.
    exists n. split; [reflexivity|]. intros G. apply P. exists n. auto.
  - intros (n & N & P). exists j, (Some n). split; [reflexivity|]. split; [rewrite nth_error_map, N; reflexivity|]. intros (m & Y & G). apply some_inj in Y. subst m. exact (P G).
Qed.

Lemma binaries_blamed exec cmd args : forall l failed bad, snd (run_binaries exec cmd args l failed) = LFailed bad ->
  bad <> [] /\ forall p n, In (p, n) bad <-> In (p, n) failed \/ exists b, In (p, (n, b)) l /\ exec (cmd ++ [b] ++ args) <> Some (Some 0).
Proof.
  induction l as [|(p0, (n0, b0)) l IH]; intros failed bad; cbn [run_binaries].
  - cbn [snd]. destruct failed as [|x f]; intros E; [discriminate E|]. assert (Q : x :: f = bad) by congruence. subst bad. split; [discriminate|]. intros p n. split; [auto|]. intros [I|(b & [] & _)]. exact I.
  - destruct (exec (cmd ++ [b0] ++ args)) as [code|] eqn:X; [|intros E; discriminate E].
    specialize (IH (if code_ok code then failed else failed ++ [(p0, n0)]) bad). destruct (run_binaries _ _ _ _ _) as (t, r). cbn [snd] in *. intros E.
    destruct (IH E) as (N & I). split; [exact N|]. intros p n. rewrite I. clear IH I.
    assert (K : code_ok code = true <-> code = Some 0).
    { destruct code as [c|]; cbn [code_ok]; [rewrite Z.eqb_eq; split; congruence|split; discriminate]. }
    split.
    + intros [J|(b & J & G)]; [|right; exists b; split; [right; exact J|exact G]]. destruct (code_ok code) eqn:O; [left; exact J|].
      apply in_app_iff in J as [J|[J|[]]]; [left; exact J|]. apply pair_equal_spec in J as [-> ->]. right. exists b0. split; [left; reflexivity|]. rewrite X. intros Y. apply some_inj in Y. apply K in Y. discriminate Y.
    + intros [J|(b & [J|J] & G)]; [left; destruct (code_ok code); [exact J|apply in_app_iff; left; exact J]| |right; exists b; split; assumption].
      apply pair_equal_spec in J as [<- J]. apply pair_equal_spec in J as [<- <-]. left. destruct (code_ok code) eqn:O; [|apply in_app_iff; right; left; reflexivity].
      exfalso. apply G. rewrite X. f_equal. apply K. reflexivity.
Qed.
Lemma local_failed exec words args binaries bad : words <> [] -> Forall word words ->
  snd (run_local exec (join 32 words) args binaries) = LFailed bad ->
  bad <> [] /\ forall p n, In (p, n) bad <-> exists l b, In (p, l) binaries /\ In (n, b) l /\ exec (words ++ [b] ++ txt "--test-threads=1" :: args) <> Some (Some 0).
Proof.
  intros N F. unfold run_local. rewrite (runner_words words N F). destruct words as [|w ws]; [contradiction|].
  change (all_args args) with (txt "--test-threads=1" :: args). intros E. apply binaries_blamed in E as (B & I). split; [exact B|]. intros p n. rewrite I. split.
  - intros [[]|(b & J & G)]. apply in_flat_map in J as ((p', l) & J & K). apply in_map_iff in K as (x & Q & K). apply pair_equal_spec in Q as [-> ->]. exists l, b. auto.
  - intros (l & b & J & K & G). right. exists b. split; [|exact G]. apply in_flat_map. exists (p, l). split; [exact J|]. apply in_map_iff. exists (n, b). auto.
Qed.

(** A success means that everything was mounted. *)
Lemma mount_success M done m d : do_mount M done m = (d, None) -> d = done ++ steps m.
Proof.
  unfold do_mount, steps. destruct (m_mode m) as [x|].
  - destruct (k_mkdir M done (m_target m) x); [|discriminate]. intros H. apply pair_equal_spec in H as (<- & _). rewrite <- app_assoc. reflexivity.
  - destruct (k_stat M done (m_target m)) as [st|]; [|discriminate]. destruct (Z.land st 16384 =? 16384); [|discriminate].
    intros H. apply pair_equal_spec in H as (<- & _). rewrite <- app_assoc. reflexivity.
Qed.
Lemma mounts_success M : forall l done d, do_mounts M done l = (d, None) -> d = done ++ flat_map steps l.
Proof.
  induction l as [|m l IH]; intros done d; cbn [do_mounts flat_map].
  - intros H. apply pair_equal_spec in H as (<- & _). rewrite app_nil_r. reflexivity.
  - destruct (do_mount M done m) as (d1, [e|]) eqn:E; [discriminate|]. intros H. apply IH in H. apply mount_success in E. subst. rewrite <- app_assoc. reflexivity.
Qed.
Lemma init_success M : snd (init_run M) = None -> mounted (fst (fst (init_run M))) = needed /\
  exists c l, k_cmdline M = Some c /\ k_bin M = Some l /\ programs_run (fst (fst (init_run M))) = flat_map (started M (init_args c)) l /\
    Forall (entry_passes M (init_args c)) l.
Proof.
  unfold init_run. destruct (do_mounts M [] mounts) as (done, [e|]) eqn:E; [discriminate|]. apply mounts_success in E. subst done.
  destruct (k_cmdline M) as [c|]; [|discriminate]. destruct (k_bin M) as [l|]; [|discriminate].
  pose proof (entries_runs M (init_args c) l 0) as (R & N). pose proof (entries_ok M (init_args c) l 0) as O.
  destruct (run_entries M (init_args c) 0 l) as ((acts, out), failed). cbn [fst snd] in *. intros F.
  rewrite mounted_app, programs_app, N, R. split; [vm_compute; reflexivity|]. exists c, l. repeat (split; [reflexivity|]).
  apply O. destruct failed; [reflexivity|discriminate F].
Qed.
Lemma init_success_names M : snd (init_run M) = None -> mounted (fst (fst (init_run M))) = needed /\
  exists c names, k_cmdline M = Some c /\ k_bin M = Some (map Some names) /\ Forall (passes M (init_args c)) names.
Proof.
  intros H. destruct (init_success M H) as (A & c & l & C & B & _ & F). split; [exact A|]. exists c.
  assert (X : exists names, l = map Some names /\ Forall (passes M (init_args c)) names).
  { clear - F. induction l as [|x l IH]; [exists []; split; [reflexivity|constructor]|].
    destruct (IH (Forall_inv_tail F)) as (names & -> & G). destruct (Forall_inv F) as (n & -> & P). exists (n :: names). split; [reflexivity|constructor; assumption]. }
  destruct X as (names & -> & G). exists names. repeat split; assumption.
Qed.
