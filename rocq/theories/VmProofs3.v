(** When the emulator is told to stop, and running without a machine. *)
From Coq Require Import String.
From Verif Require Import Base Text TextParse LogModel TextSplit KmodModel KmodProofs KmodProofs2 VmModel VmSpec VmProofs VmProofs2.
Local Open Scope Z_scope.

Lemma contains_iff p s : contains p s = true <-> within p s.
Proof.
  unfold within. induction s as [|c s IH].
  - cbn [contains]. rewrite orb_false_r. rewrite starts_with_iff. split.
    + intros (r & E). exists [], r. exact E.
    + intros (a & b & E). destruct a; [|discriminate E]. exists b. exact E.
  - cbn [contains]. rewrite orb_true_iff, starts_with_iff, IH. split.
    + intros [(r & E)|(a & b & E)]; [exists [], r; exact E|]. exists (c :: a), b. rewrite E. reflexivity.
    + intros (a & b & E). destruct a as [|x a]; [left; exists b; exact E|right]. cbn [app] in E. apply cons_inj in E as (_ & E). exists a, b. exact E.
Qed.
Definition lockups (k : nat) (lines : list str) : Prop :=
  match k with
  | O => exists a l1 b l2 c, lines = a ++ l1 :: b ++ l2 :: c /\ lockup l1 /\ lockup l2
  | S _ => exists l, In l lines /\ lockup l
  end.
Lemma note_cases a b k l : let '(counts, stop) := note_line markers [a; b; k] l in
  (panic l /\ stop = true /\ exists a' b', counts = [a'; b'; k]) \/
  (lockup l /\ counts = [a; b; S k] /\ stop = (1 <? S k)%nat) \/
  (~ panic l /\ ~ lockup l /\ counts = [a; b; k] /\ stop = false).
Proof.
  unfold markers. cbn [note_line]. destruct (contains (txt "end Kernel panic") l) eqn:E1; [apply contains_iff in E1; left; split; [left; exact E1|split; [reflexivity|eauto]]|].
  destruct (contains (txt "rcu: RCU grace-period kthread stack dump:") l) eqn:E2; [apply contains_iff in E2; left; split; [right; exact E2|split; [reflexivity|eauto]]|].
  assert (N : ~ panic l) by (intros [P|P]; apply contains_iff in P; congruence).
  destruct (contains (txt "watchdog: BUG: soft lockup") l) eqn:E3.
  - apply contains_iff in E3. right. left. split; [split; assumption|split; reflexivity].
  - right. right. split; [exact N|]. split; [intros (P & _); apply contains_iff in P; congruence|split; reflexivity].
Qed.
Definition told (k : nat) (lines : list str) : Prop := (exists l, In l lines /\ panic l) \/ lockups k lines.
Lemma told_panic k l lines : panic l -> told k (l :: lines).
Proof. intros P. left. exists l. split; [left; reflexivity|exact P]. Qed.
Lemma told_other k l lines : ~ panic l -> ~ lockup l -> (told k (l :: lines) <-> told k lines).
Proof.
  intros N M. unfold told. split.
  - intros [(x & [<-|I] & P)|L]; [contradiction|left; eauto|right]. destruct k as [|k]; cbn [lockups] in *.
    + destruct L as (a & l1 & b & l2 & c & E & P1 & P2). destruct a as [|y a]; cbn [app] in E; apply cons_inj in E as (E1 & E2); [subst; contradiction|]. exists a, l1, b, l2, c. auto.
    + destruct L as (x & [<-|I] & P); [contradiction|eauto].
  - intros [(x & I & P)|L]; [left; exists x; split; [right; exact I|exact P]|right]. destruct k as [|k]; cbn [lockups] in *.
    + destruct L as (a & l1 & b & l2 & c & -> & P). exists (l :: a), l1, b, l2, c. auto.
    + destruct L as (x & I & P). exists x. split; [right; exact I|exact P].
Qed.
Lemma told_lockup l lines : lockup l -> (told 0 (l :: lines) <-> told 1 lines).
Proof.
  intros M. unfold told. cbn [lockups]. split.
  - intros [(x & [<-|I] & P)|(a & l1 & b & l2 & c & E & P1 & P2)].
    + destruct M as (_ & M). contradiction.
    + left. eauto.
    + right. exists l2. split; [|exact P2]. destruct a as [|y a]; cbn [app] in E; apply cons_inj in E as (_ & ->); rewrite ?in_app_iff; cbn [In]; rewrite ?in_app_iff; cbn [In]; auto 10.
  - intros [(x & I & P)|(x & I & P)].
    + left. exists x. split; [right; exact I|exact P].
    + right. apply in_split in I as (b & c & ->). exists [], l, b, x, c. auto.
Qed.
Lemma watch_told lines : forall a b k o o', snd (watch [a; b; k] o lines) = Ok o' -> ((1 <= fst (watch [a; b; k] o lines))%nat <-> told k lines).
Proof.
  induction lines as [|l lines IH]; intros a b k o o'.
  - cbn [watch fst snd]. intros _. split; [lia|]. intros [(x & [] & _)|L]. destruct k as [|k]; cbn [lockups] in L; [destruct L as (y & ? & ? & ? & ? & E & _); destruct y; discriminate E|destruct L as (x & [] & _)].
  - cbn [watch]. destruct (utf8 l); cbn [negb]; [|discriminate]. pose proof (note_cases a b k l) as NC. destruct (note_line markers [a; b; k] l) as (counts, stop).
    assert (R : forall r : nat * res verr (option bool), (match strip_prefix (txt "init: ") l with
          | None => watch counts o lines
          | Some l => if str_eqb l (txt "success") then match o with Some _ => (0%nat, Err EMultiple) | None => watch counts (Some true) lines end
              else if str_eqb l (txt "failure") then match o with Some _ => (0%nat, Err EMultiple) | None => watch counts (Some false) lines end
              else (0%nat, Err (EInitOutput l)) end) = r -> snd r = Ok o' -> exists o2, r = watch counts o2 lines).
    { intros r <- H. destruct (strip_prefix (txt "init: ") l) as [s|]; [|eauto]. destruct (str_eqb s (txt "success")); [destruct o; [discriminate H|eauto]|].
      destruct (str_eqb s (txt "failure")); [destruct o; [discriminate H|eauto]|discriminate H]. }
    destruct (match strip_prefix (txt "init: ") l with None => _ | Some _ => _ end) as (n, w) eqn:E. cbn [fst snd]. intros Hw. destruct (R _ eq_refl Hw) as (o2 & E2).
    destruct NC as [(P & -> & _)|[(L & -> & ->)|(NP & NL & -> & ->)]].
    + split; [intros _; exact (told_panic k l lines P)|lia].
    + specialize (IH a b (S k) o2 o'). rewrite <- E2 in IH. specialize (IH Hw). cbn [fst] in IH. destruct k as [|k].
      * change (1 <? 1)%nat with false. cbn iota. rewrite IH, (told_lockup l lines L). reflexivity.
      * change (1 <? S (S k))%nat with true. cbn iota. split; [intros _|lia]. right. exists l. split; [left; reflexivity|exact L].
    + specialize (IH a b k o2 o'). rewrite <- E2 in IH. specialize (IH Hw). cbn [fst] in IH. rewrite (told_other k l lines NP NL). exact IH.
Qed.

(** * Without a machine *)

Lemma binaries_run exec cmd args : forall l failed,
  (forall p n b, In (p, (n, b)) l -> exec (cmd ++ [b] ++ args) <> None) ->
  fst (run_binaries exec cmd args l failed) = map (fun '(_, (_, b)) => cmd ++ [b] ++ args) l /\
  snd (run_binaries exec cmd args l failed) =
    match failed ++ map (fun '(p, (n, _)) => (p, n)) (filter (fun '(_, (_, b)) => negb (match exec (cmd ++ [b] ++ args) with Some c => code_ok c | None => false end)) l) with [] => LDone | x => LFailed x end.
Proof.
  induction l as [|(p, (n, b)) l IH]; intros failed H; cbn [run_binaries map filter].
  - rewrite app_nil_r. destruct failed; split; reflexivity.
  - pose proof (H p n b (or_introl eq_refl)) as N. destruct (exec (cmd ++ [b] ++ args)) as [code|] eqn:E; [|contradiction].
    assert (H' : forall p n b, In (p, (n, b)) l -> exec (cmd ++ [b] ++ args) <> None) by (intros p' n' b' I; exact (H p' n' b' (or_intror I))).
    destruct (IH (if code_ok code then failed else failed ++ [(p, n)]) H') as (A & B). destruct (run_binaries exec cmd args l (if code_ok code then failed else failed ++ [(p, n)])) as (t, r). cbn [fst snd] in *.
    rewrite A. split; [reflexivity|]. rewrite B. destruct (code_ok code); cbn [negb map]; [reflexivity|]. rewrite <- app_assoc. reflexivity.
Qed.
Lemma word_ends w : word w -> (exists c r, w = c :: r /\ is_ws c = false) /\ (exists c r, w = r ++ [c] /\ is_ws c = false).
Proof.
  intros (N & B). apply no_blank_ws in B. split.
  - destruct w as [|c r]; [contradiction|]. exists c, r. split; [reflexivity|exact (Forall_inv B)].
  - destruct (exists_last N) as (r & c & ->). exists c, r. split; [reflexivity|]. apply Forall_app in B as (_ & B). exact (Forall_inv B).
Qed.
Lemma join_ends l : l <> [] -> Forall word l -> (exists c r, join 32 l = c :: r /\ is_ws c = false) /\ (exists c r, join 32 l = r ++ [c] /\ is_ws c = false).
Proof.
  intros N F. induction F as [|w l Hw F IH]; [contradiction|]. destruct (word_ends w Hw) as ((c & r & E & B) & (d & q & E' & B')). destruct l as [|v l].
  - cbn [join]. split; [exists c, r|exists d, q]; auto.
  - destruct (IH ltac:(discriminate)) as (_ & (d2 & q2 & E2 & B2)). change (join 32 (w :: v :: l)) with (w ++ 32 :: join 32 (v :: l)). split.
    + rewrite E. exists c, (r ++ 32 :: join 32 (v :: l)). auto.
    + rewrite E2. exists d2, (w ++ 32 :: q2). rewrite <- app_assoc. auto.
Qed.
Lemma runner_words l : l <> [] -> Forall word l -> split_term (Z.eqb 32) (trim (join 32 l)) = l.
Proof.
  intros N F. destruct (join_ends l N F) as ((c & r & E & B) & (d & q & E' & B')).
  assert (T : trim (join 32 l) = join 32 l).
  { unfold trim. assert (trim_start (join 32 l) = join 32 l) as -> by (rewrite E; cbn [trim_start]; rewrite B; reflexivity).
    assert (trim_start (rev (join 32 l)) = rev (join 32 l)) as -> by (rewrite E', rev_app_distr; cbn [rev app trim_start]; rewrite B'; reflexivity). apply rev_involutive. }
  rewrite T. unfold split_term. fold (split_at 32 (join 32 l)). rewrite split_at_join; [|exact N|].
  - destruct (exists_last N) as (i & w & ->). rewrite rev_app_distr. cbn [rev app]. apply Forall_app in F as (_ & F). pose proof (Forall_inv F) as (W & _). destruct w; [contradiction|reflexivity].
  - eapply Forall_impl; [|exact F]. intros w (_ & H). eapply Forall_impl; [|exact H]. intros x (_ & X). exact X.
Qed.
Lemma local_runs exec words args binaries : words <> [] -> Forall word words ->
  (forall p l n b, In (p, l) binaries -> In (n, b) l -> exec (words ++ [b] ++ txt "--test-threads=1" :: args) <> None) ->
  fst (run_local exec (join 32 words) args binaries) = flat_map (fun '(_, l) => map (fun '(_, b) => words ++ [b] ++ txt "--test-threads=1" :: args) l) binaries /\
  (snd (run_local exec (join 32 words) args binaries) = LDone <->
   forall p l n b, In (p, l) binaries -> In (n, b) l -> exec (words ++ [b] ++ txt "--test-threads=1" :: args) = Some (Some 0)).
Proof.
  intros N F H. unfold run_local. rewrite (runner_words words N F). destruct words as [|w ws]; [contradiction|].
  change (all_args args) with (txt "--test-threads=1" :: args). set (flat := flat_map (fun '(p, l) => map (fun x => (p, x)) l) binaries).
  assert (I : forall p n b, In (p, (n, b)) flat <-> exists l, In (p, l) binaries /\ In (n, b) l).
  { intros p n b. unfold flat. rewrite in_flat_map. split.
    - intros ((p', l) & A & B). apply in_map_iff in B as (x & E & B). apply pair_equal_spec in E as [-> ->]. eauto.
    - intros (l & A & B). exists (p, l). split; [exact A|]. apply in_map_iff. exists (n, b). auto. }
  destruct (binaries_run exec (w :: ws) (txt "--test-threads=1" :: args) flat []) as (A & B).
  { intros p n b J. apply I in J as (l & J & K). exact (H p l n b J K). }
  rewrite A, B, app_nil_l. split.
  - unfold flat. clear. induction binaries as [|(p, l) r IH]; [reflexivity|]. cbn [flat_map]. rewrite map_app, IH. f_equal. rewrite map_map. apply map_ext. intros (n, b). reflexivity.
  - split.
    + intros E p l n b J K. assert (M : In (p, (n, b)) flat) by (apply I; eauto).
      match type of E with match ?x with _ => _ end = _ => destruct x eqn:Q; [|discriminate E] end.
      apply map_eq_nil in Q. destruct (exec ((w :: ws) ++ [b] ++ txt "--test-threads=1" :: args)) as [[c|]|] eqn:X.
      * destruct (Z.eqb_spec c 0) as [-> |Nc]; [reflexivity|]. exfalso. assert (Y : In (p, (n, b)) []); [|destruct Y]. rewrite <- Q. apply filter_In. split; [exact M|]. rewrite X. cbn [code_ok]. apply Z.eqb_neq in Nc. rewrite Nc. reflexivity.
      * exfalso. assert (Y : In (p, (n, b)) []); [|destruct Y]. rewrite <- Q. apply filter_In. split; [exact M|]. rewrite X. reflexivity.
      * exfalso. exact (H p l n b J K X).
    + intros E. replace (filter _ flat) with (@nil (str * (str * str))); [reflexivity|]. symmetry.
      assert (G : forall x, In x flat -> (fun '(_, (_, b)) => negb match exec ((w :: ws) ++ [b] ++ txt "--test-threads=1" :: args) with Some c => code_ok c | None => false end) x = false).
      { intros (p, (n, b)) J. apply I in J as (l & J & K). rewrite (E p l n b J K). reflexivity. }
      clearbody flat. clear - G. induction flat as [|x l IH]; [reflexivity|]. cbn [filter]. rewrite (G x (or_introl eq_refl)). apply IH. intros y J. exact (G y (or_intror J)).
Qed.
