(** Inside the test machine. *)
From Coq Require Import String.
From Verif Require Import Base Text TextParse LogModel TextSplit KmodModel KmodProofs KmodProofs2 VmModel VmSpec VmProofs.
Local Open Scope Z_scope.

(** * Mounts *)

Lemma dir_bit r : 0 <= r < 4096 -> Z.land (16384 + r) 16384 = 16384.
Proof.
  intros H. assert (A : forallb (fun r => Z.land (16384 + r) 16384 =? 16384) (map Z.of_nat (seq 0 (Z.to_nat 4096))) = true) by (vm_compute; reflexivity).
  rewrite forallb_forall in A. apply Z.eqb_eq. apply A. replace r with (Z.of_nat (Z.to_nat r)) by lia. apply in_map, in_seq. lia.
Qed.
Definition steps (m : mount) : list action :=
  [match m_mode m with None => AStat (m_target m) | Some x => AMkdir (m_target m) x end; AMount (m_source m) (m_target m) (m_fstype m)].
Lemma mount_ok M done m : mountable M -> do_mount M done m = (done ++ steps m, None).
Proof.
  intros (S & D & N). unfold do_mount, steps. destruct (m_mode m) as [x|].
  - rewrite D, N, <- app_assoc. reflexivity.
  - destruct (S done (m_target m)) as (r & -> & R). rewrite (dir_bit r R), Z.eqb_refl, N, <- app_assoc. reflexivity.
Qed.
Lemma mounts_ok M : mountable M -> forall l done, do_mounts M done l = (done ++ flat_map steps l, None).
Proof.
  intros H. induction l as [|m l IH]; intros done; cbn [do_mounts flat_map]; [rewrite app_nil_r; reflexivity|].
  rewrite (mount_ok M done m H), IH, <- app_assoc. reflexivity.
Qed.
Lemma mounted_app a b : mounted (a ++ b) = mounted a ++ mounted b.
Proof. apply flat_map_app. Qed.
Lemma programs_app a b : programs_run (a ++ b) = programs_run a ++ programs_run b.
Proof. apply flat_map_app. Qed.
Lemma do_mount_runs M done m : programs_run (fst (do_mount M done m)) = programs_run done.
Proof.
  unfold do_mount. destruct (m_mode m) as [x|].
  - destruct (k_mkdir M done (m_target m) x); cbn [fst]; rewrite !programs_app; cbn; rewrite ?app_nil_r; reflexivity.
  - destruct (k_stat M done (m_target m)) as [st|]; [|cbn [fst]; rewrite !programs_app; cbn; rewrite ?app_nil_r; reflexivity].
    destruct (Z.land st 16384 =? 16384); cbn [fst]; rewrite !programs_app; cbn; rewrite ?app_nil_r; reflexivity.
Qed.
Lemma do_mounts_runs M : forall l done, programs_run (fst (do_mounts M done l)) = programs_run done.
Proof.
  induction l as [|m l IH]; intros done; cbn [do_mounts]; [reflexivity|]. pose proof (do_mount_runs M done m) as R. destruct (do_mount M done m) as (d, [e|]); cbn [fst] in *.
  - exact R.
  - rewrite IH. exact R.
Qed.

(** * Programs *)

Definition entry_passes (M : machine) (args : list str) (x : option str) : Prop := exists n, x = Some n /\ passes M args n.
Lemma entry_ok M args x : snd (run_entry M args x) = false <-> entry_passes M args x.
Proof.
  unfold run_entry, entry_passes, passes. destruct x as [n|]; cbn [snd].
  - destruct (k_exec M (txt "/bin/" ++ n) args) as [(code, out)|] eqn:E; cbn [snd].
    + destruct code as [c|].
      * destruct (Z.eqb_spec c 0) as [-> |N]; cbn [negb].
        -- split; [intros _|reflexivity]. exists n. split; [reflexivity|]. exists out. exact E.
        -- split; [discriminate|]. intros (n' & X & o & Y). apply some_inj in X. subst n'. rewrite E in Y. apply some_inj in Y. apply pair_equal_spec in Y as [Y _]. apply some_inj in Y. contradiction.
      * split; [discriminate|]. intros (n' & X & o & Y). apply some_inj in X. subst n'. rewrite E in Y. apply some_inj in Y. apply pair_equal_spec in Y as [Y _]. discriminate Y.
    + split; [discriminate|]. intros (n' & X & o & Y). apply some_inj in X. subst n'. rewrite E in Y. discriminate Y.
  - split; [discriminate|]. intros (n' & X & _). discriminate X.
Qed.
Lemma entries_ok M args : forall l k, snd (run_entries M args k l) = [] <-> Forall (entry_passes M args) l.
Proof.
  induction l as [|x l IH]; intros k; cbn [run_entries]; [split; [constructor|reflexivity]|].
  pose proof (entry_ok M args x) as E. destruct (run_entry M args x) as ((a, o), f). specialize (IH (S k)). destruct (run_entries M args (S k) l) as ((acts, out), failed).
  cbn [snd] in *. destruct f.
  - split; [discriminate|]. intros F. pose proof (proj2 E (Forall_inv F)) as X. discriminate X.
  - rewrite IH. split; [intros F; constructor; [apply E; reflexivity|exact F]|intros F; exact (Forall_inv_tail F)].
Qed.
Definition started (M : machine) (args : list str) (x : option str) : list (str * list str) :=
  match x with Some n => match k_exec M (txt "/bin/" ++ n) args with Some _ => [(txt "/bin/" ++ n, args)] | None => [] end | None => [] end.
Lemma entries_runs M args : forall l k, programs_run (fst (fst (run_entries M args k l))) = flat_map (started M args) l /\ mounted (fst (fst (run_entries M args k l))) = [].
Proof.
  induction l as [|x l IH]; intros k; cbn [run_entries flat_map]; [split; reflexivity|].
  assert (E : programs_run (fst (fst (run_entry M args x))) = started M args x /\ mounted (fst (fst (run_entry M args x))) = []).
  { unfold run_entry, started. destruct x as [n|]; [|split; reflexivity]. destruct (k_exec M (txt "/bin/" ++ n) args) as [(c, out)|]; split; reflexivity. }
  destruct (run_entry M args x) as ((a, o), f). specialize (IH (S k)). destruct (run_entries M args (S k) l) as ((acts, out), failed). cbn [fst] in *.
  rewrite programs_app, mounted_app. destruct E as (-> & ->), IH as (-> & ->). split; reflexivity.
Qed.
Lemma entries_quiet M args : well_behaved M -> forall l k, quiet (snd (fst (run_entries M args k l))).
Proof.
  intros (WE & WS & _). induction l as [|x l IH]; intros k; cbn [run_entries]; [exact quiet_nil|].
  assert (E : quiet (snd (fst (run_entry M args x)))).
  { unfold run_entry. destruct x as [n|]; [|exact quiet_nil]. pose proof (quiet_line _ (WS (txt "/bin/" ++ n) args)) as Q. rewrite <- app_assoc in Q.
    destruct (k_exec M (txt "/bin/" ++ n) args) as [(c, out)|] eqn:E; cbn [fst snd]; [|exact Q]. apply quiet_app; [exact Q|exact (WE _ _ _ _ E)]. }
  destruct (run_entry M args x) as ((a, o), f). specialize (IH (S k)). destruct (run_entries M args (S k) l) as ((acts, out), failed). cbn [fst snd] in *.
  apply quiet_app; assumption.
Qed.
(** What init does on a machine that lets it. *)
Lemma init_runs M c l : mountable M -> k_cmdline M = Some c -> k_bin M = Some l ->
  mounted (fst (fst (init_run M))) = needed /\ programs_run (fst (fst (init_run M))) = flat_map (started M (init_args c)) l /\
  (snd (init_run M) = None <-> Forall (entry_passes M (init_args c)) l).
Proof.
  intros H C B. unfold init_run. rewrite (mounts_ok M H), C, B. cbn [app]. pose proof (entries_runs M (init_args c) l 0) as (R & N). pose proof (entries_ok M (init_args c) l 0) as O.
  destruct (run_entries M (init_args c) 0 l) as ((acts, out), failed). cbn [fst snd] in *. rewrite mounted_app, programs_app, R, N. split; [reflexivity|]. split; [reflexivity|].
  rewrite <- O. destruct failed; split; congruence.
Qed.
Lemma init_no_runs M : snd (init_run M) <> None -> (forall l, snd (init_run M) <> Some (EPrograms l)) -> programs_run (fst (fst (init_run M))) = [].
Proof.
  unfold init_run. pose proof (do_mounts_runs M mounts []) as R. destruct (do_mounts M [] mounts) as (done, [e|]); cbn [fst] in R; [intros _ _; exact R|].
  destruct (k_cmdline M) as [c|]; [|intros _ _; exact R]. destruct (k_bin M) as [l|]; [|intros _ _; exact R].
  destruct (run_entries M (init_args c) 0 l) as ((acts, out), failed). cbn [fst snd]. intros A B. destruct failed as [|x f]; [congruence|]. exfalso. exact (B _ eq_refl).
Qed.
Lemma init_quiet M : well_behaved M -> quiet (snd (fst (init_run M))).
Proof.
  intros W. unfold init_run. destruct (do_mounts M [] mounts) as (done, [e|]); [exact quiet_nil|]. destruct (k_cmdline M) as [c|]; [|exact quiet_nil].
  destruct (k_bin M) as [l|]; [|exact quiet_nil]. pose proof (entries_quiet M (init_args c) W l 0) as Q. destruct (run_entries M (init_args c) 0 l) as ((acts, out), failed). exact Q.
Qed.
Definition succeeds (M : machine) : bool := match snd (init_run M) with None => true | Some _ => false end.
Lemma console_lines M : well_behaved M -> exists ls, Forall plain_line ls /\ init_console M = lines_text (ls ++ [verdict_text (succeeds M)]).
Proof.
  intros W. unfold init_console, succeeds. pose proof (init_quiet M W) as Q. destruct (init_run M) as ((acts, out), r). cbn [fst snd] in *.
  destruct Q as (ls & -> & F). destruct W as (_ & _ & WE). destruct r as [e|].
  - destruct (WE match e with EPrograms l => l | _ => [] end) as (le & E & Fe). exists (ls ++ le). split; [apply Forall_app; auto|].
    rewrite !lines_text_app, <- E, <- !app_assoc. reflexivity.
  - exists ls. split; [exact F|]. rewrite lines_text_app. reflexivity.
Qed.
Lemma vm_success kernel M v : well_behaved M -> seen_from_outside kernel M v -> run_vm v = Ok (succeeds M).
Proof.
  intros W (O & E & (kl & -> & K) & S). apply run_vm_ok. destruct (console_lines M W) as (ls & F & C).
  assert (L : buf_lines [] (v_stdout v) = kl ++ ls ++ [verdict_text (succeeds M)]).
  { rewrite O, C, <- lines_text_app. apply serial_lines. rewrite !Forall_app. repeat split.
    - eapply Forall_impl; [|exact K]. intros l (N & _). exact N.
    - eapply Forall_impl; [|exact F]. intros l (N & _). exact N.
    - constructor; [|constructor]. destruct (succeeds M); cbn; intuition discriminate. }
  unfold vm_verdict, fine_vm. rewrite L. split; [split; [|split; [exact (quiet_utf8 _ E)|exact S]]|].
  - rewrite !Forall_app. repeat split.
    + eapply Forall_impl; [|exact K]. intros l (_ & U & _). exact U.
    + eapply Forall_impl; [|exact F]. intros l (_ & U & _). exact U.
    + constructor; [|constructor]. destruct (succeeds M); reflexivity.
  - rewrite !verdicts_app, (verdicts_plain kl K), (verdicts_plain ls F). destruct (succeeds M); reflexivity.
Qed.

(** * Arguments *)

Lemma args_text console args : kernel_args console args =
  txt "console=" ++ console ++ flat_map (fun a => txt " init.arg=" ++ a) (all_args args) ++ txt " noapic lsm=bpf".
Proof.
  unfold kernel_args. cbn [fold_left map]. change (Nat.eqb 0 0) with true. cbn iota.
  assert (G : forall l i acc, (1 <= i)%nat -> fold_left (fun '(i, acc) '(k, v) => (S i, (if Nat.eqb i 0 then acc else acc ++ [32]) ++ k ++ [61] ++ v)) (map (fun a => (txt "init.arg", a)) l) (i, acc) =
    ((i + length l)%nat, acc ++ flat_map (fun a => txt " init.arg=" ++ a) l)).
  { induction l as [|a l IH]; intros i acc Hi; cbn [map fold_left length flat_map]; [rewrite app_nil_r, Nat.add_0_r; reflexivity|].
    destruct i as [|i]; [lia|]. cbn [Nat.eqb]. rewrite IH by lia. f_equal; [lia|]. rewrite <- !app_assoc. reflexivity. }
  change ((txt "init.arg", txt "--test-threads=1") :: map (fun a => (txt "init.arg", a)) args) with (map (fun a => (txt "init.arg", a)) (all_args args)).
  rewrite G by lia. rewrite <- !app_assoc. reflexivity.
Qed.
Lemma no_blank_ws a : no_blank a -> Forall (fun c => is_ws c = false) a.
Proof. intros H. eapply Forall_impl; [|exact H]. intros c (A & B). cbn beta. unfold is_ws. lia. Qed.
Lemma args_arrive console args : no_blank console -> Forall no_blank args -> init_args (kernel_args console args ++ [10]) = txt "--test-threads=1" :: args.
Proof.
  intros C A. rewrite args_text. change (txt "--test-threads=1" :: args) with (all_args args).
  assert (B : Forall no_blank (all_args args)).
  { constructor; [|exact A]. unfold no_blank. cbn. repeat (apply Forall_cons; [lia|]). apply Forall_nil. }
  assert (G : forall l, Forall no_blank l -> forall w, word_ok w -> ws_words (w ++ flat_map (fun a => txt " init.arg=" ++ a) l ++ txt " noapic lsm=bpf" ++ [10]) =
    w :: map (fun a => txt "init.arg=" ++ a) l ++ [txt "noapic"; txt "lsm=bpf"]).
  { induction 1 as [|a l Ha _ IH]; intros w Hw.
    - cbn [flat_map map app]. change (txt " noapic lsm=bpf" ++ [10]) with (32 :: txt "noapic lsm=bpf" ++ [10]). rewrite ws_words_cons by exact Hw. reflexivity.
    - cbn [flat_map map]. rewrite <- !app_assoc. change (txt " init.arg=" ++ a ++ flat_map (fun a => txt " init.arg=" ++ a) l ++ txt " noapic lsm=bpf" ++ [10])
        with (32 :: txt "init.arg=" ++ a ++ flat_map (fun a => txt " init.arg=" ++ a) l ++ txt " noapic lsm=bpf" ++ [10]).
      rewrite ws_words_cons by exact Hw. rewrite app_assoc, IH; [reflexivity|]. split; [discriminate|]. apply Forall_app. split; [|exact (no_blank_ws a Ha)].
      apply Forall_forall. intros c I. cbn in I. repeat (destruct I as [<-|I]; [reflexivity|]). destruct I. }
  unfold init_args. rewrite <- !app_assoc. rewrite app_assoc, G; [|exact B|].
  - cbn [flat_map]. replace (strip_prefix (txt "init.arg=") (txt "console=" ++ console)) with (@None str) by reflexivity. cbn [app].
    rewrite flat_map_app. change (flat_map _ [txt "noapic"; txt "lsm=bpf"]) with (@nil str). rewrite app_nil_r.
    clear. induction (all_args args) as [|a l IH]; [reflexivity|]. cbn [map flat_map]. rewrite (proj2 (strip_prefix_iff _ _ a) eq_refl), IH. reflexivity.
  - split; [discriminate|]. apply Forall_app. split; [|exact (no_blank_ws _ C)]. apply Forall_forall. intros c I. cbn in I. repeat (destruct I as [<-|I]; [reflexivity|]). destruct I.
Qed.

(** * The whole *)

Lemma Forall_forall_iff {A} (P Q : A -> Prop) l : (forall x, In x l -> (P x <-> Q x)) -> (Forall P l <-> Forall Q l).
Proof. intros H. rewrite !Forall_forall. split; intros G x I; apply (H x I); auto. Qed.
Lemma run_all (l : list (str * machine * list str * vm)) console args :
  no_blank console -> Forall no_blank args ->
  Forall (fun '(kernel, M, names, v) => well_behaved M /\ mountable M /\ k_cmdline M = Some (kernel_args console args ++ [10]) /\ k_bin M = Some (map Some names) /\ seen_from_outside kernel M v) l ->
  (run_vms 0 [] (map snd l) = Done <-> Forall (fun '(kernel, M, names, v) => Forall (passes M (txt "--test-threads=1" :: args)) names) l).
Proof.
  intros C A F. rewrite vms_done, Forall_map. apply Forall_forall_iff. intros (((kernel, M), names), v) I. rewrite Forall_forall in F. destruct (F _ I) as (W & MT & CL & B & S). cbn [snd].
  rewrite (vm_success kernel M v W S). destruct (init_runs M _ _ MT CL B) as (_ & _ & R). rewrite (args_arrive console args C A) in R.
  unfold succeeds. assert (X : Forall (entry_passes M (txt "--test-threads=1" :: args)) (map Some names) <-> Forall (passes M (txt "--test-threads=1" :: args)) names).
  { rewrite Forall_map. split; intros H; (eapply Forall_impl; [|exact H]); cbn beta.
    - intros n (n' & E & P). apply some_inj in E. subst n'. exact P.
    - intros n P. exists n. auto. }
  rewrite <- X, <- R. destruct (snd (init_run M)); split; congruence.
Qed.
