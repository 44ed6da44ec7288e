From Coq Require Import String.
From Verif Require Import Base Text TextSplit LogModel BuildModel BuildSpec BuildProofs.
Local Open Scope Z_scope.

Lemma forall2_weaken {A B} (R S : A -> B -> Prop) a b : (forall x y, R x y -> S x y) -> Forall2 R a b -> Forall2 S a b.
Proof. induction 2; constructor; auto. Qed.

Definition rerun (p : package) : list Z := txt "cargo:rerun-if-changed=" ++ p_root p.

(** How a package can end. *)
Inductive ended (M : machine) (c : command) (out : list Z) (p : package) (s : state) : res berr unit -> state -> Prop :=
| E_spawn s' : r_spawned (fst (m_cargo M c (s_files s))) = false -> s_runs s' = s_runs s -> s_files s' = s_files s -> s_lines s' = s_lines s ++ [rerun p] -> ended M c out p s (Err ESpawn) s'
| E_json r f ws s' : m_cargo M c (s_files s) = (r, f) -> r_spawned r = true -> s_runs s' = s_runs s ++ [(c, r, f)] -> In MInvalid (r_messages r) -> s_files s' = f ->
    s_lines s' = s_lines s ++ rerun p :: map warning ws -> ended M c out p s (Err EJson) s'
| E_cargo r f s' : m_cargo M c (s_files s) = (r, f) -> r_spawned r = true -> s_runs s' = s_runs s ++ [(c, r, f)] -> r_success r = false -> s_files s' = f ->
    s_lines s' = s_lines s ++ rerun p :: map warning (told r) -> ended M c out p s (Err ECargo) s'
| E_copy r f x s' : m_cargo M c (s_files s) = (r, f) -> r_spawned r = true -> s_runs s' = s_runs s ++ [(c, r, f)] -> r_success r = true -> ~ In MInvalid (r_messages r) ->
    copy_all out (reported r) f = (x, s_files s') ->
    s_lines s' = s_lines s ++ rerun p :: map warning (told r) -> ended M c out p s x s'.

Lemma build_one_ended M prefix nightly target arch out p s x s' :
  build_one M prefix nightly target arch out p s = (x, s') -> ended M (cargo M prefix nightly target arch out p) out p s x s'.
Proof.
  unfold build_one. cbn zeta. cbn [s_files say]. set (c := cargo M prefix nightly target arch out p).
  destruct (m_cargo M c (s_files s)) as [r f] eqn:E. destruct (r_spawned r) eqn:SP; cbn [negb].
  2: { intros H. apply pair_equal_spec in H as [<- <-]. apply E_spawn; [now rewrite E|reflexivity..]. }
  destruct (relay (r_messages r)) as [ls [es|e]] eqn:R.
  - destruct (relay_told _ _ _ R) as (A & B & C). destruct (r_success r) eqn:SU; cbn [negb].
    + cbn [s_files say]. destruct (copy_all out es f) as [y f'] eqn:CP. intros H. apply pair_equal_spec in H as [<- <-].
      apply (E_copy M c out p s r f y _ E SP); [reflexivity|exact SU|exact C|unfold reported; rewrite <- A; exact CP|].
      cbn [s_lines say]. rewrite B. unfold told. rewrite map_app, <- !app_assoc. reflexivity.
    + intros H. apply pair_equal_spec in H as [<- <-]. apply (E_cargo M c out p s r f _ E SP); [reflexivity|exact SU|reflexivity|].
      cbn [s_lines say]. rewrite B. unfold told. rewrite map_app, <- !app_assoc. reflexivity.
  - destruct (relay_err _ _ _ R) as [-> I]. destruct (relay_warnings _ _ _ R) as [ws ->].
    intros H. apply pair_equal_spec in H as [<- <-]. apply (E_json M c out p s r f ws _ E SP); [reflexivity|exact I|reflexivity|].
    cbn [s_lines say]. rewrite <- !app_assoc. reflexivity.
Qed.

(** How all of them can: the packages done, then, with an error, one more. *)
Inductive went (M : machine) (cmd_of : package -> command) (out : list Z) : list package -> state -> res berr unit -> state -> Prop :=
| W_nil s : went M cmd_of out [] s (Ok tt) s
| W_err p l s e s' : ended M (cmd_of p) out p s (Err e) s' -> went M cmd_of out (p :: l) s (Err e) s'
| W_ok p l s s1 x s' : ended M (cmd_of p) out p s (Ok tt) s1 -> went M cmd_of out l s1 x s' -> went M cmd_of out (p :: l) s x s'.

Lemma build_all_went M prefix nightly target arch out l s x s' :
  build_all M prefix nightly target arch out l s = (x, s') -> went M (cargo M prefix nightly target arch out) out l s x s'.
Proof.
  revert s. induction l as [|p l IH]; intros s H; cbn [build_all] in H.
  - apply pair_equal_spec in H as [<- <-]. constructor.
  - destruct (build_one M prefix nightly target arch out p s) as [[[]|e] s1] eqn:E; apply build_one_ended in E.
    + apply (W_ok _ _ _ _ _ _ _ _ _ E). now apply IH.
    + apply pair_equal_spec in H as [<- <-]. now apply W_err.
Qed.

(** * Commands *)

Definition run_cmd (x : command * ran * files) : command := fst (fst x).

Lemma ended_runs M c out p s x s' : ended M c out p s x s' ->
  (s_runs s' = s_runs s /\ x = Err ESpawn) \/ exists r f, s_runs s' = s_runs s ++ [(c, r, f)] /\ m_cargo M c (s_files s) = (r, f) /\ r_spawned r = true.
Proof. intros H. inversion H; subst; [left; auto|right; eauto..]. Qed.

Lemma went_runs M cmd_of out l s x s' : went M cmd_of out l s x s' ->
  exists done rest new, s_runs s' = s_runs s ++ new /\ l = done ++ rest /\ Forall2 (fun p y => run_cmd y = cmd_of p) done new /\ Forall (really_run M) new /\
    (x = Ok tt -> rest = []).
Proof.
  induction 1 as [s|p l s e s' E|p l s s1 x s' E W IH].
  - exists [], [], []. rewrite app_nil_r. do 2 (split; [reflexivity|]). split; [constructor|]. split; [constructor|reflexivity].
  - apply ended_runs in E as [[E X]|(r & f & E & R & SP)].
    + exists [], (p :: l), []. rewrite app_nil_r. split; [exact E|]. split; [reflexivity|]. split; [constructor|]. split; [constructor|discriminate].
    + exists [p], l, [(cmd_of p, r, f)]. split; [exact E|]. split; [reflexivity|]. split; [constructor; [reflexivity|constructor]|].
      split; [|discriminate]. constructor; [|constructor]. exists (s_files s). split; assumption.
  - apply ended_runs in E as [[E X]|(r & f & E & R & SP)]; [discriminate X|].
    destruct IH as (done & rest & new & A & B & C & D & F). exists (p :: done), rest, ((cmd_of p, r, f) :: new).
    split; [rewrite A, E, <- app_assoc; reflexivity|]. split; [cbn; now rewrite B|]. split; [constructor; [reflexivity|exact C]|].
    split; [|exact F]. constructor; [|exact D]. exists (s_files s). split; assumption.
Qed.

Lemma start_runs M s : s_runs (start M s) = s_runs s /\ s_files (start M s) = s_files s.
Proof. unfold start. destruct (m_rustup M); split; reflexivity. Qed.

Lemma commands M l t s nightly out endian arch x s' : not_skipped M -> set_up M t nightly out endian arch -> build_ebpf M l t s = (x, s') ->
  exists done rest new, s_runs s' = s_runs s ++ new /\ l = done ++ rest /\ Forall (really_run M) new /\
    Forall2 (fun p y => right_command M t nightly out endian arch p (fst (fst y))) done new /\ (x = Ok tt -> rest = []).
Proof.
  intros NS SU H. rewrite (ebpf_all _ _ _ _ _ _ _ _ NS SU) in H. apply build_all_went in H. apply went_runs in H as (done & rest & new & A & B & C & D & F).
  exists done, rest, new. rewrite (proj1 (start_runs M s)) in A. split; [exact A|]. split; [exact B|]. split; [exact D|]. split; [|exact F].
  refine (forall2_weaken _ _ _ _ _ C). intros p y E. change (fst (fst y)) with (run_cmd y). rewrite E. apply cargo_right. exact (su_endian_ok _ _ _ _ _ _ SU).
Qed.

(** * Failures *)


Lemma went_failed M cmd_of out l s x s' : went M cmd_of out l s x s' ->
  exists new, s_runs s' = s_runs s ++ new /\
    outcome out x new (s_files s').
Proof.
  assert (forall l f x f', copy_all out l f = (x, f') -> match x with Ok _ => True | Err (ECopy src dst) => exists n, dst = slash out n /\ In (n, src) l | Err _ => False end) as CA.
  { clear. induction l as [|[n e] l IH]; intros f x f' H; cbn [copy_all] in H.
    - apply pair_equal_spec in H as [<- _]. exact I.
    - destruct (copy e (slash out n) f) as [f1|].
      + specialize (IH _ _ _ H). destruct x as [[]|[]]; try exact IH. destruct IH as (m & A & B). exists m. split; [exact A|now right].
      + apply pair_equal_spec in H as [<- _]. exists n. split; [reflexivity|now left]. }
  induction 1 as [s|p l s e s' E|p l s s1 x s' E W IH].
  - exists []. rewrite app_nil_r. split; [reflexivity|constructor].
  - inversion E as [s2 SP A B C|r f ws s2 R SP A B C D|r f s2 R SP A B C D|r f y s2 R SP A B C D F]; subst.
    + exists []. rewrite app_nil_r. split; [exact A|constructor].
    + exists [(cmd_of p, r, s_files s')]. split; [exact A|]. exists [], (cmd_of p, r, s_files s'). split; [reflexivity|]. split; [constructor|]. split; [exact B|reflexivity].
    + exists [(cmd_of p, r, s_files s')]. split; [exact A|]. exists [], (cmd_of p, r, s_files s'). split; [reflexivity|]. split; [constructor|]. split; [exact B|reflexivity].
    + exists [(cmd_of p, r, f)]. split; [exact A|]. pose proof (CA _ _ _ _ D) as G. destruct e; try contradiction.
      split; [constructor; [split; assumption|constructor]|]. destruct G as (n & G1 & G2). exists n. split; [exact G1|]. unfold all_reported. cbn [flat_map fst snd]. rewrite app_nil_r. exact G2.
  - inversion E as [s2 SP A B C|r f ws s2 R SP A B C D|r f s2 R SP A B C D|r f y s2 R SP A B C D F]; subst.
    destruct IH as (new & N & X). exists ((cmd_of p, r, f) :: new). split; [rewrite N, A, <- app_assoc; reflexivity|].
    assert (good_run (cmd_of p, r, f)) as G by (split; assumption).
    destruct x as [u|e]; [constructor; assumption|]. destruct e; try contradiction.
    + constructor; assumption.
    + destruct X as (b & y & X1 & X2 & X3 & X4). exists ((cmd_of p, r, f) :: b), y. split; [now rewrite X1|]. split; [constructor; assumption|]. split; assumption.
    + destruct X as (b & y & X1 & X2 & X3 & X4). exists ((cmd_of p, r, f) :: b), y. split; [now rewrite X1|]. split; [constructor; assumption|]. split; assumption.
    + destruct X as (X1 & n & X2 & X3). split; [constructor; assumption|]. exists n. split; [exact X2|]. unfold all_reported. cbn [flat_map]. apply in_or_app. now right.
Qed.
