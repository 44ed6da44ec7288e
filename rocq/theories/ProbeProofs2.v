(** Proofs about [ProbeModel]: names and tracefs events. *)
From Coq Require Import String.
From Verif Require Import Base Text TextParse TextSplit LogModel UProbeModel UProbeProofs2 ProbeModel ProbeSpec ProbeProofs.
Local Open Scope Z_scope.

(** * Names *)

Lemma dec_chars n : 0 <= n < 10 ^ 20 -> Forall (fun c => 48 <= c <= 57) (dec n).
Proof. intros H. destruct (dec_spec n H) as (_ & A & _). eapply Forall_impl; [|exact A]. cbn beta. unfold is_digit. intros. lia. Qed.
Lemma dec_no_bar n : 0 <= n < 10 ^ 20 -> ~ In 95 (dec n).
Proof. intros H I. pose proof (dec_chars n H) as F. rewrite Forall_forall in F. specialize (F _ I). lia. Qed.
Lemma first_bar a b s t : ~ In 95 a -> ~ In 95 b -> a ++ 95 :: s = b ++ 95 :: t -> a = b.
Proof.
  revert b. induction a as [|x a IH]; intros [|y b] Ha Hb E; cbn [app] in E.
  - reflexivity.
  - exfalso. apply Hb. left. congruence.
  - exfalso. apply Ha. left. congruence.
  - f_equal; [congruence|]. apply IH; [intros I; apply Ha; now right|intros I; apply Hb; now right|congruence].
Qed.
Lemma last_bar a b s t : ~ In 95 s -> ~ In 95 t -> a ++ 95 :: s = b ++ 95 :: t -> s = t.
Proof.
  intros Hs Ht E. destruct (split_last 95 a s Hs) as [l A], (split_last 95 b t Ht) as [m B]. rewrite E in A. rewrite A in B. apply app_inj_tail in B. apply B.
Qed.
Lemma alias_shape p r t o i : exists s, alias p r t o i = s ++ 95 :: dec i.
Proof.
  unfold alias. exists (txt "aya_" ++ dec p ++ [95] ++ (if r then [114] else [112]) ++ [95] ++ map underscore t ++ [95] ++ show_ptr o). rewrite <- !app_assoc. reflexivity.
Qed.
Lemma alias_index p1 p2 r1 r2 t1 t2 o1 o2 i1 i2 : 0 <= i1 < 10 ^ 20 -> 0 <= i2 < 10 ^ 20 -> alias p1 r1 t1 o1 i1 = alias p2 r2 t2 o2 i2 -> i1 = i2.
Proof.
  intros I1 I2 E. destruct (alias_shape p1 r1 t1 o1 i1) as [s A], (alias_shape p2 r2 t2 o2 i2) as [t B]. rewrite A, B in E.
  apply dec_inj; [exact I1|exact I2|]. exact (last_bar s t _ _ (dec_no_bar _ I1) (dec_no_bar _ I2) E).
Qed.
Lemma alias_pid p1 p2 r1 r2 t1 t2 o1 o2 i1 i2 : 0 <= p1 < 10 ^ 20 -> 0 <= p2 < 10 ^ 20 -> alias p1 r1 t1 o1 i1 = alias p2 r2 t2 o2 i2 -> p1 = p2.
Proof.
  intros P1 P2 E. unfold alias in E. apply app_inv_head in E. cbn [app] in E.
  apply dec_inj; [exact P1|exact P2|]. exact (first_bar _ _ _ _ (dec_no_bar _ P1) (dec_no_bar _ P2) E).
Qed.
Lemma alias_inj p1 p2 r1 r2 t1 t2 o1 o2 i1 i2 :
  0 <= p1 < 2 ^ 32 -> 0 <= p2 < 2 ^ 32 -> 0 <= i1 < 2 ^ 64 -> 0 <= i2 < 2 ^ 64 ->
  alias p1 r1 t1 o1 i1 = alias p2 r2 t2 o2 i2 -> p1 = p2 /\ i1 = i2.
Proof. intros P1 P2 I1 I2 E. split; [apply alias_pid in E; lia|apply alias_index in E; lia]. Qed.

Lemma hex_chars fuel : forall n acc, plain acc -> 0 <= n -> plain (hex_go fuel false n acc).
Proof.
  induction fuel as [|fuel IH]; intros n acc P N; cbn [hex_go]; [exact P|].
  match goal with |- context [?c :: acc] => assert (plain (c :: acc)) as Q end.
  { constructor; [|exact P]. unfold is_aws. destruct (Z.ltb_spec (n mod 16) 10); lia. }
  destruct (n / 16 =? 0); [exact Q|]. apply IH; [exact Q|]. lia.
Qed.
Lemma digits_plain s : Forall (fun c => 48 <= c <= 57) s -> plain s.
Proof. intros H. eapply Forall_impl; [|exact H]. cbn beta. unfold is_aws. intros. lia. Qed.
Lemma under_plain t : plain t -> plain (map underscore t).
Proof. intros H. apply Forall_map. eapply Forall_impl; [|exact H]. cbn beta. intros c Hc. unfold underscore. destruct ((c =? 46) || (c =? 47) || (c =? 45)); [reflexivity|exact Hc]. Qed.
Lemma alias_plain p r t o i : 0 <= p < 10 ^ 20 -> 0 <= i < 10 ^ 20 -> plain t -> 0 <= o -> plain (alias p r t o i).
Proof.
  intros P I T O. unfold alias, show_ptr, show_hex, plain. repeat (apply Forall_app; split).
  - vm_compute. repeat constructor.
  - now apply digits_plain, dec_chars.
  - repeat constructor.
  - destruct r; repeat constructor.
  - repeat constructor.
  - now apply under_plain.
  - repeat constructor.
  - vm_compute. repeat constructor.
  - apply hex_chars; [constructor|exact O].
  - repeat constructor.
  - now apply digits_plain, dec_chars.
Qed.
Lemma alias_nil p r t o i : alias p r t o i <> []. Proof. unfold alias. discriminate. Qed.

(** * The events file *)

Lemma rtrim_cons c s : is_aws c = false -> rtrim (c :: s) = c :: rtrim s.
Proof.
  intros H. destruct (rtrim s) as [|x r] eqn:E.
  - assert (rtrim ([] ++ [c]) = [] ++ [c]) as K by now apply rtrim_keep. cbn [app] in K.
    assert (exists w, s = w /\ Forall (fun c => is_aws c = true) w) as (w & -> & W).
    { exists s. split; [reflexivity|]. clear K H. unfold rtrim in E. assert (ltrim (rev s) = []) as L by (rewrite <- (rev_involutive (ltrim (rev s))), E; reflexivity).
      assert (forall l, ltrim l = [] -> Forall (fun c => is_aws c = true) l) as G.
      { clear. induction l as [|c l IH]; intros H; [constructor|]. cbn [ltrim] in H. destruct (is_aws c) eqn:Q; [constructor; [exact Q|now apply IH]|discriminate]. }
      apply G in L. rewrite <- (rev_involutive s). apply Forall_rev. exact L. }
    change (c :: w) with ([c] ++ w). rewrite rtrim_blank by exact W. exact K.
  - change (c :: s) with ([c] ++ s). rewrite rtrim_app_keep by (rewrite E; discriminate). rewrite E. reflexivity.
Qed.
Lemma rtrim_plain n s : plain n -> rtrim (n ++ s) = n ++ rtrim s.
Proof. induction 1 as [|c n H _ IH]; [reflexivity|]. cbn [app]. rewrite rtrim_cons by exact H. now rewrite IH. Qed.
Lemma rtrim_prefix s : exists w, s = rtrim s ++ w.
Proof.
  unfold rtrim. assert (forall l, exists w, l = w ++ ltrim l) as G.
  { induction l as [|c l [w IH]]; [now exists []|]. cbn [ltrim]. destruct (is_aws c); [exists (c :: w); cbn [app]; now f_equal|now exists []]. }
  destruct (G (rev s)) as [w E]. exists (rev w). rewrite <- rev_app_distr, <- E. symmetry. apply rev_involutive.
Qed.
Lemma rtrim_starts n s : plain n -> starts_with n (rtrim s) = starts_with n s.
Proof.
  intros P. apply eq_iff_eq_true. rewrite !starts_with_iff. split.
  - intros [r E]. destruct (rtrim_prefix s) as [w Ew]. exists (r ++ w). rewrite app_assoc, <- E. exact Ew.
  - intros [r ->]. exists (rtrim r). now apply rtrim_plain.
Qed.
Lemma after_slash_head h s : ~ In 47 h -> after_slash (h ++ 47 :: s) = Some s.
Proof.
  induction h as [|c h IH]; intros H; cbn [app after_slash]; [reflexivity|]. destruct (Z.eqb_spec c 47); [exfalso; apply H; now left|]. apply IH. intros I. apply H. now right.
Qed.
Lemma starts_name n m r : plain n -> starts_with n (m ++ 32 :: r) = starts_with n m.
Proof.
  intros P. revert m. induction P as [|c n H _ IH]; intros m; [now destruct m|]. destruct m as [|x m].
  - cbn [app starts_with]. destruct (Z.eqb_spec c 32) as [->|]; [discriminate H|reflexivity].
  - cbn [app starts_with]. now rewrite IH.
Qed.
Lemma line_has_event n v : event_ok v -> plain n -> line_has n (rtrim (event_line v)) = starts_with n (ev_name v).
Proof.
  intros (H & _) P. unfold event_line, line_has. cbn [app].
  assert (rtrim (47 :: ev_name v ++ 32 :: ev_rest v) = 47 :: rtrim (ev_name v ++ 32 :: ev_rest v)) as R by now apply rtrim_cons.
  rewrite rtrim_app_keep by (rewrite R; discriminate). rewrite R, after_slash_head by exact H. rewrite rtrim_starts by exact P. now apply starts_name.
Qed.
Lemma event_lines_file l : Forall event_ok l -> event_lines (events_file l) = map (fun v => rtrim (event_line v)) l ++ [[]].
Proof.
  intros H. unfold event_lines. assert (split_at 10 (events_file l) = map event_line l ++ [[]]) as ->.
  { unfold events_file. induction H as [|v l (_ & A & B & C) _ IH]; [reflexivity|]. cbn [map]. unfold unlines in *. cbn [flat_map]. rewrite <- app_assoc. cbn [app]. unfold split_at in *. rewrite split_by_app.
    - now rewrite IH.
    - unfold event_line. apply Forall_forall. intros c I. rewrite !in_app_iff in I. cbn [In] in I. destruct (Z.eqb_spec 10 c) as [<-|]; [|reflexivity]. exfalso. intuition discriminate.
    - reflexivity. }
  rewrite map_app, map_map. reflexivity.
Qed.
Lemma delete_command_ok l n : Forall event_ok l -> plain n -> n <> [] ->
  delete_command (events_file l) n = if existsb (fun v => starts_with n (ev_name v)) l then Some (txt "-:" ++ n ++ [10]) else None.
Proof.
  intros H P N. unfold delete_command. rewrite event_lines_file by exact H. rewrite existsb_app. cbn [existsb line_has after_slash]. rewrite orb_false_r.
  replace (existsb (line_has n) (map (fun v => rtrim (event_line v)) l)) with (existsb (fun v => starts_with n (ev_name v)) l); [reflexivity|].
  induction H as [|v l Hv _ IH]; [reflexivity|]. cbn [map existsb]. now rewrite line_has_event, IH.
Qed.
Lemma delete_command_spec l n c : Forall event_ok l -> plain n -> n <> [] ->
  (delete_command (events_file l) n = Some c <-> c = txt "-:" ++ n ++ [10] /\ exists v x, In v l /\ ev_name v = n ++ x).
Proof.
  intros H P N. rewrite delete_command_ok by assumption. destruct (existsb _ l) eqn:E; split.
  - intros Q. apply some_inj in Q. split; [now symmetry|]. apply existsb_exists in E as (v & I & S). apply starts_with_iff in S as [x S]. eauto.
  - intros [-> _]. reflexivity.
  - discriminate.
  - intros [_ (v & x & I & S)]. assert (existsb (fun v => starts_with n (ev_name v)) l = true) as K by (apply existsb_exists; exists v; split; [exact I|]; rewrite S; apply starts_with_app). congruence.
Qed.

(** * Removal *)

Lemma removal_exact e n w v : In v (w_events w) -> ev_name v <> n -> In v (w_events (detach_debug_fs e n w)).
Proof.
  intros I D. unfold detach_debug_fs. destruct (delete_command _ n); [|exact I]. unfold kernel_remove. destruct (e_busy e && in_use w n); [exact I|].
  unfold set_events. cbn [w_events]. apply filter_In. split; [exact I|]. apply negb_true_iff. now apply str_eqb_neq.
Qed.
Lemma debug_ok e n w : e_busy e = false -> Forall event_ok (w_events w) -> plain n -> n <> [] -> In n (map ev_name (w_events w)) ->
  detach_debug_fs e n w = set_events (filter (fun v => negb (str_eqb (ev_name v) n)) (w_events w)) (Removed n) w.
Proof.
  intros B H P N I. unfold detach_debug_fs. rewrite delete_command_ok by assumption.
  replace (existsb (fun v => starts_with n (ev_name v)) (w_events w)) with true.
  - unfold kernel_remove. now rewrite B.
  - symmetry. apply existsb_exists. apply in_map_iff in I as (v & E & I). exists v. split; [exact I|]. rewrite E. rewrite <- (app_nil_r n) at 2. apply starts_with_app.
Qed.

(** * Lifecycle *)

Definition keepsE (w w1 : world) : Prop := w_events w1 = w_events w /\ w_index w1 = w_index w /\ w_log w1 = w_log w.
Lemma keepsE_refl w : keepsE w w. Proof. unfold keepsE. auto. Qed.
Lemma keepsE_trans a b c : keepsE a b -> keepsE b c -> keepsE a c.
Proof. unfold keepsE. intros (A & B & C) (D & E & F). rewrite D, E, F. auto. Qed.
Lemma keepsE_call w f w1 : call w = (f, w1) -> keepsE w w1.
Proof. intros H. apply call_same in H. unfold keepsE. tauto. Qed.
Lemma keepsE_open p n w r w1 : open_perf p n w = (r, w1) -> keepsE w w1.
Proof.
  unfold open_perf. destruct (call w) as [f w2] eqn:E. apply keepsE_call in E. destruct f; intros H; [apply pair_equal_spec in H as [_ <-]; exact E|].
  cbn [take_fd] in H. apply pair_equal_spec in H as [_ <-]. exact E.
Qed.
Lemma keepsE_close fd w : keepsE w (close_perf fd w). Proof. unfold keepsE, close_perf, set_perf. auto. Qed.
Lemma keepsE_update fd g w : keepsE w (update_perf fd g w). Proof. unfold keepsE, update_perf, set_perf. auto. Qed.
Lemma keepsE_create_as_probe e p w r w1 : create_as_probe e p w = (r, w1) -> keepsE w w1.
Proof.
  unfold create_as_probe. destruct (call w) as [f w2] eqn:E. apply keepsE_call in E. destruct f; intros H; [apply pair_equal_spec in H as [_ <-]; exact E|].
  destruct (if e_return e then call w2 else (false, w2)) as [f w3] eqn:E3. assert (keepsE w w3) as K.
  { destruct (e_return e); [apply keepsE_call in E3; now apply keepsE_trans with w2|]. apply pair_equal_spec in E3 as [_ <-]. exact E. }
  destruct f; [apply pair_equal_spec in H as [_ <-]; exact K|]. apply keepsE_open in H. now apply keepsE_trans with w3.
Qed.
Lemma keepsE_bpf e p c w r w1 : attach_bpf_probe e p c w = (r, w1) -> keepsE w w1.
Proof.
  unfold attach_bpf_probe. destruct (create_as_probe e p w) as [[fd|x] w2] eqn:E; apply keepsE_create_as_probe in E; intros H.
  2:{ apply pair_equal_spec in H as [_ <-]. exact E. }
  unfold attach_bpf_link in H.
  assert (forall r w1, (let (f, w) := call w2 in if f then (Err PSyscall, close_perf fd w) else let (lfd, w) := take_fd w in
            (Ok lfd, close_perf fd (set_links (w_links w ++ [{| bl_fd := lfd; bl_point := p; bl_cookie := c |}]) w))) = (r, w1) -> keepsE w w1) as Go.
  { clear r w1 H. intros r w1 H. destruct (call w2) as [f w3] eqn:E3. apply keepsE_call in E3. destruct f.
    - apply pair_equal_spec in H as [_ <-]. apply keepsE_trans with w3; [now apply keepsE_trans with w2|apply keepsE_close].
    - cbn [take_fd] in H. apply pair_equal_spec in H as [_ <-]. apply keepsE_trans with w3; [now apply keepsE_trans with w2|]. unfold keepsE, close_perf, set_perf, set_links. auto. }
  destruct c as [c|]; [|now apply (Go r)]. destruct (e_cookie e); [now apply (Go r)|]. apply pair_equal_spec in H as [_ <-]. apply keepsE_trans with w2; [exact E|apply keepsE_close].
Qed.

Definition count (n : list Z) (l : list (list Z)) : nat := length (filter (fun m => str_eqb m n) l).
Lemma count_app n a b : count n (a ++ b) = (count n a + count n b)%nat. Proof. unfold count. now rewrite filter_app, app_length. Qed.
Lemma creations_app n a b : creations n (a ++ b) = (creations n a + creations n b)%nat. Proof. unfold creations. now rewrite filter_app, app_length. Qed.
Lemma removals_app n a b : removals n (a ++ b) = (removals n a + removals n b)%nat. Proof. unfold removals. now rewrite filter_app, app_length. Qed.

(** Events [ns] were added since [w0], and every other name added since was
    removed again. *)
Record owns (e : env) (w0 w : world) (ns : list (list Z)) : Prop := {
  ow_events : exists new, w_events w = w_events w0 ++ new /\ map ev_name new = ns;
  ow_ok : Forall event_ok (w_events w);
  ow_index : w_index w0 <= w_index w;
  ow_names : Forall (fun n => exists p i, 0 <= p < 2 ^ 64 /\ w_index w0 <= i < w_index w /\ n = alias (e_pid e) (e_return e) (e_target e) p i) ns;
  ow_log : exists cs, since w0 w cs /\
    forall n, creations n cs = (removals n cs + count n ns)%nat /\ (creations n cs <= 1)%nat /\
      ((0 < creations n cs)%nat -> exists p i, 0 <= p < 2 ^ 64 /\ w_index w0 <= i < w_index w /\ n = alias (e_pid e) (e_return e) (e_target e) p i) }.

Lemma owns_keeps e w0 w w1 ns : owns e w0 w ns -> keepsE w w1 -> owns e w0 w1 ns.
Proof. intros [A B C D F] (E & G & H). unfold since in F. constructor; unfold since; rewrite ?E, ?G, ?H; assumption. Qed.
Lemma owns_start e pts w : ready e pts w -> owns e w w [].
Proof.
  intros (_ & _ & _ & _ & H & _). constructor; [exists []; now rewrite app_nil_r|exact H|lia|constructor|]. exists []. unfold since. split; [now rewrite app_nil_r|]. intros n. cbn. split; [reflexivity|]. split; [lia|lia].
Qed.
Lemma owns_cleaned e w0 w : owns e w0 w [] -> cleaned w0 w.
Proof.
  intros [(new & A & B) _ _ _ (cs & C & D)]. split; [apply map_eq_nil in B; subst new; now rewrite app_nil_r in A|]. exists cs. split; [exact C|]. intros n. destruct (D n) as (P & Q & _). cbn in P. lia.
Qed.

(** What stays true about the machine. *)
Definition sane (e : env) (w0 : world) : Prop :=
  0 <= e_pid e < 2 ^ 32 /\ 0 <= w_index w0 /\ plain (e_target e) /\
  (forall p i, w_index w0 <= i < 2 ^ 64 -> 0 <= p < 2 ^ 64 -> ~ In (alias (e_pid e) (e_return e) (e_target e) p i) (map ev_name (w_events w0))).
Lemma ready_sane e pts w : ready e pts w -> sane e w. Proof. unfold ready, sane. tauto. Qed.

Lemma filter_names l n : ~ In n (map ev_name l) -> filter (fun v => negb (str_eqb (ev_name v) n)) l = l.
Proof.
  intros H. apply filter_all. apply Forall_forall. intros v I. apply negb_true_iff, str_eqb_neq. intros E. apply H. rewrite <- E. now apply in_map.
Qed.
Lemma count_in n l : In n l <-> (0 < count n l)%nat.
Proof.
  unfold count. induction l as [|m l IH]; cbn [filter In length]; [lia|]. destruct (str_eqb m n) eqn:E.
  - cbn [length]. apply str_eqb_eq in E. split; [lia|now left].
  - rewrite <- IH. split; [intros [->|I]; [now rewrite str_eqb_refl in E|exact I]|now right].
Qed.

Lemma owns_remove e w0 w a n b : e_busy e = false -> sane e w0 -> w_index w <= 2 ^ 64 -> owns e w0 w (a ++ n :: b) -> owns e w0 (detach_debug_fs e n w) (a ++ b).
Proof.
  intros B (P & I0 & T & U) M [(new & A1 & A2) OK IX NM (cs & S & C)].
  assert (exists p i, 0 <= p < 2 ^ 64 /\ w_index w0 <= i < w_index w /\ n = alias (e_pid e) (e_return e) (e_target e) p i) as (p & i & Hp & Hi & En).
  { rewrite Forall_forall in NM. apply NM. apply in_or_app. right. now left. }
  assert (plain n) as Pn by (rewrite En; apply alias_plain; [lia|lia|exact T|lia]). assert (n <> []) as Nn by (rewrite En; apply alias_nil).
  assert (In n (map ev_name (w_events w))) as In_n by (rewrite A1, map_app, A2; apply in_or_app; right; apply in_or_app; right; now left).
  rewrite (debug_ok e n w B OK Pn Nn In_n).
  assert (count n (a ++ n :: b) = 1)%nat as K.
  { destruct (C n) as (C1 & C2 & _). assert (0 < count n (a ++ n :: b))%nat by (apply count_in, in_or_app; right; now left). lia. }
  assert (str_eqb n n = true) as Rn by apply str_eqb_refl.
  assert (~ In n a /\ ~ In n b) as [Na Nb].
  { rewrite count_app in K. unfold count in K at 2. cbn [filter] in K. rewrite Rn in K. cbn [length] in K. fold (count n b) in K. rewrite !count_in. lia. }
  apply map_eq_app in A2 as (na & nv & -> & Ea & Ev). destruct nv as [|v nb]; [discriminate|]. cbn [map] in Ev. assert (ev_name v = n) as Env by congruence. assert (map ev_name nb = b) as Eb by congruence.
  constructor; cbn [set_events w_events w_index w_log].
  - exists (na ++ nb). split; [|rewrite map_app; now f_equal]. rewrite A1, !filter_app. cbn [filter]. rewrite Env, Rn. cbn [negb]. rewrite !filter_names; [reflexivity|congruence|congruence|]. rewrite En. apply U; lia.
  - rewrite Forall_forall in OK |- *. intros x Ix. apply filter_In in Ix as [Ix _]. now apply OK.
  - exact IX.
  - apply Forall_app in NM as [N1 N2]. apply Forall_app. split; [exact N1|now apply Forall_inv_tail in N2].
  - exists (cs ++ [Removed n]). unfold since, set_events in *. cbn [w_log]. rewrite S, <- app_assoc. split; [reflexivity|]. intros m. destruct (C m) as (C1 & C2 & C3). rewrite creations_app, removals_app.
    assert (creations m [Removed n] = 0%nat) as -> by reflexivity. rewrite Nat.add_0_r. split; [|split; [exact C2|exact C3]].
    rewrite C1, !count_app. unfold removals at 3, count at 2. cbn [filter]. destruct (str_eqb n m); cbn [length]; fold (count m b); lia.
Qed.

Lemma owns_create e w0 w ns p r w1 : e_busy e = false -> sane e w0 -> w_index w < 2 ^ 64 -> 0 <= p < 2 ^ 64 -> owns e w0 w ns -> create_probe_event e p w = (r, w1) ->
  w_index w1 = w_index w + 1 /\
  match r with Ok v => owns e w0 w1 (ns ++ [pe_alias v]) /\ pe_armed v = Some true | Err _ => owns e w0 w1 ns end.
Proof.
  intros B (P & I0 & T & U) M Hp O. destruct O as [(new & A1 & A2) OK IX NM (cs & S & C)]. unfold create_probe_event, take_index.
  match goal with |- context [call ?x] => set (w2 := x); destruct (call w2) as [f w3] eqn:E3 end. apply keepsE_call in E3. destruct E3 as (K1 & K2 & K3).
  unfold w2 in K1, K2, K3. cbn [w_events w_index w_log] in K1, K2, K3.
  assert (owns e w0 w3 ns) as O3.
  { constructor.
    - rewrite K1. eauto.
    - now rewrite K1.
    - lia.
    - eapply Forall_impl; [|exact NM]. cbn beta. intros m (q & i & Q1 & Q2 & Q3). exists q, i. split; [exact Q1|]. split; [lia|exact Q3].
    - exists cs. unfold since in *. split; [congruence|]. intros m. destruct (C m) as (C1 & C2 & C3). split; [exact C1|]. split; [exact C2|]. intros L. destruct (C3 L) as (q & i & Q1 & Q2 & Q3). exists q, i. split; [exact Q1|]. split; [lia|exact Q3]. }
  destruct f; intros H.
  { apply pair_equal_spec in H as [<- <-]. split; [lia|exact O3]. }
  unfold kernel_create in H. rewrite B in H. cbn [andb ev_name] in H. set (n := alias (e_pid e) (e_return e) (e_target e) p (w_index w)) in *. apply pair_equal_spec in H as [<- <-]. cbn [w_index set_events pe_alias pe_armed]. split; [lia|]. split; [|reflexivity].
  assert (creations n cs = 0%nat) as Z0.
  { destruct (C n) as (_ & _ & C3). destruct (creations n cs) eqn:Q; [reflexivity|]. destruct C3 as (q & i & Q1 & Q2 & Q3); [lia|]. unfold n in Q3. apply alias_index in Q3; lia. }
  assert (count n ns = 0%nat) as Z1 by (destruct (C n) as (C1 & _); lia).
  assert (~ In n (map ev_name (w_events w3))) as NI.
  { rewrite K1, A1, map_app, A2, in_app_iff. intros [Q|Q]; [revert Q; apply U; lia|]. apply count_in in Q. lia. }
  destruct O3 as [_ OK3 _ NM3 _].
  constructor; cbn [set_events w_events w_index w_log].
  - rewrite filter_names by exact NI. rewrite K1, A1, <- app_assoc. eexists. split; [reflexivity|]. rewrite map_app, A2. reflexivity.
  - apply Forall_app. split; [rewrite filter_names by exact NI; exact OK3|]. constructor; [|constructor].
    assert (plain n) as Pn by (apply alias_plain; [lia|lia|exact T|lia]). assert (forall s, plain s -> ~ In 10 s) as G by (intros s Hs I; unfold plain in Hs; rewrite Forall_forall in Hs; now specialize (Hs _ I)).
    unfold event_ok. cbn [ev_head ev_name ev_rest]. split; [|split; [|split; [now apply G|now apply G]]]; destruct (e_return e), (e_kprobe e); vm_compute; intuition discriminate.
  - lia.
  - apply Forall_app. split; [exact NM3|]. constructor; [|constructor]. exists p, (w_index w). split; [exact Hp|]. split; [lia|reflexivity].
  - exists (cs ++ [Created n]). unfold since, set_events in *. cbn [w_log]. rewrite K3, S, <- app_assoc. split; [reflexivity|]. intros m. destruct (C m) as (C1 & C2 & C3). rewrite creations_app, removals_app, count_app.
    assert (removals m [Created n] = 0%nat) as -> by reflexivity. unfold creations at 2 4 6, count at 2. cbn [filter]. destruct (str_eqb n m) eqn:Q; cbn [length].
    + apply str_eqb_eq in Q. subst m. split; [lia|]. split; [lia|]. intros _. exists p, (w_index w). split; [exact Hp|]. split; [lia|reflexivity].
    + split; [lia|]. split; [lia|]. intros L. destruct C3 as (q & i & Q1 & Q2 & Q3); [lia|]. exists q, i. split; [exact Q1|]. split; [lia|exact Q3].
Qed.

(** The names a link has to remove. *)
Definition link_names (q : perf_link) : list (list Z) := match pl_event q with Some v => match pe_armed v with Some _ => [pe_alias v] | None => [] end | None => [] end.
Lemma owns_drop e w0 w ns v : e_busy e = false -> sane e w0 -> w_index w <= 2 ^ 64 -> pe_armed v = Some true -> owns e w0 w (ns ++ [pe_alias v]) -> owns e w0 (drop_event e v w) ns.
Proof. intros B S M A O. unfold drop_event. rewrite A. apply (owns_remove e w0 w ns (pe_alias v) [] B S M) in O. now rewrite app_nil_r in O. Qed.

Lemma index_remove e n w : w_index (kernel_remove e n w) = w_index w. Proof. unfold kernel_remove. now destruct (e_busy e && in_use w n). Qed.
Lemma index_debug e n w : w_index (detach_debug_fs e n w) = w_index w. Proof. unfold detach_debug_fs. destruct (delete_command _ n); [apply index_remove|reflexivity]. Qed.
Lemma index_drop e v w : w_index (drop_event e v w) = w_index w. Proof. unfold drop_event. destruct (pe_armed v) as [[]|]; [apply index_debug| |]; reflexivity. Qed.

Lemma owns_trace_point e w0 w ns p r w1 : e_busy e = false -> sane e w0 -> w_index w < 2 ^ 64 -> 0 <= p < 2 ^ 64 -> owns e w0 w ns -> create_as_trace_point e p w = (r, w1) ->
  w_index w1 <= w_index w + 1 /\
  match r with Ok (_, v) => owns e w0 w1 (ns ++ [pe_alias v]) /\ pe_armed v = Some true | Err _ => owns e w0 w1 ns end.
Proof.
  intros B S M Hp O. unfold create_as_trace_point. destruct (call w) as [f w2] eqn:E2. apply keepsE_call in E2. pose proof (owns_keeps e w0 w w2 ns O E2) as O2. destruct E2 as (_ & X2 & _). destruct f; intros H.
  { apply pair_equal_spec in H as [<- <-]. split; [lia|exact O2]. }
  destruct (create_probe_event e p w2) as [[v|x] w3] eqn:E3; apply (owns_create e w0 w2 ns p _ w3 B S) in E3 as [X3 O3]; try assumption; try lia.
  2:{ apply pair_equal_spec in H as [<- <-]. split; [lia|exact O3]. }
  destruct O3 as [O3 Av]. destruct (call w3) as [f w4] eqn:E4. apply keepsE_call in E4. pose proof (owns_keeps e w0 w3 w4 _ O3 E4) as O4. destruct E4 as (_ & X4 & _). destruct f.
  { apply pair_equal_spec in H as [<- <-]. rewrite index_drop. split; [lia|]. apply owns_drop; try assumption. lia. }
  destruct (open_perf p (Some (pe_alias v)) w4) as [[fd|x] w5] eqn:E5; apply keepsE_open in E5; pose proof (owns_keeps e w0 w4 w5 _ O4 E5) as O5; destruct E5 as (_ & X5 & _); apply pair_equal_spec in H as [<- <-].
  - split; [lia|auto].
  - rewrite index_drop. split; [lia|]. apply owns_drop; try assumption. lia.
Qed.
Definition opt_names (v : option probe_event) : list (list Z) := match v with Some v => [pe_alias v] | None => [] end.
Lemma owns_perf_event e w0 w ns fd v r w1 : e_busy e = false -> sane e w0 -> w_index w <= 2 ^ 64 -> (forall x, v = Some x -> pe_armed x = Some true) -> owns e w0 w (ns ++ opt_names v) -> attach_perf_event e fd v w = (r, w1) ->
  w_index w1 = w_index w /\
  match r with Ok q => owns e w0 w1 (ns ++ link_names q) | Err _ => owns e w0 w1 ns end.
Proof.
  intros B S M Av O. unfold attach_perf_event. destruct (call w) as [f w2] eqn:E2. apply keepsE_call in E2. pose proof (owns_keeps e w0 w w2 _ O E2) as O2. destruct E2 as (_ & X2 & _).
  assert (forall wx, w_index wx = w_index w -> owns e w0 wx (ns ++ opt_names v) -> w_index (close_perf fd (drop_opt e v wx)) = w_index w /\ owns e w0 (close_perf fd (drop_opt e v wx)) ns) as D.
  { intros wx X Ox. destruct v as [v|]; cbn [drop_opt opt_names] in *.
    - split; [unfold close_perf, set_perf; cbn [w_index]; rewrite index_drop; exact X|]. apply owns_keeps with (drop_event e v wx); [|apply keepsE_close]. apply owns_drop; try assumption; [lia|]. now apply Av.
    - split; [exact X|]. rewrite app_nil_r in Ox. apply owns_keeps with wx; [exact Ox|apply keepsE_close]. }
  destruct f; intros H.
  { apply pair_equal_spec in H as [<- <-]. now apply D. }
  set (w3 := update_perf fd set_prog w2) in H. assert (keepsE w2 w3) as E3 by apply keepsE_update. pose proof (owns_keeps e w0 w2 w3 _ O2 E3) as O3. destruct E3 as (_ & X3 & _).
  destruct (call w3) as [f w4] eqn:E4. apply keepsE_call in E4. pose proof (owns_keeps e w0 w3 w4 _ O3 E4) as O4. destruct E4 as (_ & X4 & _). destruct f; apply pair_equal_spec in H as [<- <-].
  - apply D; [lia|exact O4].
  - split; [unfold update_perf, set_perf; cbn [w_index]; lia|]. apply owns_keeps with w4; [|apply keepsE_update]. destruct v as [v|]; [|exact O4]. unfold link_names. cbn [pl_event disarm pe_armed pe_alias]. rewrite (Av v eq_refl). exact O4.
Qed.
Lemma owns_perf_probe e w0 w ns p c r w1 : e_busy e = false -> sane e w0 -> w_index w < 2 ^ 64 -> 0 <= p < 2 ^ 64 -> owns e w0 w ns -> attach_perf_event_probe e p c w = (r, w1) ->
  w_index w1 <= w_index w + 1 /\
  match r with Ok q => owns e w0 w1 (ns ++ link_names q) | Err _ => owns e w0 w1 ns end.
Proof.
  intros B S M Hp O. unfold attach_perf_event_probe. destruct c as [c|]; intros H.
  { apply pair_equal_spec in H as [<- <-]. split; [lia|exact O]. }
  destruct (e_pmu e).
  - destruct (create_as_probe e p w) as [[fd|x] w2] eqn:E; apply keepsE_create_as_probe in E; pose proof (owns_keeps e w0 w w2 ns O E) as O2; destruct E as (_ & X & _).
    + apply (owns_perf_event e w0 w2 ns fd None) in H; [|exact B|exact S|lia|discriminate|now rewrite app_nil_r]. destruct H as [H1 H2]. split; [lia|exact H2].
    + apply pair_equal_spec in H as [<- <-]. split; [lia|exact O2].
  - destruct (create_as_trace_point e p w) as [[[fd v]|x] w2] eqn:E; apply (owns_trace_point e w0 w ns p _ w2 B S M Hp O) in E as [X O2].
    + destruct O2 as [O2 Av]. apply (owns_perf_event e w0 w2 ns fd (Some v)) in H; [|exact B|exact S|lia|now intros x [= <-]|exact O2]. destruct H as [H1 H2]. split; [lia|exact H2].
    + apply pair_equal_spec in H as [<- <-]. split; [exact X|exact O2].
Qed.

(** * Detaching *)
Lemma owns_detach_perf e w0 w q ns : e_busy e = false -> sane e w0 -> w_index w <= 2 ^ 64 -> owns e w0 w (link_names q ++ ns) -> owns e w0 (detach_perf e q w) ns /\ w_index (detach_perf e q w) = w_index w.
Proof.
  intros B S M O. unfold detach_perf. set (w1 := update_perf (pl_fd q) (set_on false) w). assert (owns e w0 w1 (link_names q ++ ns)) as O1 by (apply owns_keeps with w; [exact O|apply keepsE_update]).
  assert (w_index w1 = w_index w) as X1 by reflexivity. unfold link_names in O1. unfold close_perf at 2, set_perf. cbn [w_index].
  destruct (pl_event q) as [v|].
  - unfold detach_event, drop_event. cbn [pe_armed]. destruct (pe_armed v).
    + rewrite index_debug. split; [|exact X1]. eapply owns_keeps; [|apply keepsE_close]. exact (owns_remove e w0 w1 [] (pe_alias v) ns B S M O1).
    + split; [|exact X1]. eapply owns_keeps; [|apply keepsE_close]. exact O1.
  - split; [|exact X1]. eapply owns_keeps; [|apply keepsE_close]. exact O1.
Qed.
Definition many_names (m : many) : list (list Z) := match m with ManyFd _ => [] | ManyPerf l => flat_map link_names l end.
Lemma keepsE_fds l : forall w, keepsE w (fold_left (fun w fd => detach_fd fd w) l w).
Proof. induction l as [|fd l IH]; intros w; cbn [fold_left]; [apply keepsE_refl|]. apply keepsE_trans with (detach_fd fd w); [unfold keepsE, detach_fd, set_links; auto|apply IH]. Qed.
Lemma owns_detach_many e w0 w m : e_busy e = false -> sane e w0 -> w_index w <= 2 ^ 64 -> owns e w0 w (many_names m) -> owns e w0 (detach_many e m w) [].
Proof.
  intros B S. destruct m as [l|l]; cbn [many_names detach_many].
  - intros _ O. apply owns_keeps with w; [exact O|apply keepsE_fds].
  - revert w. induction l as [|q l IH]; intros w M O; cbn [fold_left flat_map] in *; [exact O|]. destruct (owns_detach_perf e w0 w q (flat_map link_names l) B S M O) as [O1 X1]. apply IH; [lia|exact O1].
Qed.
Lemma owns_point e w0 w m p c r w1 : e_busy e = false -> sane e w0 -> w_index w < 2 ^ 64 -> 0 <= p < 2 ^ 64 -> owns e w0 w (many_names m) -> attach_point e m p c w = (r, w1) ->
  w_index w1 <= w_index w + 1 /\ match r with Ok m' => owns e w0 w1 (many_names m') | Err _ => owns e w0 w1 (many_names m) end.
Proof.
  intros B S M Hp O. unfold attach_point. destruct m as [l|l].
  - destruct (attach_bpf_probe e p c w) as [[fd|x] w2] eqn:E; apply keepsE_bpf in E; pose proof (owns_keeps e w0 w w2 _ O E) as O2; destruct E as (_ & X & _); intros H; apply pair_equal_spec in H as [<- <-]; (split; [lia|exact O2]).
  - destruct (attach_perf_event_probe e p c w) as [[q|x] w2] eqn:E; apply (owns_perf_probe e w0 w _ p c _ w2 B S M Hp O) in E as [X O2]; intros H; apply pair_equal_spec in H as [<- <-]; (split; [exact X|]); [|exact O2].
    cbn [many_names]. rewrite flat_map_app. cbn [flat_map]. rewrite app_nil_r. exact O2.
Qed.
Lemma owns_rest e w0 pts : e_busy e = false -> sane e w0 -> forall m w r w1, w_index w + Z.of_nat (length pts) <= 2 ^ 64 -> Forall (fun p => 0 <= fst p < 2 ^ 64) pts -> owns e w0 w (many_names m) -> attach_rest e m pts w = (r, w1) ->
  match r with Ok m' => owns e w0 w1 (many_names m') /\ owns e w0 (detach_many e m' w1) [] | Err _ => owns e w0 w1 [] end.
Proof.
  intros B S. induction pts as [|[p c] pts IH]; intros m w r w1 M Ps O; cbn [attach_rest length] in *.
  - intros H. apply pair_equal_spec in H as [<- <-]. split; [exact O|]. apply owns_detach_many; try assumption. lia.
  - pose proof (Forall_inv Ps) as Hp. cbn [fst] in Hp. destruct (attach_point e m p c w) as [[m'|x] w2] eqn:E; apply (owns_point e w0 w m p c _ w2 B S) in E as [X O2]; try assumption; try lia; intros H.
    + apply (IH m' w2 r w1); try assumption; [lia|now apply Forall_inv_tail in Ps].
    + apply pair_equal_spec in H as [<- <-]. apply owns_detach_many; try assumption. lia.
Qed.
Lemma owns_one e w p c r w1 : e_busy e = false -> sane e w -> w_index w < 2 ^ 64 -> 0 <= p < 2 ^ 64 -> owns e w w [] -> attach_one e p c w = (r, w1) ->
  w_index w1 <= w_index w + 1 /\ match r with Ok l => owns e w w1 (many_names (from_first l)) /\ owns e w (detach e l w1) [] | Err _ => owns e w w1 [] end.
Proof.
  intros B S M Hp O. unfold attach_one. destruct (e_pmu e && e_link e).
  - destruct (attach_bpf_probe e p c w) as [[fd|x] w2] eqn:E; apply keepsE_bpf in E; pose proof (owns_keeps e w w w2 _ O E) as O2; destruct E as (_ & X & _); intros H; apply pair_equal_spec in H as [<- <-]; (split; [lia|]); [|exact O2].
    split; [exact O2|]. apply owns_keeps with w2; [exact O2|]. apply (keepsE_fds [fd]).
  - destruct (attach_perf_event_probe e p c w) as [[q|x] w2] eqn:E; apply (owns_perf_probe e w w _ p c _ w2 B S M Hp O) in E as [X O2]; intros H; apply pair_equal_spec in H as [<- <-]; (split; [exact X|]); [|exact O2].
    cbn [app] in O2. cbn [from_first many_names flat_map]. rewrite app_nil_r. split; [exact O2|]. cbn [detach]. apply owns_detach_perf; try assumption; [lia|]. now rewrite app_nil_r.
Qed.
Lemma lifecycle e pts w r w1 : e_busy e = false -> ready e pts w -> attach_single e pts w = (r, w1) ->
  match r with Ok l => cleaned w (detach e l w1) | Err _ => cleaned w w1 end.
Proof.
  intros B R. pose proof (owns_start e pts w R) as O. pose proof (ready_sane e pts w R) as S. destruct R as (_ & _ & M & _ & _ & Ps & _). unfold attach_single. destruct pts as [|[p c] pts].
  { intros H. apply pair_equal_spec in H as [<- <-]. now apply owns_cleaned with e. }
  pose proof (Forall_inv Ps) as Hp. apply Forall_inv_tail in Ps. cbn [fst length] in *.
  destruct pts as [|p2 pts].
  { intros H. apply (owns_one e w p c r w1 B S) in H; [|cbn [length] in M; lia|exact Hp|exact O]. destruct H as [_ H]. destruct r; [apply owns_cleaned with e; apply H|now apply owns_cleaned with e]. }
  set (rest := p2 :: pts) in *. destruct (attach_one e p c w) as [[l|x] w2] eqn:E; apply (owns_one e w p c _ w2 B S) in E; try assumption; try lia; destruct E as [X E]; intros H.
  2:{ apply pair_equal_spec in H as [<- <-]. now apply owns_cleaned with e. }
  destruct E as [O2 _]. destruct (attach_rest e (from_first l) rest w2) as [[m|x] w3] eqn:E3; apply (owns_rest e w rest B S) in E3; try assumption; try lia; apply pair_equal_spec in H as [<- <-]; apply owns_cleaned with e.
  - apply E3.
  - exact E3.
Qed.
