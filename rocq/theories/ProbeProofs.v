(** Proofs about [ProbeModel]: what is attached. *)
From Coq Require Import String.
From Verif Require Import Base Text TextParse TextSplit LogModel UProbeModel UProbeProofs2 ProbeModel ProbeSpec.
Local Open Scope Z_scope.

(** * Frames *)

Lemma call_same w f w1 : call w = (f, w1) ->
  w_next w1 = w_next w /\ w_perf w1 = w_perf w /\ w_links w1 = w_links w /\ w_events w1 = w_events w /\ w_index w1 = w_index w /\ w_log w1 = w_log w.
Proof. unfold call. destruct (w_fail w); intros H; apply pair_equal_spec in H as [_ <-]; auto 10. Qed.

Definition keeps (w w1 : world) : Prop := w_next w1 = w_next w /\ w_perf w1 = w_perf w /\ w_links w1 = w_links w.
Lemma keeps_refl w : keeps w w. Proof. unfold keeps. auto. Qed.
Lemma keeps_trans a b c : keeps a b -> keeps b c -> keeps a c.
Proof. unfold keeps. intros (A & B & C) (D & E & F). rewrite D, E, F. auto. Qed.
Lemma keeps_call w f w1 : call w = (f, w1) -> keeps w w1.
Proof. intros H. apply call_same in H. unfold keeps. tauto. Qed.
Lemma keeps_remove e n w : keeps w (kernel_remove e n w).
Proof. unfold kernel_remove, keeps. destruct (e_busy e && in_use w n); auto. Qed.
Lemma keeps_debug e n w : keeps w (detach_debug_fs e n w).
Proof. unfold detach_debug_fs. destruct (delete_command _ n); [apply keeps_remove|apply keeps_refl]. Qed.
Lemma keeps_drop e v w : keeps w (drop_event e v w).
Proof. unfold drop_event. destruct (pe_armed v) as [[]|]; [apply keeps_debug| |]; apply keeps_refl. Qed.
Lemma keeps_drop_opt e v w : keeps w (drop_opt e v w).
Proof. destruct v; [apply keeps_drop|apply keeps_refl]. Qed.
Lemma keeps_detach e v w : keeps w (detach_event e v w).
Proof. unfold detach_event. unfold drop_event. cbn [pe_armed]. destruct (pe_armed v); [apply keeps_debug|apply keeps_refl]. Qed.
Lemma keeps_create_event e p w r w1 : create_probe_event e p w = (r, w1) -> keeps w w1.
Proof.
  unfold create_probe_event. destruct (take_index w) as [i w2] eqn:E2. apply pair_equal_spec in E2 as [_ <-].
  match goal with |- context [call ?x] => destruct (call x) as [f w3] eqn:E3 end. apply keeps_call in E3. destruct f; intros H.
  - apply pair_equal_spec in H as [_ <-]. exact E3.
  - unfold kernel_create in H. destruct (e_busy e && in_use w3 _); apply pair_equal_spec in H as [_ <-]; [exact E3|]. unfold keeps in *. cbn in *. tauto.
Qed.

(** * Opening and closing *)

Lemma filter_all {A} (f : A -> bool) l : Forall (fun x => f x = true) l -> filter f l = l.
Proof. induction 1 as [|x l H _ IH]; [reflexivity|]. cbn [filter]. now rewrite H, IH. Qed.
Lemma filter_nothing {A} (f : A -> bool) l : Forall (fun x => f x = false) l -> filter f l = [].
Proof. induction 1 as [|x l H _ IH]; [reflexivity|]. cbn [filter]. now rewrite H, IH. Qed.
Lemma close_below l n : Forall (fun p => pf_fd p < n) l -> filter (fun p => negb (pf_fd p =? n)) l = l.
Proof. intros H. apply filter_all. eapply Forall_impl; [|exact H]. cbn beta. intros p Hp. destruct (Z.eqb_spec (pf_fd p) n); [lia|reflexivity]. Qed.
Lemma map_below l n g : Forall (fun p => pf_fd p < n) l -> map (fun p => if pf_fd p =? n then g p else p) l = l.
Proof. induction 1 as [|p l H _ IH]; [reflexivity|]. cbn [map]. rewrite IH. destruct (Z.eqb_spec (pf_fd p) n); [lia|reflexivity]. Qed.

Definition opened (w w1 : world) (fd point : Z) (name : option (list Z)) : Prop :=
  fd = w_next w /\ w_next w1 = w_next w + 1 /\ w_links w1 = w_links w /\
  w_perf w1 = w_perf w ++ [{| pf_fd := fd; pf_event := name; pf_point := point; pf_prog := false; pf_on := false |}].
Lemma open_perf_ok p n w r w1 : open_perf p n w = (r, w1) -> match r with Ok fd => opened w w1 fd p n | Err _ => keeps w w1 end.
Proof.
  unfold open_perf. destruct (call w) as [f w2] eqn:E. apply keeps_call in E. destruct f; intros H.
  - apply pair_equal_spec in H as [<- <-]. exact E.
  - cbn [take_fd] in H. apply pair_equal_spec in H as [<- <-]. destruct E as (A & B & C). unfold opened. cbn. rewrite A, B, C. auto.
Qed.
Lemma opened_keeps a b c fd p n : keeps a b -> opened b c fd p n -> opened a c fd p n.
Proof. unfold keeps, opened. intros (A & B & C). now rewrite A, B, C. Qed.
Lemma create_as_probe_ok e p w r w1 : create_as_probe e p w = (r, w1) -> match r with Ok fd => opened w w1 fd p None | Err _ => keeps w w1 end.
Proof.
  unfold create_as_probe. destruct (call w) as [f w2] eqn:E. apply keeps_call in E. destruct f; intros H.
  { apply pair_equal_spec in H as [<- <-]. exact E. }
  destruct (if e_return e then call w2 else (false, w2)) as [f w3] eqn:E3. assert (keeps w w3) as K.
  { destruct (e_return e); [apply keeps_call in E3; now apply keeps_trans with w2|]. apply pair_equal_spec in E3 as [_ <-]. exact E. }
  destruct f; [apply pair_equal_spec in H as [<- <-]; exact K|]. apply open_perf_ok in H. destruct r; [now apply opened_keeps with w3|now apply keeps_trans with w3].
Qed.
Lemma create_as_trace_point_ok e p w r w1 : create_as_trace_point e p w = (r, w1) ->
  match r with Ok (fd, v) => opened w w1 fd p (Some (pe_alias v)) | Err _ => keeps w w1 end.
Proof.
  unfold create_as_trace_point. destruct (call w) as [f w2] eqn:E. apply keeps_call in E. destruct f; intros H.
  { apply pair_equal_spec in H as [<- <-]. exact E. }
  destruct (create_probe_event e p w2) as [[v|x] w3] eqn:E3; apply keeps_create_event in E3.
  2:{ apply pair_equal_spec in H as [<- <-]. now apply keeps_trans with w2. }
  assert (keeps w w3) as K by now apply keeps_trans with w2.
  destruct (call w3) as [f w4] eqn:E4. apply keeps_call in E4. assert (keeps w w4) as K4 by now apply keeps_trans with w3. destruct f.
  { apply pair_equal_spec in H as [<- <-]. apply keeps_trans with w4; [exact K4|apply keeps_drop]. }
  destruct (open_perf p (Some (pe_alias v)) w4) as [[fd|x] w5] eqn:E5; apply open_perf_ok in E5; apply pair_equal_spec in H as [<- <-].
  - now apply opened_keeps with w4.
  - apply keeps_trans with w4; [exact K4|]. apply keeps_trans with w5; [exact E5|apply keeps_drop].
Qed.

(** * One point *)

Definition unchanged (w w1 : world) : Prop := same_attached w w1 /\ w_next w <= w_next w1.
Lemma keeps_unchanged w w1 : keeps w w1 -> unchanged w w1.
Proof. unfold keeps, unchanged, same_attached. intros (A & B & C). rewrite A, B, C. split; [auto|lia]. Qed.
Lemma fresh_unchanged w w1 : fresh w -> unchanged w w1 -> fresh w1.
Proof.
  intros [A B] [[C D] E]. unfold fresh. rewrite C, D. split; (eapply Forall_impl; [|eassumption]; cbn beta; intros; lia).
Qed.

Lemma close_opened w w1 w2 fd p n : fresh w -> opened w w1 fd p n -> keeps w1 w2 -> unchanged w (close_perf fd w2).
Proof.
  intros [F _] (A & B & C & D) (E & G & H). unfold unchanged, same_attached, close_perf, set_perf. cbn [w_perf w_links w_next]. rewrite G, D, H, C, E, B. split; [|lia]. split; [|reflexivity].
  rewrite filter_app, A, close_below by exact F. cbn [filter pf_fd]. rewrite Z.eqb_refl. apply app_nil_r.
Qed.

(** A link was added. *)
Definition linked_to (w w1 : world) (fd point : Z) (cookie : option Z) : Prop :=
  w_next w <= fd < w_next w1 /\ w_perf w1 = w_perf w /\ w_links w1 = w_links w ++ [{| bl_fd := fd; bl_point := point; bl_cookie := cookie |}].
Lemma attach_bpf_probe_ok e p c w r w1 : fresh w -> attach_bpf_probe e p c w = (r, w1) -> match r with Ok fd => linked_to w w1 fd p c | Err _ => unchanged w w1 end.
Proof.
  intros F. unfold attach_bpf_probe. destruct (create_as_probe e p w) as [[fd|x] w2] eqn:E; apply create_as_probe_ok in E; intros H.
  2:{ apply pair_equal_spec in H as [<- <-]. now apply keeps_unchanged. }
  unfold attach_bpf_link in H.
  assert (forall r w1, (let (f, w) := call w2 in if f then (Err PSyscall, close_perf fd w) else let (lfd, w) := take_fd w in
            (Ok lfd, close_perf fd (set_links (w_links w ++ [{| bl_fd := lfd; bl_point := p; bl_cookie := c |}]) w))) = (r, w1) -> match r with Ok fd => linked_to w w1 fd p c | Err _ => unchanged w w1 end) as Go.
  { clear r w1 H. intros r w1 H. destruct (call w2) as [f w3] eqn:E3. apply keeps_call in E3. destruct f.
    - apply pair_equal_spec in H as [<- <-]. now apply (close_opened w w2 w3 fd p None).
    - cbn [take_fd] in H. apply pair_equal_spec in H as [<- <-]. pose proof (close_opened w w2 w3 fd p None F E E3) as [[P _] _].
      destruct E as (A & B & C & D), E3 as (E & G & K). unfold linked_to. unfold close_perf, set_perf, set_links in *. cbn [w_perf w_links w_next] in *. rewrite P, K, C, E, B. split; [lia|auto]. }
  destruct c as [c|]; [|now apply Go]. destruct (e_cookie e); [now apply Go|].
  apply pair_equal_spec in H as [<- <-]. apply (close_opened w w2 w2 fd p None F E), keeps_refl.
Qed.

(** A perf event was opened and enabled. *)
Definition perfed (w w1 : world) (fd point : Z) : Prop :=
  w_next w <= fd < w_next w1 /\ w_links w1 = w_links w /\ exists n, w_perf w1 = w_perf w ++ [{| pf_fd := fd; pf_event := n; pf_point := point; pf_prog := true; pf_on := true |}].
Lemma attach_perf_event_ok e fd p n v w w2 r w1 : fresh w -> opened w w2 fd p n -> attach_perf_event e fd v w2 = (r, w1) ->
  match r with Ok l => perfed w w1 (pl_fd l) p | Err _ => unchanged w w1 end.
Proof.
  intros F O. unfold attach_perf_event. destruct (call w2) as [f w3] eqn:E3. apply keeps_call in E3. destruct f; intros H.
  { apply pair_equal_spec in H as [<- <-]. apply (close_opened w w2 _ fd p n F O). apply keeps_trans with w3; [exact E3|apply keeps_drop_opt]. }
  destruct O as (A & B & C & D). destruct F as [Fp Fl].
  destruct (call (update_perf fd set_prog w3)) as [f w4] eqn:E4. apply keeps_call in E4.
  assert (w_perf (update_perf fd set_prog w3) = w_perf w ++ [{| pf_fd := fd; pf_event := n; pf_point := p; pf_prog := true; pf_on := false |}]) as P3.
  { unfold update_perf, set_perf. cbn [w_perf]. destruct E3 as (_ & -> & _). rewrite D, A, map_app, map_below by exact Fp. cbn [map pf_fd]. rewrite Z.eqb_refl. reflexivity. }
  destruct E3 as (E31 & E32 & E33). destruct E4 as (E41 & E42 & E43). rewrite P3 in E42. unfold update_perf, set_perf in E41, E43. cbn [w_next w_links] in E41, E43.
  destruct f; apply pair_equal_spec in H as [<- <-].
  - pose proof (keeps_drop_opt e v w4) as (K1 & K2 & K3). unfold unchanged, same_attached, close_perf, set_perf. cbn [w_perf w_links w_next]. rewrite K2, E42, K3, E43, E33, C, K1, E41, E31, B.
    split; [|lia]. split; [|reflexivity]. rewrite filter_app, A, close_below by exact Fp. cbn [filter pf_fd]. rewrite Z.eqb_refl. apply app_nil_r.
  - unfold perfed. cbn [pl_fd]. unfold update_perf, set_perf. cbn [w_perf w_links w_next]. rewrite E41, E31, B, E43, E33, C, E42. split; [lia|]. split; [reflexivity|]. exists n.
    rewrite map_app, A, map_below by exact Fp. cbn [map pf_fd]. rewrite Z.eqb_refl. reflexivity.
Qed.
Lemma attach_perf_probe_ok e p c w r w1 : fresh w -> attach_perf_event_probe e p c w = (r, w1) ->
  match r with Ok l => perfed w w1 (pl_fd l) p /\ c = None | Err _ => unchanged w w1 end.
Proof.
  intros F. unfold attach_perf_event_probe. destruct c as [c|]; intros H.
  { apply pair_equal_spec in H as [<- <-]. apply keeps_unchanged, keeps_refl. }
  destruct (e_pmu e).
  - destruct (create_as_probe e p w) as [[fd|x] w2] eqn:E; apply create_as_probe_ok in E.
    + pose proof (attach_perf_event_ok e fd p None None w w2 r w1 F E H) as G. destruct r; auto.
    + apply pair_equal_spec in H as [<- <-]. now apply keeps_unchanged.
  - destruct (create_as_trace_point e p w) as [[[fd v]|x] w2] eqn:E; apply create_as_trace_point_ok in E.
    + pose proof (attach_perf_event_ok e fd p (Some (pe_alias v)) (Some v) w w2 r w1 F E H) as G. destruct r; auto.
    + apply pair_equal_spec in H as [<- <-]. now apply keeps_unchanged.
Qed.

(** * Detaching *)

Lemma detach_perf_effect e l w : w_links (detach_perf e l w) = w_links w /\ w_next (detach_perf e l w) = w_next w /\
  w_perf (detach_perf e l w) = filter (fun p => negb (pf_fd p =? pl_fd l)) (w_perf w).
Proof.
  unfold detach_perf. set (w1 := update_perf (pl_fd l) (set_on false) w).
  assert (keeps w1 (match pl_event l with Some v => detach_event e v w1 | None => w1 end)) as (A & B & C) by (destruct (pl_event l); [apply keeps_detach|apply keeps_refl]).
  unfold close_perf, set_perf. cbn [w_links w_next w_perf]. rewrite A, B, C. unfold w1, update_perf, set_perf. cbn [w_links w_next w_perf]. split; [reflexivity|]. split; [reflexivity|].
  induction (w_perf w) as [|p q IH]; [reflexivity|]. cbn [map filter]. destruct (Z.eqb_spec (pf_fd p) (pl_fd l)) as [E|E].
  - cbn [set_on pf_fd]. rewrite E, Z.eqb_refl. exact IH.
  - destruct (Z.eqb_spec (pf_fd p) (pl_fd l)); [contradiction|]. cbn [negb]. now rewrite IH.
Qed.
Lemma detach_fds l : forall w, w_perf (fold_left (fun w fd => detach_fd fd w) l w) = w_perf w /\ w_next (fold_left (fun w fd => detach_fd fd w) l w) = w_next w /\
  w_links (fold_left (fun w fd => detach_fd fd w) l w) = filter (fun x => negb (existsb (Z.eqb (bl_fd x)) l)) (w_links w).
Proof.
  induction l as [|fd l IH]; intros w; cbn [fold_left].
  - split; [reflexivity|]. split; [reflexivity|]. symmetry. apply filter_all. now apply Forall_forall.
  - destruct (IH (detach_fd fd w)) as (A & B & C). rewrite A, B, C. split; [reflexivity|]. split; [reflexivity|]. unfold detach_fd, set_links. cbn [w_links].
    induction (w_links w) as [|x q IHq]; [reflexivity|]. cbn [filter existsb]. destruct (bl_fd x =? fd); cbn [negb orb]; [exact IHq|]. cbn [filter]. now rewrite IHq.
Qed.
Lemma detach_perfs e l : forall w, w_links (fold_left (fun w p => detach_perf e p w) l w) = w_links w /\ w_next (fold_left (fun w p => detach_perf e p w) l w) = w_next w /\
  w_perf (fold_left (fun w p => detach_perf e p w) l w) = filter (fun x => negb (existsb (fun p => pf_fd x =? pl_fd p) l)) (w_perf w).
Proof.
  induction l as [|p l IH]; intros w; cbn [fold_left].
  - split; [reflexivity|]. split; [reflexivity|]. symmetry. apply filter_all. now apply Forall_forall.
  - destruct (IH (detach_perf e p w)) as (A & B & C). destruct (detach_perf_effect e p w) as (D & E & F). rewrite A, B, C, D, E, F. split; [reflexivity|]. split; [reflexivity|]. clear.
    induction (w_perf w) as [|x q IHq]; [reflexivity|]. cbn [filter existsb]. destruct (pf_fd x =? pl_fd p); cbn [negb orb]; [exact IHq|]. cbn [filter]. now rewrite IHq.
Qed.

(** * Many points *)

(** The links of [m] are what was added since [w0], for [points]. *)
Definition holds (m : many) (points : list (Z * option Z)) (w0 w : world) : Prop :=
  w_next w0 <= w_next w /\
  match m with
  | ManyFd l => w_perf w = w_perf w0 /\ exists new, w_links w = w_links w0 ++ new /\ map bl_fd new = l /\ Forall (fun x => w_next w0 <= bl_fd x < w_next w) new /\
      Forall2 (fun p x => bl_point x = fst p /\ bl_cookie x = snd p) points new
  | ManyPerf l => w_links w = w_links w0 /\ exists new, w_perf w = w_perf w0 ++ new /\ map pf_fd new = map pl_fd l /\ Forall (fun x => w_next w0 <= pf_fd x < w_next w) new /\
      Forall2 (fun p f => pf_point f = fst p /\ snd p = None /\ pf_prog f = true /\ pf_on f = true) points new
  end.
Lemma holds_fresh m ps w0 w : fresh w0 -> holds m ps w0 w -> fresh w.
Proof.
  intros [A B] [N H]. destruct m; destruct H as (C & new & D & _ & F & _); unfold fresh; rewrite C, D; split; try apply Forall_app; try split; (eapply Forall_impl; [|eassumption]; cbn beta; intros; lia).
Qed.
Lemma holds_points m ps w0 w : holds m ps w0 w -> attached_points ps w0 w.
Proof. intros [_ H]. destruct m; destruct H as (C & new & D & _ & _ & F); [left|right]; split; eauto. Qed.
Lemma detach_holds e m ps w0 w : fresh w0 -> holds m ps w0 w -> same_attached w0 (detach_many e m w).
Proof.
  intros [A B] [N H]. unfold same_attached, detach_many. destruct m as [l|l]; destruct H as (C & new & D & E & F & _).
  - destruct (detach_fds l w) as (P & _ & L). rewrite P, L, C, D. split; [reflexivity|]. rewrite filter_app, filter_all, filter_nothing; [apply app_nil_r| |].
    + apply Forall_forall. intros x I. apply negb_false_iff, existsb_exists. exists (bl_fd x). split; [rewrite <- E; now apply in_map|apply Z.eqb_refl].
    + rewrite Forall_forall in B |- *. intros x I. specialize (B x I). apply negb_true_iff. destruct (existsb _ l) eqn:X; [|reflexivity]. apply existsb_exists in X as (y & Iy & Ey). apply Z.eqb_eq in Ey. subst y.
      rewrite <- E in Iy. apply in_map_iff in Iy as (z & Ez & Iz). rewrite Forall_forall in F. specialize (F z Iz). lia.
  - destruct (detach_perfs e l w) as (P & _ & L). rewrite P, L, C, D. split; [|reflexivity]. rewrite filter_app, filter_all, filter_nothing; [apply app_nil_r| |].
    + apply Forall_forall. intros x I. apply negb_false_iff, existsb_exists. assert (In (pf_fd x) (map pl_fd l)) as J by (rewrite <- E; now apply in_map). apply in_map_iff in J as (p & Ep & Ip). exists p. split; [exact Ip|rewrite Ep; apply Z.eqb_refl].
    + rewrite Forall_forall in A |- *. intros x I. specialize (A x I). apply negb_true_iff. destruct (existsb _ l) eqn:X; [|reflexivity]. apply existsb_exists in X as (y & Iy & Ey). apply Z.eqb_eq in Ey.
      assert (In (pl_fd y) (map pf_fd new)) as J by (rewrite E; now apply in_map). apply in_map_iff in J as (z & Ez & Iz). rewrite Forall_forall in F. specialize (F z Iz). lia.
Qed.
Lemma holds_unchanged m ps w0 w w1 : holds m ps w0 w -> unchanged w w1 -> holds m ps w0 w1.
Proof.
  intros [N H] [[P L] M]. split; [lia|]. destruct m; destruct H as (C & new & D & E & F & G); rewrite P, L; (split; [exact C|]); exists new; (split; [exact D|]); (split; [exact E|]); (split; [|exact G]);
    (eapply Forall_impl; [|exact F]; cbn beta; intros; lia).
Qed.
Lemma holds_link l ps p c w0 w w1 fd : holds (ManyFd l) ps w0 w -> linked_to w w1 fd p c -> holds (ManyFd (l ++ [fd])) (ps ++ [(p, c)]) w0 w1.
Proof.
  intros (N & C & new & D & E & F & G) (B & P & L). split; [lia|]. split; [congruence|]. exists (new ++ [{| bl_fd := fd; bl_point := p; bl_cookie := c |}]). rewrite L, D, <- app_assoc. split; [reflexivity|].
  split; [rewrite map_app, E; reflexivity|]. split.
  - apply Forall_app. split; [eapply Forall_impl; [|exact F]; cbn beta; intros; lia|]. constructor; [cbn [bl_fd]; lia|constructor].
  - apply Forall2_app; [exact G|]. constructor; [split; reflexivity|constructor].
Qed.
Lemma holds_perf l ps p w0 w w1 q : holds (ManyPerf l) ps w0 w -> perfed w w1 (pl_fd q) p -> holds (ManyPerf (l ++ [q])) (ps ++ [(p, None)]) w0 w1.
Proof.
  intros (N & C & new & D & E & F & G) (B & P & n & L). split; [lia|]. split; [congruence|]. exists (new ++ [{| pf_fd := pl_fd q; pf_event := n; pf_point := p; pf_prog := true; pf_on := true |}]). rewrite L, D, <- app_assoc. split; [reflexivity|].
  split; [rewrite !map_app, E; reflexivity|]. split.
  - apply Forall_app. split; [eapply Forall_impl; [|exact F]; cbn beta; intros; lia|]. constructor; [cbn [pf_fd]; lia|constructor].
  - apply Forall2_app; [exact G|]. constructor; [repeat split|constructor].
Qed.
Lemma attach_point_ok e m ps p c w0 w r w1 : fresh w0 -> holds m ps w0 w -> attach_point e m p c w = (r, w1) ->
  match r with Ok m' => holds m' (ps ++ [(p, c)]) w0 w1 | Err _ => holds m ps w0 w1 end.
Proof.
  intros F0 H. pose proof (holds_fresh m ps w0 w F0 H) as F. unfold attach_point. destruct m as [l|l].
  - destruct (attach_bpf_probe e p c w) as [[fd|x] w2] eqn:E; apply (attach_bpf_probe_ok e p c w _ w2 F) in E; intros Q; apply pair_equal_spec in Q as [<- <-].
    + now apply holds_link with w.
    + now apply holds_unchanged with w.
  - destruct (attach_perf_event_probe e p c w) as [[q|x] w2] eqn:E; apply (attach_perf_probe_ok e p c w _ w2 F) in E; intros Q; apply pair_equal_spec in Q as [<- <-].
    + destruct E as [E ->]. now apply holds_perf with w.
    + now apply holds_unchanged with w.
Qed.
Lemma attach_rest_ok e pts : forall m ps w0 w r w1, fresh w0 -> holds m ps w0 w -> attach_rest e m pts w = (r, w1) ->
  match r with Ok m' => holds m' (ps ++ pts) w0 w1 | Err _ => same_attached w0 w1 end.
Proof.
  induction pts as [|[p c] pts IH]; intros m ps w0 w r w1 F0 H; cbn [attach_rest].
  - intros Q. apply pair_equal_spec in Q as [<- <-]. now rewrite app_nil_r.
  - destruct (attach_point e m p c w) as [[m'|x] w2] eqn:E; apply (attach_point_ok e m ps p c w0 w _ w2 F0 H) in E; intros Q.
    + specialize (IH m' (ps ++ [(p, c)]) w0 w2 r w1 F0 E Q). now rewrite <- app_assoc in IH.
    + apply pair_equal_spec in Q as [<- <-]. now apply detach_holds with ps.
Qed.

Lemma attach_one_ok e p c w r w1 : fresh w -> attach_one e p c w = (r, w1) ->
  match r with Ok l => (exists fd, l = LinkFd fd /\ holds (ManyFd [fd]) [(p, c)] w w1) \/ (exists q, l = LinkPerf q /\ holds (ManyPerf [q]) [(p, c)] w w1) | Err _ => unchanged w w1 end.
Proof.
  intros F. unfold attach_one. destruct (e_pmu e && e_link e).
  - destruct (attach_bpf_probe e p c w) as [[fd|x] w2] eqn:E; apply (attach_bpf_probe_ok e p c w _ w2 F) in E; intros Q; apply pair_equal_spec in Q as [<- <-]; [|exact E].
    left. exists fd. split; [reflexivity|]. apply (holds_link [] [] p c w w w2 fd); [|exact E]. split; [lia|]. split; [reflexivity|]. exists []. rewrite app_nil_r. repeat split; constructor.
  - destruct (attach_perf_event_probe e p c w) as [[q|x] w2] eqn:E; apply (attach_perf_probe_ok e p c w _ w2 F) in E; intros Q; apply pair_equal_spec in Q as [<- <-]; [|exact E].
    destruct E as [E ->]. right. exists q. split; [reflexivity|]. apply (holds_perf [] [] p w w w2 q); [|exact E]. split; [lia|]. split; [reflexivity|]. exists []. rewrite app_nil_r. repeat split; constructor.
Qed.
Lemma detach_fd_many e fd w : detach e (LinkFd fd) w = detach_many e (ManyFd [fd]) w. Proof. reflexivity. Qed.
Lemma detach_perf_many e q w : detach e (LinkPerf q) w = detach_many e (ManyPerf [q]) w. Proof. reflexivity. Qed.

Lemma attach_single_ok e pts w r w1 : fresh w -> attach_single e pts w = (r, w1) ->
  match r with
  | Ok l => attached_points pts w w1 /\ same_attached w (detach e l w1) /\ pts <> []
  | Err _ => same_attached w w1
  end.
Proof.
  intros F. unfold attach_single. destruct pts as [|[p c] pts].
  { intros Q. apply pair_equal_spec in Q as [<- <-]. split; reflexivity. }
  assert (forall r w1, (match attach_one e p c w with
      | (Err x, w) => (Err x, w)
      | (Ok l, w) => match attach_rest e (from_first l) pts w with (Err x, w) => (Err x, w) | (Ok m, w) => (Ok (LinkMany m), w) end
      end) = (r, w1) -> match r with
      | Ok l => attached_points ((p, c) :: pts) w w1 /\ same_attached w (detach e l w1) /\ (p, c) :: pts <> []
      | Err _ => same_attached w w1
      end) as Many.
  { clear r w1. intros r w1. destruct (attach_one e p c w) as [[l|x] w2] eqn:E; apply (attach_one_ok e p c w _ w2 F) in E; intros Q.
    2:{ apply pair_equal_spec in Q as [<- <-]. apply E. }
    assert (holds (from_first l) [(p, c)] w w2) as H by (destruct E as [(fd & -> & H)|(q & -> & H)]; exact H).
    destruct (attach_rest e (from_first l) pts w2) as [[m|x] w3] eqn:E3; apply (attach_rest_ok e pts (from_first l) [(p, c)] w w2 _ w3 F H) in E3; apply pair_equal_spec in Q as [<- <-].
    - split; [now apply holds_points with m|]. split; [now apply detach_holds with ((p, c) :: pts)|discriminate].
    - exact E3. }
  destruct pts as [|p2 pts]; [|exact (Many r w1)]. intros Q. apply (attach_one_ok e p c w r w1 F) in Q. destruct r as [l|x]; [|apply Q].
  destruct Q as [(fd & -> & H)|(q & -> & H)]; (split; [exact (holds_points _ _ _ _ H)|]); (split; [|discriminate]).
  - rewrite detach_fd_many. now apply detach_holds with [(p, c)].
  - rewrite detach_perf_many. now apply detach_holds with [(p, c)].
Qed.

