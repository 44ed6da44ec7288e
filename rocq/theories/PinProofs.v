(** Proofs about [PinModel]. *)
From Coq Require Import String.
From Verif Require Import Base Text PinModel PinSpec.
Local Open Scope Z_scope.

(** * Calls *)

Lemma ask_keeps w f u : ask w = (f, u) -> w_next u = w_next w /\ w_maps u = w_maps w /\ w_pins u = w_pins w /\ w_log u = w_log w.
Proof. unfold ask. destruct (w_fail w); intros E; apply pair_equal_spec in E as [_ <-]; repeat split. Qed.

(** What calls may do to the world. *)
Record ext (w u : world) : Prop := {
  x_pins : exists q, w_pins u = w_pins w ++ q;
  x_sound : sound w -> sound u;
  x_next : w_next w <= w_next u;
  x_log : exists q, w_log u = w_log w ++ q;
  x_pinned : forall p, (pinned_at p u + here p w = pinned_at p w + here p u)%nat;
  x_maps : forall k, In k (w_maps w) -> exists k', In k' (w_maps u) /\ k_id k' = k_id k /\ k_shape k' = k_shape k /\ (k_frozen k = true -> k_frozen k' = true /\ k_data k' = k_data k) }.
Lemma ext_refl w : ext w w.
Proof. constructor; [exists []; now rewrite app_nil_r|auto|lia|exists []; now rewrite app_nil_r|lia|]. intros k I. exists k. auto. Qed.
Lemma ext_trans a b c : ext a b -> ext b c -> ext a c.
Proof.
  intros [[q A] B N [l L] P M] [[q' A'] B' N' [l' L'] P' M']. constructor.
  - exists (q ++ q'). rewrite A', A. now rewrite app_assoc.
  - auto.
  - lia.
  - exists (l ++ l'). rewrite L', L. now rewrite app_assoc.
  - intros p. specialize (P p). specialize (P' p). lia.
  - intros k I. destruct (M k I) as (k1 & I1 & E1 & S1 & F1). destruct (M' k1 I1) as (k2 & I2 & E2 & S2 & F2). exists k2. split; [exact I2|]. split; [congruence|]. split; [congruence|]. intros F. destruct (F1 F) as [G1 G2]. destruct (F2 G1) as [G3 G4]. split; [exact G3|congruence].
Qed.
Lemma ext_same w u : w_next u = w_next w -> w_maps u = w_maps w -> w_pins u = w_pins w -> w_log u = w_log w -> ext w u.
Proof.
  intros A B C D. constructor; try rewrite C; try rewrite D; try rewrite A; try lia; try (exists []; now rewrite app_nil_r).
  - unfold sound. now rewrite A, B, C.
  - intros p. unfold pinned_at, times, here. rewrite C, D. lia.
  - intros k I. rewrite B. exists k. auto.
Qed.
Lemma ext_ask w f u : ask w = (f, u) -> ext w u. Proof. intros E. apply ask_keeps in E as (A & B & C & D). now apply ext_same. Qed.
Lemma pinned_log p l w u : w_log u = w_log w ++ l -> pinned_at p u = (pinned_at p w + length (filter (fun e => match e with Pinned q _ => str_eqb q p | _ => false end) l))%nat.
Proof. intros E. unfold pinned_at, times. now rewrite E, filter_app, app_length. Qed.
Lemma ext_create sh e w : (forall q i, e (w_next w) <> Pinned q i) -> ext w (snd (new_map sh e w)).
Proof.
  intros He. unfold new_map. cbn [snd]. constructor; cbn [w_pins w_next w_maps w_log].
  - exists []. now rewrite app_nil_r.
  - intros (A & B & C & D). split; [exact A|]. split; [|split].
    + cbn [w_maps]. rewrite map_app. cbn [map k_id]. apply (Permutation.Permutation_NoDup (l := w_next w :: map k_id (w_maps w))); [apply Permutation.Permutation_cons_append|]. constructor; [|exact B]. intros I. apply in_map_iff in I as (k & E & I). rewrite Forall_forall in C. specialize (C k I). cbn beta in C. lia.
    + cbn [w_maps w_next]. apply Forall_app. split; [eapply Forall_impl; [|exact C]; cbn beta; intros; lia|]. constructor; [cbn; lia|constructor].
    + cbn [w_maps w_pins]. eapply Forall_impl; [|exact D]. cbn beta. intros p (k & I & E). exists k. split; [apply in_or_app; now left|exact E].
  - lia.
  - now eexists.
  - intros p. rewrite (pinned_log p [e (w_next w)] w) by reflexivity. unfold here. cbn [w_pins filter]. destruct (e (w_next w)) eqn:E; cbn [length]; try lia. exfalso. now apply (He path id).
  - intros k I. exists k. split; [apply in_or_app; now left|auto].
Qed.
Lemma ext_create_map sh e w r u : (forall i q j, e i <> Pinned q j) -> create_map sh e w = (r, u) -> ext w u.
Proof.
  intros He. unfold create_map. destruct (ask w) as [f t] eqn:E. pose proof (ext_ask _ _ _ E) as X. destruct f; [intros Q; apply pair_equal_spec in Q as [_ <-]; exact X|]. intros Q. pose proof (ext_create sh e t) as Y. destruct (new_map sh e t) as [id v]. cbn [snd] in Y. apply pair_equal_spec in Q as [_ <-].
  eapply ext_trans; [exact X|]. apply Y. intros q i. apply He.
Qed.
Lemma ext_get p w r u : get_object p w = (r, u) -> ext w u /\ (forall id, r = Some id -> pin_at p w = Some id).
Proof.
  unfold get_object. destruct (ask w) as [f t] eqn:E. intros Q. apply pair_equal_spec in Q as [<- <-]. split; [now apply ext_ask with f|]. intros id. destruct f; [discriminate|]. apply ask_keeps in E as (_ & _ & C & _). unfold pin_at. now rewrite C.
Qed.
Lemma pin_at_none p w : pin_at p w = None <-> existsb (fun x => str_eqb (fst x) p) (w_pins w) = false.
Proof. unfold pin_at. induction (w_pins w) as [|x l IH]; [easy|]. cbn [find existsb]. destruct (str_eqb (fst x) p); [easy|exact IH]. Qed.
Lemma pin_at_in p w id : NoDup (map fst (w_pins w)) -> (pin_at p w = Some id <-> In (p, id) (w_pins w)).
Proof.
  unfold pin_at. induction (w_pins w) as [|[a b] l IH]; [easy|]. cbn [map fst find]. intros N. inversion N as [|? ? N1 N2]; subst. destruct (str_eqb a p) eqn:E.
  - apply str_eqb_eq in E. subst a. cbn [option_map snd]. split; [intros Q; left; congruence|]. intros [Q|Q]; [congruence|]. exfalso. apply N1. now apply (in_map fst) in Q.
  - rewrite IH by exact N2. split; [now right|]. intros [Q|Q]; [|exact Q]. apply pair_equal_spec in Q as [-> _]. rewrite str_eqb_refl in E. discriminate.
Qed.
Lemma ext_pin p id w b u : (exists k, In k (w_maps w) /\ k_id k = id) -> pin_object p id w = (b, u) -> ext w u /\ (b = true -> pin_at p w = None /\ In (p, id) (w_pins u)).
Proof.
  intros K. unfold pin_object. destruct (ask w) as [f t] eqn:E. pose proof (ext_ask _ _ _ E) as X. apply ask_keeps in E as (A & B & C & D). destruct (pin_at p t) eqn:P; [intros Q; apply pair_equal_spec in Q as [<- <-]; split; [exact X|discriminate]|]. destruct f; [intros Q; apply pair_equal_spec in Q as [<- <-]; split; [exact X|discriminate]|].
  intros Q. apply pair_equal_spec in Q as [<- <-]. split.
  - eapply ext_trans; [exact X|]. pose proof P as P0. apply pin_at_none in P. constructor; cbn [log set_pins w_pins w_next w_maps w_log].
    + now eexists.
    + intros (N & B1 & B2 & B3). split; [|split; [exact B1|split; [exact B2|]]].
      * cbn [log set_pins w_pins]. rewrite map_app. cbn [map fst]. apply (Permutation.Permutation_NoDup (l := p :: map fst (w_pins t))); [apply Permutation.Permutation_cons_append|]. constructor; [|exact N]. intros I. apply in_map_iff in I as (x & <- & I). rewrite <- not_true_iff_false in P. apply P. apply existsb_exists. exists x. split; [exact I|apply str_eqb_refl].
      * cbn [log set_pins w_pins w_maps]. apply Forall_app. split; [exact B3|]. constructor; [|constructor]. cbn [snd]. now rewrite B.
    + lia.
    + now eexists.
    + intros q. rewrite (pinned_log q [Pinned p id] t) by reflexivity. unfold here. cbn [log set_pins w_pins filter]. rewrite existsb_app. cbn [existsb fst]. rewrite orb_false_r. destruct (str_eqb p q) eqn:Eq.
      * apply str_eqb_eq in Eq. subst q. rewrite P. cbn [orb length]. lia.
      * rewrite orb_false_r. cbn [length]. lia.
    + intros k I. exists k. auto.
  - intros _. split; [unfold pin_at in *; now rewrite <- C|]. cbn [log set_pins w_pins]. apply in_or_app. right. now left.
Qed.
Lemma change_in id f w k : In k (w_maps w) -> In (if k_id k =? id then f k else k) (w_maps (change id f w)).
Proof. intros I. unfold change, set_maps. cbn [w_maps]. apply in_map_iff. exists k. auto. Qed.
Lemma ext_change id f l w : (forall k, k_id (f k) = k_id k /\ k_shape (f k) = k_shape k) -> (forall k, In k (w_maps w) -> k_id k = id -> k_frozen k = false) -> (forall q i, ~ In (Pinned q i) l) -> ext w (log l (change id f w)).
Proof.
  intros Hf Hfr Hl. constructor; cbn [log change set_maps w_pins w_next w_maps w_log].
  - exists []. now rewrite app_nil_r.
  - intros (A & B & C & D). assert (forall k, k_id (if k_id k =? id then f k else k) = k_id k) as Q by (intros k; destruct (k_id k =? id); [apply Hf|reflexivity]). split; [exact A|]. split; [|split].
    + cbn [log change set_maps w_maps]. rewrite map_map. erewrite map_ext; [exact B|]. exact Q.
    + cbn [log change set_maps w_maps w_next]. apply Forall_map. eapply Forall_impl; [|exact C]. cbn beta. intros k Hk. now rewrite Q.
    + cbn [log change set_maps w_maps w_pins]. eapply Forall_impl; [|exact D]. cbn beta. intros p (k & I & E). exists (if k_id k =? id then f k else k). split; [apply in_map_iff; exists k; auto|]. now rewrite Q.
  - lia.
  - now eexists.
  - intros p. rewrite (pinned_log p l w) by reflexivity. unfold here. cbn [log change set_maps w_pins]. assert (filter (fun e => match e with Pinned q _ => str_eqb q p | _ => false end) l = []) as ->; [|cbn [length]; lia].
    clear -Hl. induction l as [|e l IH]; [reflexivity|]. cbn [filter]. destruct e; try (apply IH; intros q i I; apply (Hl q i); now right). exfalso. apply (Hl path id). now left.
  - intros k I. exists (if k_id k =? id then f k else k). split; [apply in_map_iff; exists k; auto|]. destruct (Z.eqb_spec (k_id k) id) as [E|E]; [|auto]. destruct (Hf k) as [H1 H2]. split; [exact H1|]. split; [exact H2|]. intros F. rewrite (Hfr k I E) in F. discriminate.
Qed.
Lemma map_at_in id w k : sound w -> map_at id w = Some k -> In k (w_maps w) /\ k_id k = id /\ forall k', In k' (w_maps w) -> k_id k' = id -> k' = k.
Proof.
  intros (_ & N & _) H. unfold map_at in H. pose proof H as H0. apply find_some in H as [I E]. apply Z.eqb_eq in E. split; [exact I|]. split; [exact E|]. intros k' I' E'. revert N H0 I'. clear -E E'. induction (w_maps w) as [|x l IH]; [contradiction|]. cbn [map find]. intros N H I'. inversion N as [|? ? N1 N2]; subst.
  destruct (Z.eqb_spec (k_id x) (k_id k)) as [Q|Q].
  - apply some_inj in H. subst x. destruct I' as [->|I']; [reflexivity|]. exfalso. apply N1. rewrite <- E'. now apply in_map.
  - destruct I' as [->|I']; [congruence|]. now apply IH.
Qed.
Lemma ask_sound w f u : ask w = (f, u) -> sound w -> sound u. Proof. intros E. apply (x_sound _ _ (ext_ask _ _ _ E)). Qed.
Lemma ext_update id d w b u : sound w -> update_elem id d w = (b, u) -> ext w u.
Proof.
  intros S. unfold update_elem. destruct (ask w) as [f t] eqn:E. pose proof (ext_ask _ _ _ E) as X. pose proof (ask_sound _ _ _ E S) as St. destruct (map_at id t) as [k|] eqn:M; [|intros Q; apply pair_equal_spec in Q as [_ <-]; exact X]. destruct (f || k_frozen k) eqn:F; [intros Q; apply pair_equal_spec in Q as [_ <-]; exact X|]. apply orb_false_iff in F as [_ F].
  intros Q. apply pair_equal_spec in Q as [_ <-]. eapply ext_trans; [exact X|]. destruct (map_at_in _ _ _ St M) as (I & Ek & U). apply ext_change.
  - intros k'. split; reflexivity.
  - intros k' I' E'. now rewrite (U k' I' E').
  - intros q i [Q|Q]; [discriminate|]. destruct (Nat.ltb _ _); [destruct Q as [Q|[]]; discriminate|contradiction].
Qed.
Lemma log_nil w : log [] w = w. Proof. unfold log. rewrite app_nil_r. now destruct w. Qed.
Lemma ext_freeze id w b u : sound w -> freeze id w = (b, u) -> ext w u /\ (b = true -> exists k, In k (w_maps u) /\ k_id k = id /\ k_frozen k = true).
Proof.
  intros S. unfold freeze. destruct (ask w) as [f t] eqn:E. pose proof (ext_ask _ _ _ E) as X. pose proof (ask_sound _ _ _ E S) as St. destruct (map_at id t) as [k|] eqn:M; [|intros Q; apply pair_equal_spec in Q as [<- <-]; split; [exact X|discriminate]]. destruct (f || k_frozen k) eqn:F; [intros Q; apply pair_equal_spec in Q as [<- <-]; split; [exact X|discriminate]|]. apply orb_false_iff in F as [_ F].
  intros Q. apply pair_equal_spec in Q as [<- <-]. destruct (map_at_in _ _ _ St M) as (I & Ek & U). split.
  - eapply ext_trans; [exact X|]. rewrite <- (log_nil (change _ _ _)). apply ext_change; [intros k'; split; reflexivity| |intros q i []]. intros k' I' E'. now rewrite (U k' I' E').
  - intros _. pose proof (change_in id (fun k => {| k_id := k_id k; k_shape := k_shape k; k_data := k_data k; k_frozen := true |}) t k I) as J. rewrite Ek, Z.eqb_refl in J. eexists. split; [exact J|]. split; [exact Ek|reflexivity].
Qed.

(** * Loading *)

Definition has_map (id : Z) (w : world) : Prop := exists k, In k (w_maps w) /\ k_id k = id.
Lemma has_ext id w u : ext w u -> has_map id w -> has_map id u.
Proof. intros X (k & I & E). destruct (x_maps _ _ X k I) as (k' & I' & E' & _). exists k'. split; [exact I'|congruence]. Qed.
(** A new map has the shape asked for, and is not frozen. *)
Lemma create_map_spec sh e w id u : create_map sh e w = (Some id, u) -> exists k, In k (w_maps u) /\ k_id k = id /\ k_shape k = sh /\ k_frozen k = false /\ w_next w = id.
Proof.
  unfold create_map, new_map. destruct (ask w) as [f t] eqn:E. apply ask_keeps in E as (A & _). destruct f; [discriminate|]. intros Q. apply pair_equal_spec in Q as [Q <-]. apply some_inj in Q. subst id. eexists. cbn [w_maps]. split; [apply in_or_app; right; left; reflexivity|]. repeat split. now rewrite A.
Qed.
Lemma create_spec name sh e w r u : (forall i q j, e i <> Pinned q j) -> create name sh e w = (r, u) ->
  ext w u /\ (forall id, r = Ok id -> exists k, In k (w_maps u) /\ k_id k = id /\ k_shape k = sh /\ k_frozen k = false).
Proof.
  intros He. unfold create. destruct (has_nul name); [intros Q; apply pair_equal_spec in Q as [<- <-]; split; [apply ext_refl|discriminate]|]. destruct (create_map sh e w) as [[id|] t] eqn:E; intros Q; apply pair_equal_spec in Q as [<- <-]; (split; [now apply (ext_create_map sh e w _ t He E)|]); [|discriminate].
  intros i Q. apply ok_inj in Q. subst i. destruct (create_map_spec _ _ _ _ _ E) as (k & A & B & C & D & _). exists k. auto.
Qed.
Lemma create_inner_spec name sh inner e w r u : (forall i q j, e i <> Pinned q j) -> create_with_inner name sh inner e w = (r, u) ->
  ext w u /\ (forall id, r = Ok id -> exists k, In k (w_maps u) /\ k_id k = id /\ k_shape k = sh /\ k_frozen k = false).
Proof.
  intros He. unfold create_with_inner. destruct inner as [i|]; [|now apply create_spec]. destruct (create (name ++ txt ".inner") i CreatedInner w) as [[j|x] t] eqn:E.
  - apply create_spec in E as [X _]; [|discriminate]. intros Q. apply create_spec in Q as [Y Z]; [|exact He]. split; [eapply ext_trans; eassumption|exact Z].
  - apply create_spec in E as [X _]; [|discriminate]. intros Q. apply pair_equal_spec in Q as [<- <-]. split; [exact X|discriminate].
Qed.
Lemma pin_here p id w : pin_at p w = Some id -> In (p, id) (w_pins w).
Proof. unfold pin_at. intros H. destruct (find _ (w_pins w)) as [[a b]|] eqn:F; [|discriminate]. apply find_some in F as [I E]. cbn [fst] in E. apply str_eqb_eq in E. subst a. cbn [option_map snd] in H. apply some_inj in H. now subst b. Qed.
Lemma ext_in w u x : ext w u -> In x (w_pins w) -> In x (w_pins u).
Proof. intros X I. destruct (x_pins _ _ X) as [q ->]. apply in_or_app. now left. Qed.
Lemma sound_has w p id : sound w -> In (p, id) (w_pins w) -> has_map id w.
Proof. intros (_ & _ & _ & D) I. rewrite Forall_forall in D. exact (D _ I). Qed.
Lemma create_pinned_spec p o inner w r u : sound w -> create_pinned p o inner w = (r, u) ->
  ext w u /\ (forall id, r = Ok id -> In (p, id) (w_pins u) /\ has_map id u /\ (pin_at p w = None -> exists k, In k (w_maps u) /\ k_id k = id /\ k_shape k = o_shape o)).
Proof.
  intros S. unfold create_pinned. destruct (has_nul p); [intros Q; apply pair_equal_spec in Q as [<- <-]; split; [apply ext_refl|discriminate]|]. destruct (get_object p w) as [g t] eqn:E. apply ext_get in E as [X G]. destruct g as [id|].
  - specialize (G id eq_refl). intros Q. apply pair_equal_spec in Q as [<- <-]. split; [exact X|]. intros i Q. apply ok_inj in Q. subst i. pose proof (ext_in _ _ _ X (pin_here _ _ _ G)) as J. split; [exact J|]. split; [apply (sound_has t p); [now apply (x_sound _ _ X)|exact J]|congruence].
  - destruct (create_with_inner (o_name o) (o_shape o) inner (Created (Some p)) t) as [[id|x] v] eqn:C.
    + apply create_inner_spec in C as [Y Z]; [|discriminate]. specialize (Z id eq_refl). destruct Z as (k & Ik & Ek & Sk & _). destruct (pin_object p id v) as [b z] eqn:P. apply ext_pin in P as [V W]; [|exists k; auto]. assert (ext w z) as XX by (eapply ext_trans; [exact X|]; eapply ext_trans; eassumption).
      destruct b; intros Q; apply pair_equal_spec in Q as [<- <-]; (split; [exact XX|]); [|discriminate]. intros i Q. apply ok_inj in Q. subst i. destruct (W eq_refl) as [W1 W2]. split; [exact W2|]. split; [apply (has_ext id v z V); exists k; auto|]. intros _.
      destruct (x_maps _ _ V k Ik) as (k' & I' & E' & S' & _). exists k'. split; [exact I'|]. split; congruence.
    + apply create_inner_spec in C as [Y _]; [|discriminate]. intros Q. apply pair_equal_spec in Q as [<- <-]. split; [eapply ext_trans; eassumption|discriminate].
Qed.
Lemma finalize_spec o id w r u : sound w -> finalize o id w = (r, u) -> ext w u /\ (r = Ok tt -> o_rodata o = true -> exists k, In k (w_maps u) /\ k_id k = id /\ k_frozen k = true).
Proof.
  intros S. unfold finalize. destruct (match o_data o with [] => (true, w) | _ => update_elem id (o_data o) w end) as [b t] eqn:E.
  assert (ext w t) as X. { destruct (o_data o); [apply pair_equal_spec in E as [_ <-]; apply ext_refl|now apply (ext_update _ _ _ _ _ S E)]. }
  destruct b; [|intros Q; apply pair_equal_spec in Q as [<- <-]; split; [exact X|discriminate]]. destruct (o_rodata o); [|intros Q; apply pair_equal_spec in Q as [<- <-]; split; [exact X|discriminate]].
  destruct (freeze id t) as [c v] eqn:F. apply ext_freeze in F as [Y Z]; [|now apply (x_sound _ _ X)]. destruct c; intros Q; apply pair_equal_spec in Q as [<- <-]; (split; [eapply ext_trans; eassumption|]); [|discriminate]. intros _ _. now apply Z.
Qed.
Lemma load_map_spec l o w r u : sound w -> load_map l o w = (r, u) ->
  ext w u /\ (forall id, r = Ok id -> has_map id u /\ (forall p, pin_path l o = Some p -> In (p, id) (w_pins u))
    /\ ((forall p, pin_path l o = Some p -> pin_at p w = None) -> exists k, In k (w_maps u) /\ k_id k = id /\ k_shape k = o_shape o)
    /\ (o_rodata o = true -> exists k, In k (w_maps u) /\ k_id k = id /\ k_frozen k = true)).
Proof.
  intros S. unfold load_map. cbv zeta. generalize (match o_inner o with Some i => i | None => None end) as inner. intros inner. destruct (o_inner o) as [[i|]|];
  try (intros Q; apply pair_equal_spec in Q as [<- <-]; split; [apply ext_refl|discriminate]);
  (destruct (match pin_path l o with Some path => create_pinned path o inner w | None => create_with_inner (o_name o) (o_shape o) inner (Created None) w end) as [c t] eqn:E);
  (assert (ext w t /\ (forall id, c = Ok id -> has_map id t /\ (forall p, pin_path l o = Some p -> In (p, id) (w_pins t)) /\ ((forall p, pin_path l o = Some p -> pin_at p w = None) -> exists k, In k (w_maps t) /\ k_id k = id /\ k_shape k = o_shape o))) as [X Y];
   [destruct (pin_path l o) as [p|];
    [apply create_pinned_spec in E as [X Y]; [|exact S]; split; [exact X|]; intros id Q; destruct (Y id Q) as (Y1 & Y2 & Y3); split; [exact Y2|]; split; [intros p' Q'; apply some_inj in Q'; now subst p'|intros H; now apply Y3, H]
    |apply create_inner_spec in E as [X Y]; [|discriminate]; split; [exact X|]; intros id Q; destruct (Y id Q) as (k & Y1 & Y2 & Y3 & _); split; [exists k; auto|]; split; [discriminate|intros _; exists k; auto]]|]);
  (destruct c as [id|x]; [|intros Q; apply pair_equal_spec in Q as [<- <-]; split; [exact X|discriminate]]);
  (destruct (Y id eq_refl) as (Y1 & Y2 & Y3); destruct (finalize o id t) as [d v] eqn:F; apply finalize_spec in F as [Z1 Z2]; [|now apply (x_sound _ _ X)]);
  (destruct d as [[]|x]; intros Q; apply pair_equal_spec in Q as [<- <-]; (split; [eapply ext_trans; eassumption|]); [|discriminate]);
  (intros j Q; apply ok_inj in Q; subst j; split; [now apply (has_ext id t v)|]; split; [intros p H; apply (ext_in _ _ _ Z1); now apply Y2|]; split; [|now apply Z2]);
  (intros H; destruct (Y3 H) as (k & K1 & K2 & K3); destruct (x_maps _ _ Z1 k K1) as (k' & L1 & L2 & L3 & _); exists k'; repeat split; congruence).
Qed.
Lemma load_maps_spec l os : forall w r u, sound w -> load_maps l os w = (r, u) -> ext w u /\ (forall x, r = Ok x -> forall o id p, In (o, id) x -> pin_path l o = Some p -> In (p, id) (w_pins u)).
Proof.
  induction os as [|o os IH]; intros w r u S; cbn [load_maps].
  - intros Q; apply pair_equal_spec in Q as [<- <-]. split; [apply ext_refl|]. intros x Q. apply ok_inj in Q. subst x. intros ? ? ? [].
  - destruct (load_map l o w) as [a t] eqn:E. apply load_map_spec in E as [X Y]; [|exact S]. destruct a as [id|x]; [|intros Q; apply pair_equal_spec in Q as [<- <-]; split; [exact X|discriminate]].
    destruct (load_maps l os t) as [b v] eqn:F. apply IH in F as [Z1 Z2]; [|now apply (x_sound _ _ X)]. destruct b as [y|x]; intros Q; apply pair_equal_spec in Q as [<- <-]; (split; [eapply ext_trans; eassumption|]); [|discriminate].
    intros x Q. apply ok_inj in Q. subst x. intros o' id' p [Q|I] P.
    + apply pair_equal_spec in Q as [-> ->]. apply (ext_in _ _ _ Z1). destruct (Y id' eq_refl) as (_ & Y2 & _). now apply Y2.
    + now apply (Z2 y eq_refl o').
Qed.
Lemma loads_spec js : forall w rs u, sound w -> loads js w = (rs, u) -> ext w u /\ (forall p id, loaded_from rs p id -> In (p, id) (w_pins u)).
Proof.
  induction js as [|[l os] js IH]; intros w rs u S; cbn [loads].
  - intros Q; apply pair_equal_spec in Q as [<- <-]. split; [apply ext_refl|]. intros p id (? & ? & ? & [] & _).
  - destruct (load_maps l os w) as [r t] eqn:E. apply load_maps_spec in E as [X Y]; [|exact S]. destruct (loads js t) as [rs' v] eqn:F. apply IH in F as [Z1 Z2]; [|now apply (x_sound _ _ X)].
    intros Q; apply pair_equal_spec in Q as [<- <-]. split; [eapply ext_trans; eassumption|]. intros p id (l' & x & o & [I|I] & J & P).
    + apply pair_equal_spec in I as [-> ->]. apply (ext_in _ _ _ Z1). now apply (Y x eq_refl o).
    + apply Z2. now exists l', x, o.
Qed.
Theorem loads_shared js w rs u p a b : sound w -> loads js w = (rs, u) -> loaded_from rs p a -> loaded_from rs p b -> a = b.
Proof.
  intros S E A B. destruct (loads_spec _ _ _ _ S E) as [X Y]. destruct (x_sound _ _ X S) as [N _]. apply Y in A. apply Y in B. rewrite <- (pin_at_in p u) in A, B by exact N. congruence.
Qed.
Theorem loads_shared_first js w rs u p a id : sound w -> loads js w = (rs, u) -> In (p, id) (w_pins w) -> loaded_from rs p a -> a = id.
Proof.
  intros S E I A. destruct (loads_spec _ _ _ _ S E) as [X Y]. destruct (x_sound _ _ X S) as [N _]. apply Y in A. apply (ext_in _ _ _ X) in I. rewrite <- (pin_at_in p u) in A, I by exact N. congruence.
Qed.
Lemma here_le p w : (here p w <= 1)%nat. Proof. unfold here. destruct (existsb _ _); lia. Qed.
Theorem loads_pinned_once js w rs u p : sound w -> loads js w = (rs, u) -> (pinned_at p u + here p w <= pinned_at p w + 1)%nat.
Proof. intros S E. destruct (loads_spec _ _ _ _ S E) as [X _]. pose proof (x_pinned _ _ X p). pose proof (here_le p u). lia. Qed.
Lemma create_pinned_there p o inner w id r u : sound w -> pin_at p w = Some id -> create_pinned p o inner w = (r, u) -> (exists x, r = Err x) \/ (r = Ok id /\ w_maps u = w_maps w /\ w_pins u = w_pins w /\ w_log u = w_log w).
Proof.
  intros S P E. assert (forall i, r = Ok i -> i = id) as One. { intros i ->. destruct (create_pinned_spec _ _ _ _ _ _ S E) as [X Y]. destruct (Y i eq_refl) as (Y1 & _). destruct (x_sound _ _ X S) as [N _]. apply pin_here in P. apply (ext_in _ _ _ X) in P. rewrite <- (pin_at_in p u) in Y1, P by exact N. congruence. }
  revert E. unfold create_pinned. destruct (has_nul p); [intros Q; apply pair_equal_spec in Q as [<- <-]; left; now eexists|]. destruct (get_object p w) as [g t] eqn:G. pose proof (ext_get _ _ _ _ G) as [X H]. destruct g as [j|].
  - intros Q; apply pair_equal_spec in Q as [<- <-]. right. rewrite (One j eq_refl). unfold get_object in G. destruct (ask w) as [f t'] eqn:A. apply pair_equal_spec in G as [_ <-]. apply ask_keeps in A as (_ & A & B & C). auto.
  - destruct (create_with_inner (o_name o) (o_shape o) inner (Created (Some p)) t) as [[j|x] v] eqn:C; [|intros Q; apply pair_equal_spec in Q as [<- <-]; left; now eexists].
    apply create_inner_spec in C as [Y Z]; [|discriminate]. destruct (pin_object p j v) as [b z] eqn:PP. apply ext_pin in PP as [V W]; [|destruct (Z j eq_refl) as (k & K1 & K2 & _); exists k; auto]. destruct b; intros Q; apply pair_equal_spec in Q as [<- <-]; [|left; now eexists]. exfalso. destruct (W eq_refl) as [W1 _].
    apply pin_here in P. apply (ext_in _ _ _ X) in P. apply (ext_in _ _ _ Y) in P. apply (x_sound _ _ X) in S. apply (x_sound _ _ Y) in S. destruct S as [N _]. apply (pin_at_in p v id N) in P. congruence.
Qed.
Lemma finalize_frozen o id w k : map_at id w = Some k -> k_frozen k = true -> o_rodata o = true -> exists x, fst (finalize o id w) = Err x.
Proof.
  intros M F R. unfold finalize. rewrite R. destruct (o_data o) as [|d0 dl].
  - unfold freeze. destruct (ask w) as [f t] eqn:A. apply ask_keeps in A as (_ & A & _). unfold map_at in *. rewrite A, M, F, orb_true_r. now eexists.
  - unfold update_elem. destruct (ask w) as [f t] eqn:A. apply ask_keeps in A as (_ & A & _). unfold map_at in *. rewrite A, M, F, orb_true_r. now eexists.
Qed.
Lemma load_there l o w p id : sound w -> pin_path l o = Some p -> pin_at p w = Some id ->
  (exists x, fst (load_map l o w) = Err x) \/ (exists t, w_maps t = w_maps w /\ w_pins t = w_pins w /\ w_log t = w_log w /\ load_map l o w = match finalize o id t with (Err x, v) => (Err x, v) | (Ok _, v) => (Ok id, v) end).
Proof.
  intros S P H. unfold load_map. destruct (o_inner o) as [[i|]|]; [|left; now eexists|]; rewrite P; cbn zeta.
  all: destruct (create_pinned p o _ w) as [r t] eqn:E; destruct (create_pinned_there _ _ _ _ _ _ _ S H E) as [[x ->]|(-> & A & B & C)]; [left; now eexists|right; exists t; auto].
Qed.
Theorem rodata_again l o w id u js rs v l' o' p :
  sound w -> load_map l o w = (Ok id, u) -> o_rodata o = true -> pin_path l o = Some p ->
  loads js u = (rs, v) -> o_rodata o' = true -> pin_path l' o' = Some p -> exists x, fst (load_map l' o' v) = Err x.
Proof.
  intros S E R P F R' P'. destruct (load_map_spec _ _ _ _ _ S E) as [X Y]. destruct (Y id eq_refl) as (_ & Y2 & _ & Y4). specialize (Y2 p P). destruct (Y4 R) as (k & I & Ek & Fk). pose proof (x_sound _ _ X S) as Su. destruct (loads_spec _ _ _ _ Su F) as [Z _]. apply (ext_in _ _ _ Z) in Y2. destruct (x_maps _ _ Z k I) as (k' & I' & E' & _ & Fk'). destruct (Fk' Fk) as [G _]. clear Fk'.
  pose proof (x_sound _ _ Z Su) as Sv. pose proof Y2 as Y3. rewrite <- pin_at_in in Y3 by apply Sv.
  assert (map_at id v = Some k') as M. { destruct (map_at id v) as [k2|] eqn:M; [|unfold map_at in M; exfalso; apply (find_none _ _ M k') in I'; apply Z.eqb_neq in I'; congruence]. destruct (map_at_in _ _ _ Sv M) as (_ & _ & U). now rewrite (U k' I') by congruence. }
  destruct (load_there l' o' v p id Sv P' Y3) as [H|(t & A & _ & _ & ->)]; [exact H|]. unfold map_at in M. rewrite <- A in M. destruct (finalize_frozen o' id t k' M G R') as [x Hx]. destruct (finalize o' id t) as [[]]; cbn [fst] in *; [discriminate|now eexists].
Qed.

(** * When every call that can succeed does *)

Lemma ask_calm w : w_fail w = [] -> ask w = (false, w). Proof. unfold ask. now intros ->. Qed.
Lemma find_change id f l k : (forall k, k_id (f k) = k_id k) -> find (fun k => k_id k =? id) l = Some k -> find (fun k => k_id k =? id) (map (fun k => if k_id k =? id then f k else k) l) = Some (f k).
Proof.
  intros Hf. induction l as [|x l IH]; [discriminate|]. cbn [find map]. destruct (k_id x =? id) eqn:E; [|now rewrite E].
  intros Q. apply some_inj in Q. subst x. now rewrite Hf, E.
Qed.
Theorem reuse l o w p id k : w_fail w = [] -> pin_path l o = Some p -> pin_at p w = Some id -> map_at id w = Some k -> k_frozen k = false ->
  o_rodata o = false -> has_nul p = false -> o_inner o <> Some None ->
  exists u, load_map l o w = (Ok id, u) /\ w_pins u = w_pins w /\ (forall q, created_for q u = created_for q w) /\ (forall q, pinned_at q u = pinned_at q w)
    /\ map k_id (w_maps u) = map k_id (w_maps w) /\ (o_data o = [] -> u = w)
    /\ (o_data o <> [] -> Z.of_nat (length (o_data o)) = h_value (k_shape k) -> exists k', map_at id u = Some k' /\ k_data k' = o_data o).
Proof.
  intros W P H M F R N Hi. unfold load_map. rewrite P. unfold create_pinned, get_object. rewrite N, (ask_calm w W), H. unfold finalize. rewrite R. cbv zeta.
  assert (forall r, match o_inner o with Some None => (Err EMissingInner, w) | _ => r end = r) as -> by (intros r; destruct (o_inner o) as [[]|]; congruence).
  destruct (o_data o) as [|d0 dl] eqn:D.
  - exists w. split; [reflexivity|]. repeat split. congruence.
  - rewrite <- D. unfold update_elem. rewrite (ask_calm w W), M, F. cbn [orb]. eexists. split; [reflexivity|]. split; [reflexivity|]. set (n := Z.to_nat (h_value (k_shape k))). split; [|split; [|split; [|split]]].
    + intros q. unfold created_for, times. cbn [log change set_maps w_log]. rewrite filter_app. destruct (Nat.ltb _ n); cbn [filter]; now rewrite app_nil_r.
    + intros q. unfold pinned_at, times. cbn [log change set_maps w_log]. rewrite filter_app. destruct (Nat.ltb _ n); cbn [filter]; now rewrite app_nil_r.
    + cbn [log change set_maps w_maps]. rewrite map_map. apply map_ext. intros x. now destruct (k_id x =? id).
    + intros Q. rewrite D in Q. discriminate.
    + intros _ L. unfold map_at. cbn [log change set_maps w_maps]. erewrite find_change; [|reflexivity|exact M]. eexists. split; [reflexivity|]. cbn [k_data]. apply firstn_all2. lia.
Qed.
Lemma calm_create sh e w : w_fail w = [] -> create_map sh e w = (let (id, w) := new_map sh e w in (Some id, w)). Proof. intros W. unfold create_map. now rewrite (ask_calm w W). Qed.
Definition grow p w u := w_fail u = [] /\ (created_for p u + here p w = created_for p w + here p u)%nat.
Lemma grow_refl p w : w_fail w = [] -> grow p w w. Proof. split; [assumption|lia]. Qed.
Lemma grow_trans p a b c : grow p a b -> grow p b c -> grow p a c. Proof. intros [A B] [C D]. split; [exact C|]. lia. Qed.
Lemma created_log p l w u : w_log u = w_log w ++ l -> created_for p u = (created_for p w + length (filter (fun e => match e with Created (Some q) _ => str_eqb q p | _ => false end) l))%nat.
Proof. intros E. unfold created_for, times. now rewrite E, filter_app, app_length. Qed.
Lemma calm_create_plain name sh e w r u p : w_fail w = [] -> (forall i, match e i with Created (Some _) _ => False | _ => True end) -> create name sh e w = (r, u) -> grow p w u.
Proof.
  intros W He. unfold create. destruct (has_nul name); [intros Q; apply pair_equal_spec in Q as [<- <-]; now apply grow_refl|]. rewrite calm_create by exact W. unfold new_map. intros Q. apply pair_equal_spec in Q as [<- <-]. split; [exact W|]. rewrite (created_log p [e (w_next w)] w) by reflexivity. unfold here. cbn [w_pins filter]. specialize (He (w_next w)). destruct (e (w_next w)) as [[]| | | |]; try contradiction; cbn [length]; lia.
Qed.
Lemma calm_inner_plain name sh inner w r u p : w_fail w = [] -> create_with_inner name sh inner (Created None) w = (r, u) -> grow p w u.
Proof.
  intros W. unfold create_with_inner. destruct inner as [i|]; [|apply calm_create_plain; [exact W|easy]]. destruct (create (name ++ _) i CreatedInner w) as [[j|x] t] eqn:E; apply (calm_create_plain _ _ _ _ _ _ p W) in E; try easy.
  - intros Q. eapply grow_trans; [exact E|]. eapply calm_create_plain; [apply E| |exact Q]. easy.
  - intros Q. apply pair_equal_spec in Q as [<- <-]. exact E.
Qed.
Lemma calm_pinned q o inner w r u p : w_fail w = [] -> create_pinned q o inner w = (r, u) -> grow p w u.
Proof.
  intros W. unfold create_pinned. destruct (has_nul q); [intros Q; apply pair_equal_spec in Q as [<- <-]; now apply grow_refl|]. unfold get_object. rewrite (ask_calm w W). destruct (pin_at q w) as [id|] eqn:P; [intros Q; apply pair_equal_spec in Q as [<- <-]; now apply grow_refl|].
  assert (forall t, w_fail t = [] -> w_pins t = w_pins w -> forall r u, match create (o_name o) (o_shape o) (Created (Some q)) t with (Ok id, w0) => let (b, w1) := pin_object q id w0 in if b then (Ok id, w1) else (Err EPin, w1) | (Err x, w0) => (Err x, w0) end = (r, u) -> grow p t u) as Main.
  { intros t T Pt r' u'. unfold create. destruct (has_nul (o_name o)); [intros Q; apply pair_equal_spec in Q as [<- <-]; now apply grow_refl|]. rewrite calm_create by exact T. unfold new_map. unfold pin_object. rewrite ask_calm by exact T. assert (pin_at q t = None) as P' by (unfold pin_at in *; now rewrite Pt). unfold pin_at in *. cbn [w_pins]. rewrite P'.
    intros Q. apply pair_equal_spec in Q as [<- <-]. split; [exact T|]. rewrite (created_log p [Created (Some q) (w_next t); Pinned q (w_next t)] t) by (cbn [log set_pins w_log]; now rewrite <- app_assoc). unfold here. cbn [log set_pins w_pins filter]. rewrite existsb_app. cbn [existsb fst]. rewrite orb_false_r. destruct (str_eqb q p) eqn:E; [|rewrite orb_false_r; cbn [length]; lia].
    apply str_eqb_eq in E. subst q. assert (existsb (fun x => str_eqb (fst x) p) (w_pins t) = false) as -> by (apply pin_at_none; exact P'). cbn [orb length]. lia. }
  unfold create_with_inner. destruct inner as [i|]; [|intros Q; apply (Main w W eq_refl r u); rewrite <- Q; destruct (create (o_name o) (o_shape o) (Created (Some q)) w) as [[z|] w0]; [|reflexivity]; now destruct (pin_object q z w0) as [[]]].
  destruct (create (o_name o ++ _) i CreatedInner w) as [[j|x] t] eqn:E; pose proof (calm_create_plain _ _ CreatedInner _ _ _ p W (fun _ => I) E) as G; [|intros Q; apply pair_equal_spec in Q as [<- <-]; exact G].
  intros Q. eapply grow_trans; [exact G|]. apply (Main t (proj1 G)) with (r := r).
  - unfold create in E. destruct (has_nul _); [discriminate|]. rewrite calm_create in E by exact W. unfold new_map in E. apply pair_equal_spec in E as [_ <-]. reflexivity.
  - rewrite <- Q. destruct (create (o_name o) (o_shape o) (Created (Some q)) t) as [[z|] w0]; [|reflexivity]. now destruct (pin_object q z w0) as [[]].
Qed.
Lemma calm_finalize o id w r u p : w_fail w = [] -> finalize o id w = (r, u) -> grow p w u.
Proof.
  intros W. unfold finalize. destruct (match o_data o with [] => (true, w) | _ => update_elem id (o_data o) w end) as [b t] eqn:E.
  assert (grow p w t) as G.
  { destruct (o_data o) as [|d0 dl]; [apply pair_equal_spec in E as [_ <-]; now apply grow_refl|]. unfold update_elem in E. rewrite (ask_calm w W) in E. destruct (map_at id w) as [k|]; [|apply pair_equal_spec in E as [_ <-]; now apply grow_refl]. destruct (false || k_frozen k); apply pair_equal_spec in E as [_ <-]; [now apply grow_refl|]. split; [exact W|].
    unfold created_for, times, here. cbn [log change set_maps w_log w_pins]. rewrite filter_app. destruct (Nat.ltb _ _); cbn [filter]; rewrite app_nil_r; lia. }
  destruct b; [|intros Q; apply pair_equal_spec in Q as [<- <-]; exact G]. destruct (o_rodata o); [|intros Q; apply pair_equal_spec in Q as [<- <-]; exact G].
  unfold freeze. rewrite (ask_calm t (proj1 G)). destruct (map_at id t) as [k|]; [|intros Q; apply pair_equal_spec in Q as [<- <-]; exact G]. destruct (false || k_frozen k); intros Q; apply pair_equal_spec in Q as [<- <-]; [exact G|]. eapply grow_trans; [exact G|]. split; [apply G|]. unfold created_for, times, here. cbn [change set_maps w_log w_pins]. lia.
Qed.
Lemma calm_load_map l o w r u p : w_fail w = [] -> load_map l o w = (r, u) -> grow p w u.
Proof.
  intros W. unfold load_map. cbv zeta. generalize (match o_inner o with Some i => i | None => None end) as inner. intros inner.
  destruct (match pin_path l o with Some path => create_pinned path o inner w | None => create_with_inner (o_name o) (o_shape o) inner (Created None) w end) as [c t] eqn:E.
  assert (grow p w t) as G by (destruct (pin_path l o); [exact (calm_pinned _ _ _ _ _ _ p W E)|exact (calm_inner_plain _ _ _ _ _ _ p W E)]).
  assert (match c with Ok id => let (r0, w0) := finalize o id t in match r0 with Ok _ => (Ok id, w0) | Err x => (Err x, w0) end | Err x => (Err x, t) end = (r, u) -> grow p w u) as Main.
  { destruct c as [id|x]; [|intros Q; apply pair_equal_spec in Q as [<- <-]; exact G]. destruct (finalize o id t) as [d v] eqn:F. apply (calm_finalize _ _ _ _ _ p (proj1 G)) in F. pose proof (grow_trans _ _ _ _ G F). destruct d; intros Q; apply pair_equal_spec in Q as [<- <-]; assumption. }
  assert (forall c' : res merr Z, (match c' with Ok id => match finalize o id t with (Ok _, w1) => (Ok id, w1) | (Err x, w1) => (Err x, w1) end | Err x => (Err x, t) end) = match c' with Ok id => let (r0, w0) := finalize o id t in match r0 with Ok _ => (Ok id, w0) | Err x => (Err x, w0) end | Err x => (Err x, t) end) as Same by (intros [id|x]; [now destruct (finalize o id t) as [[]]|reflexivity]).
  destruct (o_inner o) as [[i|]|]; [|intros Q; apply pair_equal_spec in Q as [<- <-]; now apply grow_refl|]; destruct c; exact Main.
Qed.
Lemma calm_load_maps l os p : forall w r u, w_fail w = [] -> load_maps l os w = (r, u) -> grow p w u.
Proof.
  induction os as [|o os IH]; intros w r u W; cbn [load_maps]; [intros Q; apply pair_equal_spec in Q as [<- <-]; now apply grow_refl|].
  destruct (load_map l o w) as [[id|x] t] eqn:E; apply (calm_load_map _ _ _ _ _ p W) in E; [|intros Q; apply pair_equal_spec in Q as [<- <-]; exact E].
  destruct (load_maps l os t) as [[y|x] v] eqn:F; apply IH in F; try apply E; intros Q; apply pair_equal_spec in Q as [<- <-]; eapply grow_trans; eassumption.
Qed.
Theorem calm_loads js p : forall w rs u, w_fail w = [] -> loads js w = (rs, u) -> grow p w u.
Proof.
  induction js as [|[l os] js IH]; intros w rs u W; cbn [loads]; [intros Q; apply pair_equal_spec in Q as [<- <-]; now apply grow_refl|].
  destruct (load_maps l os w) as [r t] eqn:E. apply (calm_load_maps _ _ p _ _ _ W) in E. destruct (loads js t) as [rs' v] eqn:F. apply IH in F; [|apply E]. intros Q; apply pair_equal_spec in Q as [<- <-]. eapply grow_trans; eassumption.
Qed.
Theorem loads_created_once js w rs u p : w_fail w = [] -> loads js w = (rs, u) -> (created_for p u + here p w <= created_for p w + 1)%nat.
Proof. intros W E. destruct (calm_loads js p _ _ _ W E) as [_ G]. pose proof (here_le p u). lia. Qed.

(** * Shapes *)

Theorem fresh_shape l o w id u : sound w -> load_map l o w = (Ok id, u) -> (forall p, pin_path l o = Some p -> pin_at p w = None) -> exists k, map_at id u = Some k /\ k_shape k = o_shape o.
Proof.
  intros S E H. destruct (load_map_spec _ _ _ _ _ S E) as [X Y]. destruct (Y id eq_refl) as (_ & _ & Y3 & _). destruct (Y3 H) as (k & I & Ek & Sk). apply (x_sound _ _ X) in S. destruct (map_at id u) as [k'|] eqn:M.
  - destruct (map_at_in _ _ _ S M) as (_ & _ & U). rewrite <- (U k I Ek). now exists k.
  - exfalso. unfold map_at in M. apply (find_none _ _ M k) in I. apply Z.eqb_neq in I. congruence.
Qed.
Lemma beyond_log l w u : w_log u = w_log w ++ l -> filter (fun e => match e with ReadBeyond _ => true | _ => false end) l = [] -> beyond u = beyond w.
Proof. intros E F. unfold beyond, times. rewrite E, filter_app, F. now rewrite app_nil_r. Qed.
Lemma beyond_create name sh e w r u : (forall i j, e i <> ReadBeyond j) -> create name sh e w = (r, u) -> beyond u = beyond w.
Proof.
  intros He. unfold create. destruct (has_nul name); [intros Q; apply pair_equal_spec in Q as [<- <-]; reflexivity|]. unfold create_map. destruct (ask w) as [f t] eqn:A. apply ask_keeps in A as (_ & _ & _ & A). destruct f; [intros Q; apply pair_equal_spec in Q as [<- <-]; unfold beyond, times; now rewrite A|].
  unfold new_map. intros Q. apply pair_equal_spec in Q as [<- <-]. apply (beyond_log [e (w_next t)]); [cbn [w_log]; now rewrite A|]. cbn [filter]. specialize (He (w_next t)). destruct (e (w_next t)) as [| | | |j]; try reflexivity. now elim (He j).
Qed.
Lemma beyond_inner name sh inner e w r u : (forall i j, e i <> ReadBeyond j) -> create_with_inner name sh inner e w = (r, u) -> beyond u = beyond w.
Proof.
  intros He. unfold create_with_inner. destruct inner as [i|]; [|now apply beyond_create]. destruct (create (name ++ _) i CreatedInner w) as [[j|x] t] eqn:E; apply beyond_create in E; try discriminate.
  - intros Q. apply beyond_create in Q; [congruence|exact He].
  - intros Q. apply pair_equal_spec in Q as [<- <-]. exact E.
Qed.
Lemma beyond_pinned p o inner w r u : create_pinned p o inner w = (r, u) -> beyond u = beyond w.
Proof.
  unfold create_pinned. destruct (has_nul p); [intros Q; apply pair_equal_spec in Q as [<- <-]; reflexivity|]. unfold get_object. destruct (ask w) as [f t] eqn:A. apply ask_keeps in A as (_ & _ & _ & A). assert (beyond t = beyond w) as B by (unfold beyond, times; now rewrite A).
  destruct (if f then None else pin_at p t); [intros Q; apply pair_equal_spec in Q as [<- <-]; exact B|]. destruct (create_with_inner _ _ inner _ t) as [[id|x] v] eqn:E; apply beyond_inner in E; try discriminate; [|intros Q; apply pair_equal_spec in Q as [<- <-]; congruence].
  unfold pin_object. destruct (ask v) as [g z] eqn:A'. apply ask_keeps in A' as (_ & _ & _ & A'). assert (beyond z = beyond v) as B' by (unfold beyond, times; now rewrite A').
  destruct (pin_at p z); [intros Q; apply pair_equal_spec in Q as [<- <-]; congruence|]. destruct g; intros Q; apply pair_equal_spec in Q as [<- <-]; [congruence|]. rewrite <- B, <- E, <- B'. apply (beyond_log [Pinned p id]); reflexivity.
Qed.
Lemma beyond_finalize o id w r u : (forall k, map_at id w = Some k -> o_data o = [] \/ h_value (k_shape k) <= Z.of_nat (length (o_data o))) -> finalize o id w = (r, u) -> beyond u = beyond w.
Proof.
  intros H. unfold finalize. destruct (match o_data o with [] => (true, w) | _ => update_elem id (o_data o) w end) as [b t] eqn:E.
  assert (beyond t = beyond w) as G.
  { destruct (o_data o) as [|d0 dl] eqn:D; [apply pair_equal_spec in E as [_ <-]; reflexivity|]. rewrite <- D in *. unfold update_elem in E. destruct (ask w) as [f v] eqn:A. apply ask_keeps in A as (_ & M & _ & A). assert (beyond v = beyond w) as B by (unfold beyond, times; now rewrite A). unfold map_at in *. rewrite M in E. destruct (find _ (w_maps w)) as [k|]; [|apply pair_equal_spec in E as [_ <-]; exact B].
    destruct (f || k_frozen k); apply pair_equal_spec in E as [_ <-]; [exact B|]. rewrite <- B. specialize (H k eq_refl). destruct H as [H|H]; [congruence|]. set (n := Z.to_nat _). assert ((length (o_data o) <? n)%nat = false) as -> by (apply Nat.ltb_ge; unfold n; lia). now apply (beyond_log [Written id (firstn n (o_data o))]). }
  destruct b; [|intros Q; apply pair_equal_spec in Q as [<- <-]; exact G]. destruct (o_rodata o); [|intros Q; apply pair_equal_spec in Q as [<- <-]; exact G].
  unfold freeze. destruct (ask t) as [f v] eqn:A. apply ask_keeps in A as (_ & _ & _ & A). assert (beyond v = beyond t) as B by (unfold beyond, times; now rewrite A). destruct (map_at id v) as [k|]; [|intros Q; apply pair_equal_spec in Q as [<- <-]; congruence]. destruct (f || k_frozen k); intros Q; apply pair_equal_spec in Q as [<- <-]; [congruence|]. rewrite <- G, <- B. reflexivity.
Qed.
Theorem no_beyond l o w r u : sound w -> load_map l o w = (r, u) ->
  o_data o = [] \/ (h_value (o_shape o) <= Z.of_nat (length (o_data o)) /\ (forall p id k, pin_path l o = Some p -> In (p, id) (w_pins w) -> In k (w_maps w) -> k_id k = id -> h_value (k_shape k) <= Z.of_nat (length (o_data o)))) ->
  beyond u = beyond w.
Proof.
  intros S E H. revert E. unfold load_map. cbv zeta. generalize (match o_inner o with Some i => i | None => None end) as inner. intros inner.
  destruct (match pin_path l o with Some path => create_pinned path o inner w | None => create_with_inner (o_name o) (o_shape o) inner (Created None) w end) as [c t] eqn:E.
  assert (beyond t = beyond w) as B by (destruct (pin_path l o); [exact (beyond_pinned _ _ _ _ _ _ E)|apply beyond_inner in E; [exact E|discriminate]]).
  assert (forall id, c = Ok id -> forall k, map_at id t = Some k -> o_data o = [] \/ h_value (k_shape k) <= Z.of_nat (length (o_data o))) as F.
  { intros id -> k M. destruct H as [H|[H1 H2]]; [now left|right]. destruct (pin_path l o) as [p|].
    - destruct (create_pinned_spec _ _ _ _ _ _ S E) as [X Y]. pose proof (x_sound _ _ X S) as St. destruct (map_at_in _ _ _ St M) as (I & Ek & U). destruct (pin_at p w) as [j|] eqn:P.
      + destruct (create_pinned_there _ _ _ _ _ _ _ S P E) as [[x Q]|(Q & A1 & A2 & _)]; [discriminate|]. apply ok_inj in Q. subst j. rewrite A1 in I. now apply (H2 p id k eq_refl (pin_here _ _ _ P)).
      + destruct (Y id eq_refl) as (_ & _ & Y3). destruct (Y3 eq_refl) as (k' & I' & E' & Sk). rewrite (U k' I' E') in Sk. now rewrite Sk.
    - apply create_inner_spec in E as [X Y]; [|discriminate]. pose proof (x_sound _ _ X S) as St. destruct (map_at_in _ _ _ St M) as (I & Ek & U). destruct (Y id eq_refl) as (k' & I' & E' & Sk & _). rewrite (U k' I' E') in Sk. now rewrite Sk. }
  destruct (o_inner o) as [[i|]|]; [|intros Q; apply pair_equal_spec in Q as [<- <-]; reflexivity|].
  all: destruct c as [id|x]; [|intros Q; apply pair_equal_spec in Q as [<- <-]; exact B].
  all: destruct (finalize o id t) as [d v] eqn:G; apply beyond_finalize in G; [|now apply F]; destruct d; intros Q; apply pair_equal_spec in Q as [<- <-]; congruence.
Qed.
