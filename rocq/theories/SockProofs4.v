(** Every step keeps the state good and the other slots as they are. *)
From Coq Require Import String.
From Verif Require Import Base Text SockModel SockSpec SockProofs SockProofs2 SockProofs3.
Open Scope Z_scope.

Lemma only_slot_files v n o K K' : only_slot v n o K K' -> k_files K' = k_files K.
Proof. unfold only_slot, only_filter, only_selector. destruct (own_slot v); intros H; tauto. Qed.

Lemma on_sock_cases K fd act : (exists n s, In (fd, FSock n) (k_files K) /\ nth_error (k_socks K) n = Some s /\ on_sock K fd act = act n s) \/
  (exists e, on_sock K fd act = (Some e, K)).
Proof.
  unfold on_sock. destruct (file_at K fd) as [[n|x|]|] eqn:F; eauto.
  unfold sock_at. destruct (nth_error (k_socks K) n) as [s|] eqn:A; eauto.
  left. exists n, s. split; [now apply file_in|auto].
Qed.

Lemma set_reuse_good K fd b : sound K -> sound (snd (set_reuse K fd b)) /\ steady K (snd (set_reuse K fd b)) /\ k_files (snd (set_reuse K fd b)) = k_files K.
Proof.
  intros S. unfold set_reuse. match goal with |- context [on_sock K fd ?a] => destruct (on_sock_cases K fd a) as [(n & s & F & A & ->)|[e ->]] end; cbn [snd].
  - split; [|split; [|reflexivity]]; apply (same_slots K n s _ S A); reflexivity.
  - split; [exact S|split; [apply steady_refl|reflexivity]].
Qed.

Lemma set_locked_good K fd : sound K -> sound (snd (set_locked K fd)) /\ steady K (snd (set_locked K fd)) /\ k_files (snd (set_locked K fd)) = k_files K.
Proof.
  intros S. unfold set_locked. match goal with |- context [on_sock K fd ?a] => destruct (on_sock_cases K fd a) as [(n & s & F & A & ->)|[e ->]] end; cbn [snd].
  - split; [|split; [|reflexivity]]; apply (same_slots K n s _ S A); reflexivity.
  - split; [exact S|split; [apply steady_refl|reflexivity]].
Qed.

Lemma bind_alone_good K fd : sound K -> sound (snd (bind_alone K fd)) /\ steady K (snd (bind_alone K fd)) /\ k_files (snd (bind_alone K fd)) = k_files K.
Proof.
  intros S. unfold bind_alone. match goal with |- context [on_sock K fd ?a] => destruct (on_sock_cases K fd a) as [(n & s & F & A & ->)|[e ->]] end; cbn [snd].
  2:{ split; [exact S|split; [apply steady_refl|reflexivity]]. }
  destruct (s_bound s); [split; [exact S|split; [apply steady_refl|reflexivity]]|].
  destruct (s_reuse s); [|split; [|split; [|reflexivity]]; apply (same_slots K n s _ S A); reflexivity].
  destruct (s_group s) as [g|] eqn:G; cbn [snd].
  - split; [|split; [|reflexivity]]; apply (same_slots K n s _ S A); cbn; auto.
  - split; [|split; [|reflexivity]]; apply (grouped K n s (bound s (Some (length (k_groups K)))) S A eq_refl G eq_refl).
Qed.

Lemma bind_with_good K fd fd2 : sound K ->
  sound (snd (bind_with K fd fd2)) /\ steady K (snd (bind_with K fd fd2)) /\ k_files (snd (bind_with K fd fd2)) = k_files K.
Proof.
  intros S. unfold bind_with. match goal with |- context [on_sock K fd ?a] => destruct (on_sock_cases K fd a) as [(n & s & F & A & ->)|[e ->]] end; cbn [snd].
  2:{ split; [exact S|split; [apply steady_refl|reflexivity]]. }
  match goal with |- context [on_sock K fd2 ?a] => destruct (on_sock_cases K fd2 a) as [(n2 & s2 & F2 & A2 & ->)|[e ->]] end; cbn [snd].
  2:{ split; [exact S|split; [apply steady_refl|reflexivity]]. }
  destruct (s_bound s); [split; [exact S|split; [apply steady_refl|reflexivity]]|].
  destruct (s_reuse s && s_reuse s2 && s_bound s2); [|split; [exact S|split; [apply steady_refl|reflexivity]]].
  destruct (s_group s2) as [g|] eqn:G; cbn [snd]; [|split; [exact S|split; [apply steady_refl|reflexivity]]].
  assert (X : exists m fd', In (fd', FSock m) (k_files K) /\ group_of K m = Some g) by (exists n2, fd2; split; [exact F2|rewrite (at_group K n2 s2 A2); exact G]).
  destruct (moved K n s (bound s (Some g)) g S A eq_refl eq_refl X) as [Y Z]. split; [exact Y|split; [exact Z|reflexivity]].
Qed.

Lemma new_sock_good K fd inet : sound K ->
  sound (snd (new_sock K fd inet)) /\ steady K (snd (new_sock K fd inet)) /\
  (forall x id, In (x, FProg id) (k_files K) -> In (x, FProg id) (k_files (snd (new_sock K fd inet)))).
Proof.
  intros S. unfold new_sock. destruct (free_fd K fd) eqn:FR; cbn [snd]; [|split; [exact S|split; [apply steady_refl|auto]]].
  apply free_fd_spec in FR as [B NF].
  set (s := {| s_filter := None; s_group := None; s_reuse := false; s_bound := false; s_locked := false; s_inet := inet; s_full := false |}).
  set (K' := {| k_files := _; k_socks := _; k_groups := _; k_progs := _; k_pins := _ |}).
  assert (OLD : forall n, (n < length (k_socks K))%nat -> nth_error (k_socks K') n = nth_error (k_socks K) n) by (intros n L; cbn [K' k_socks]; now apply nth_error_app1).
  assert (NEW : filter_of K' (length (k_socks K)) = None /\ group_of K' (length (k_socks K)) = None).
  { unfold filter_of, group_of. cbn [K' k_socks]. rewrite nth_error_app2, Nat.sub_diag by lia. split; reflexivity. }
  assert (FF : forall n, filter_of K' n = filter_of K n).
  { intros n. destruct (Nat.lt_trichotomy n (length (k_socks K))) as [LT|[EQ|GT]].
    - unfold filter_of. now rewrite OLD.
    - subst n. rewrite (proj1 NEW). unfold filter_of. rewrite (proj2 (nth_error_None (k_socks K) _)); [reflexivity|lia].
    - unfold filter_of. cbn [K' k_socks].
      rewrite (proj2 (nth_error_None (k_socks K) n)), (proj2 (nth_error_None (k_socks K ++ [s]) n)); [reflexivity|rewrite app_length; cbn; lia|lia]. }
  assert (GG : forall n, group_of K' n = group_of K n).
  { intros n. destruct (Nat.lt_trichotomy n (length (k_socks K))) as [LT|[EQ|GT]].
    - unfold group_of. now rewrite OLD.
    - subst n. rewrite (proj2 NEW). unfold group_of. rewrite (proj2 (nth_error_None (k_socks K) _)); [reflexivity|lia].
    - unfold group_of. cbn [K' k_socks].
      rewrite (proj2 (nth_error_None (k_socks K) n)), (proj2 (nth_error_None (k_socks K ++ [s]) n)); [reflexivity|rewrite app_length; cbn; lia|lia]. }
  split; [|split].
  - destruct (sound_shaped K S) as [X1 X2 X3 X4 X5]. apply shaped_sound.
    + constructor; cbn [K' k_files k_socks k_progs].
      * cbn [map fst]. constructor; [now apply not_in_fst|exact X1].
      * intros x y [E'|J]; [inversion E'; subst; exact B|exact (X2 x y J)].
      * exact X3.
      * intros x n [E'|J]; rewrite app_length; cbn [length]; [inversion E'; lia|apply X4 in J; lia].
      * intros n g. rewrite GG. apply X5.
    + intros id. change (exists_prog K' id) with (exists_prog K id). rewrite (snd_needed K S). unfold needed, selector_of. cbn [K' k_pins k_files In]. split.
      * intros [J|[(x & J)|(x & n & J & E)]]; [left; exact J|right; left; exists x; now right|].
        right. right. exists x, n. split; [now right|]. rewrite FF, GG. exact E.
      * intros [J|[(x & [J|J])|(x & n & [J|J] & E)]]; [left; exact J|discriminate J|right; left; now exists x| |].
        { assert (EN : n = length (k_socks K)) by (inversion J; reflexivity). rewrite EN, (proj1 NEW), (proj2 NEW) in E. destruct E as [E|E]; discriminate E. }
        { right. right. exists x, n. rewrite FF, GG in E. split; [exact J|exact E]. }
  - constructor; auto. cbn [K' k_socks]. rewrite app_length. lia.
  - intros x id J. cbn [K' k_files]. now right.
Qed.

Lemma dup_good K fd fd' : sound K ->
  sound (snd (dup K fd fd')) /\ steady K (snd (dup K fd fd')) /\ (forall x id, In (x, FProg id) (k_files K) -> In (x, FProg id) (k_files (snd (dup K fd fd')))).
Proof.
  intros S. unfold dup. destruct (file_at K fd) as [f|] eqn:F; cbn [snd]; [|split; [exact S|split; [apply steady_refl|auto]]].
  destruct (free_fd K fd') eqn:FR; cbn [snd]; [|split; [exact S|split; [apply steady_refl|auto]]].
  apply file_in in F. split; [|split; [now apply steady_same|intros x id J; now right]].
  apply add_file; auto.
  - intros n ->. exact (snd_socks K S fd n F).
  - intros id. now apply (keeps_needed K fd f).
Qed.

Lemma pin_good K p r K' P i : sound K -> owns P K -> nth_error P i = Some p -> pin K p = (r, K') -> sound K' /\ steady K K' /\ k_files K' = k_files K.
Proof.
  intros S O I. unfold pin. destruct (p_fd p) as [fd|] eqn:F; [|intros E; inversion E; subst; split; [exact S|split; [apply steady_refl|reflexivity]]].
  destruct (own_file P K O i p fd I F) as (id & X). unfold obj_pin. rewrite (in_file K fd _ (snd_fds K S) X).
  intros E. inversion E. subst. split; [|split; [now apply steady_same|reflexivity]].
  destruct (sound_shaped K S) as [X1 X2 X3 X4 X5]. apply shaped_sound; [constructor; auto|].
  intros y. change (exists_prog _ y) with (exists_prog K y). rewrite (snd_needed K S). unfold needed at 2. cbn [k_pins k_files In]. split.
  - intros [J|[J|J]]; [left; now right|right; left; exact J|right; right; exact J].
  - intros [[<-|J]|[J|J]]; [right; left; now exists fd|left; exact J|right; left; exact J|right; right; exact J].
Qed.

Lemma from_pin_good P K v id fd r K' : sound K -> owns P K -> from_pin K v id fd = (r, K') ->
  sound K' /\ steady K K' /\ owns (match r with Ok p => P ++ [p] | Err _ => P end) K'.
Proof.
  intros S O. unfold from_pin, obj_get. destruct (existsb (Z.eqb id) (k_pins K)) eqn:E.
  2:{ intros H. inversion H. subst. split; [exact S|split; [apply steady_refl|exact O]]. }
  destruct (free_fd K fd) eqn:FR; intros H; inversion H; subst; [|split; [exact S|split; [apply steady_refl|exact O]]].
  apply existsb_exists in E as (x & I & EQ). apply Z.eqb_eq in EQ. subst x.
  split; [|split; [now apply steady_same|]].
  - apply add_file; auto; [intros n E; discriminate E|]. intros y E. cbn in E. apply Z.eqb_eq in E. subst y. left. exact I.
  - apply free_fd_spec in FR as [_ NF]. destruct O as [A B].
    assert (C : forall j q, nth_error (P ++ [{| p_variant := v; p_fd := Some fd |}]) j = Some q -> nth_error P j = Some q \/ j = length P /\ p_fd q = Some fd).
    { intros j q J. destruct (Nat.lt_ge_cases j (length P)) as [LT|GE]; [rewrite nth_error_app1 in J by exact LT; auto|].
      rewrite nth_error_app2 in J by exact GE. right.
      destruct (j - length P)%nat as [|k] eqn:D; cbn in J; [|destruct k; discriminate J]. apply some_inj in J. subst q. split; [lia|reflexivity]. }
    constructor; cbn [with_files k_files].
    + intros j q x J G. apply C in J as [J|[J W]].
      * destruct (A j q x J G) as (y & X). exists y. now right.
      * rewrite W in G. apply some_inj in G. subst x. exists id. now left.
    + intros j k q q' x J L G G'. apply C in J as [J|[J W]]; apply C in L as [L|[L W']].
      * exact (B j k q q' x J L G G').
      * rewrite W' in G'. apply some_inj in G'. subst x. destruct (A j q fd J G) as (y & X). contradiction (NF _ X).
      * rewrite W in G. apply some_inj in G. subst x. destruct (A k q' fd L G') as (y & X). contradiction (NF _ X).
      * lia.
Qed.

Lemma slot_kept_attach i v n o sk K K' : In (sk, FSock n) (k_files K) -> only_slot v n o K K' -> slots_kept K (OAttach i v sk) K'.
Proof.
  intros F H. apply slot_set_kept in H as (A & B & C & D). repeat apply conj; auto.
  - intros m _ N. apply A. destruct v; cbn [own_slot]; auto. right. intros ->. exact (N F).
  - intros g L N. apply B; [exact L|]. destruct v; cbn [own_slot]; auto; right; intros X; apply N; exists n; split; assumption.
Qed.

Lemma slot_kept_detach v n o sk K K' : In (sk, FSock n) (k_files K) -> only_slot v n o K K' -> slots_kept K (ODetach v sk) K'.
Proof.
  intros F H. apply slot_set_kept in H as (A & B & C & D). repeat apply conj; auto.
  - intros m _ N. apply A. destruct v; cbn [own_slot]; auto. right. intros ->. exact (N F).
  - intros g L N. apply B; [exact L|]. destruct v; cbn [own_slot]; auto; right; intros X; apply N; exists n; split; assumption.
Qed.

Lemma step_good M o T : good T -> good (snd (step M o T)) /\ slots_kept (st_kern T) o (st_kern (snd (step M o T))).
Proof.
  intros [S O].
  assert (STAY : good T /\ slots_kept (st_kern T) o (st_kern T)) by (split; [split; assumption|apply steady_kept, steady_refl]).
  destruct T as [P K]. cbn [st_kern st_progs] in *.
  assert (SYS : forall K', sound K' -> steady K K' -> (forall x id, In (x, FProg id) (k_files K) -> In (x, FProg id) (k_files K')) ->
    good {| st_progs := P; st_kern := K' |} /\ slots_kept K o K').
  { intros K' A B C. split; [split; [exact A|exact (owns_more P K K' O C)]|now apply steady_kept]. }
  destruct o as [i v fd id|i v sk|v sk|i|i|i|v id fd|fd inet|fd fd'|fd|fd b|fd|fd|fd fd2]; cbn [step st_progs st_kern].
  - destruct (nth_error P i) as [p|] eqn:I; [|exact STAY]. destruct (as_view v p) as [q|e] eqn:V; [|exact STAY].
    apply as_view_same in V. subst q. destruct (load K v p fd id) as [[r p'] K'] eqn:L. unfold put; cbn [snd st_progs st_kern].
    destruct (load_good P K i p v fd id r p' K' S O I L) as (A & B & C). split; [split; assumption|now apply steady_kept].
  - destruct (nth_error P i) as [p|] eqn:I; [|exact STAY]. destruct (as_view v p) as [q|e] eqn:V; [|exact STAY].
    apply as_view_same in V. subst q. destruct (attach M K v p sk) as [[[]|e] K'] eqn:AT; unfold put; cbn [snd st_progs st_kern]; rewrite (upd_same P i p I).
    + destruct (p_fd p) as [fd|] eqn:F; [|unfold attach in AT; rewrite F in AT; discriminate AT].
      destruct (own_file P K O i p fd I F) as (id & X).
      destruct (attach_ok M K v p fd id sk K' S F X AT) as (n & s & t & FS & _ & _ & _ & SO & OS).
      split; [split; [exact SO|apply (owns_same P K K' O), (only_slot_files _ _ _ _ _ OS)]|exact (slot_kept_attach i v n _ sk K K' FS OS)].
    + apply attach_err in AT as [-> _]. split; [split; assumption|apply steady_kept, steady_refl].
  - destruct (detach M K v sk) as [[[]|e] K'] eqn:DT; cbn [snd st_progs st_kern].
    + destruct (detach_ok M K v sk K' S DT) as (n & s & FS & _ & _ & SO & OS).
      split; [split; [exact SO|apply (owns_same P K K' O), (only_slot_files _ _ _ _ _ OS)]|exact (slot_kept_detach v n _ sk K K' FS OS)].
    + apply detach_err in DT as [-> _]. split; [split; assumption|apply steady_kept, steady_refl].
  - destruct (nth_error P i) as [p|] eqn:I; [|exact STAY]. destruct (unload K p) as [[r p'] K'] eqn:U. unfold put; cbn [snd st_progs st_kern].
    destruct (unload_good P K i p r p' K' S O I U) as (A & B & C). split; [split; assumption|now apply steady_kept].
  - destruct (nth_error P i) as [p|] eqn:I; [|exact STAY]. destruct (unload K p) as [[r p'] K'] eqn:U. unfold put; cbn [snd st_progs st_kern].
    destruct (unload_good P K i p r p' K' S O I U) as (A & B & C). split; [split; assumption|now apply steady_kept].
  - destruct (nth_error P i) as [p|] eqn:I; [|exact STAY]. destruct (pin K p) as [r K'] eqn:U. unfold put; cbn [snd st_progs st_kern].
    rewrite (upd_same P i p I). destruct (pin_good K p r K' P i S O I U) as (A & B & C). refine (SYS _ A B _). rewrite C. auto.
  - destruct (from_pin K v id fd) as [[p|e] K'] eqn:U; cbn [snd st_progs st_kern];
      destruct (from_pin_good P K v id fd _ K' S O U) as (A & B & C); (split; [split; assumption|now apply steady_kept]).
  - destruct (new_sock_good K fd inet S) as (A & B & C). now apply SYS.
  - destruct (dup_good K fd fd' S) as (A & B & C). now apply SYS.
  - unfold kernel_did. cbn [snd st_kern]. destruct (file_at K fd) as [[n|x|]|] eqn:F; try (apply SYS; [exact S|apply steady_refl|auto]).
    cbn [snd]. apply SYS; [now apply close_sound|now apply steady_same|].
    intros x id J. cbn [close collect with_files k_files]. apply in_remove. split; [exact J|]. intros ->.
    rewrite (in_file K fd _ (snd_fds K S) J) in F. discriminate F.
  - destruct (set_reuse_good K fd b S) as (A & B & C). refine (SYS _ A B _). rewrite C. auto.
  - destruct (set_locked_good K fd S) as (A & B & C). refine (SYS _ A B _). rewrite C. auto.
  - destruct (bind_alone_good K fd S) as (A & B & C). refine (SYS _ A B _). rewrite C. auto.
  - destruct (bind_with_good K fd fd2 S) as (A & B & C). refine (SYS _ A B _). rewrite C. auto.
Qed.

Lemma run_good M h T : good T -> good (run M h T).
Proof. revert T. induction h as [|o h IH]; intros T G; cbn [run]; [exact G|]. apply IH. now apply step_good. Qed.

Lemma run_filter M h T n : good T -> (n < length (k_socks (st_kern T)))%nat -> never M (fun K o => changes_filter K o n) h T ->
  filter_of (st_kern (run M h T)) n = filter_of (st_kern T) n.
Proof.
  revert T. induction h as [|o h IH]; intros T G L N; cbn [run never] in *; [reflexivity|]. destruct N as [N1 N2].
  destruct (step_good M o T G) as [G' (A & B & C & D)]. rewrite IH; [now apply A|exact G'|lia|exact N2].
Qed.

Lemma run_selector M h T g : good T -> (g < length (k_groups (st_kern T)))%nat -> never M (fun K o => changes_selector K o g) h T ->
  selector (st_kern (run M h T)) g = selector (st_kern T) g.
Proof.
  revert T. induction h as [|o h IH]; intros T G L N; cbn [run never] in *; [reflexivity|]. destruct N as [N1 N2].
  destruct (step_good M o T G) as [G' (A & B & C & D)]. rewrite IH; [now apply B|exact G'|lia|exact N2].
Qed.
