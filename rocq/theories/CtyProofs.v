(** Proofs about the C types. *)
From Coq Require Import String.
From Verif Require Import Base CtyModel CtySpec.
Import ListNotations.
Local Open Scope string_scope.
Local Open Scope list_scope.

Lemma any_in : forall s l, any s l = true <-> In s l.
Proof.
  intros s l. unfold any. rewrite existsb_exists. split; [intros (x & I & E); apply String.eqb_eq in E; now subst|intros I; exists s; split; [exact I|apply String.eqb_refl]].
Qed.
Lemma twice_nodup : forall l, twice l = false -> NoDup l.
Proof.
  induction l as [|x l IH]; cbn [twice]; intros H; [constructor|]. apply orb_false_iff in H as (A & B). constructor; [|now apply IH].
  intros I. apply any_in in I. congruence.
Qed.
Lemma nodup_same : forall (l : list alias), NoDup (map fst l) -> unambiguous l.
Proof.
  induction l as [|(m, d) l IH]; intros N n c c' I J; [contradiction|]. cbn [map fst] in N. apply NoDup_cons_iff in N as (X & N).
  destruct I as [I|I], J as [J|J]; try (apply pair_equal_spec in I as (I1 & I2)); try (apply pair_equal_spec in J as (J1 & J2)); subst.
  - reflexivity.
  - exfalso. apply X. apply in_map_iff. exists (n, c'). auto.
  - exfalso. apply X. apply in_map_iff. exists (n, c). auto.
  - exact (IH N n c c' I J).
Qed.
Lemma aliases_once : forall t l, aliases t = Some l -> NoDup (map fst l) /\ unambiguous l.
Proof.
  intros t l H. unfold aliases in H. destruct (ads t) as [|a [|]]; try discriminate H. destruct (ods t) as [|o [|]]; try discriminate H.
  destruct (twice (map fst (a ++ o ++ fixed t))) eqn:E; [discriminate H|]. assert (X : a ++ o ++ fixed t = l) by congruence. subst l.
  apply twice_nodup in E. split; [exact E|now apply nodup_same].
Qed.

(** Deciding the integers of one target. *)
Definition cty_dec : forall a b : cty, {a = b} + {a <> b}.
Proof. decide equality; apply Nat.eq_dec || apply Bool.bool_dec. Defined.
Definition alias_dec : forall a b : alias, {a = b} + {a <> b}.
Proof. intros (a, x) (b, y). destruct (String.string_dec a b); [subst|right; congruence]. destruct (cty_dec x y); [left; congruence|right; congruence]. Defined.
Definition has (l : list alias) (a : alias) : bool := if in_dec alias_dec a l then true else false.
Definition good (width : nat) (more : list alias) (t : target) : bool :=
  match aliases t with
  | Some l => forallb (has l) (map (fun '(n, s, b) => (n, CInt s b)) (c_integers width) ++ more)
  | None => false
  end.
Lemma has_in : forall l a, has l a = true -> In a l.
Proof. intros l a. unfold has. destruct (in_dec alias_dec a l); [auto|discriminate]. Qed.
Lemma good_ok : forall width more t, good width more t = true ->
  exists l, aliases t = Some l /\ NoDup (map fst l) /\ right_integers width l /\ forall n c, In (n, c) more -> forall c', In (n, c') l <-> c' = c.
Proof.
  intros width more t H. unfold good in H. destruct (aliases t) as [l|] eqn:E; [|discriminate H]. exists l. split; [reflexivity|].
  destruct (aliases_once t l E) as (N & U). split; [exact N|]. rewrite forallb_forall in H.
  assert (K : forall n c, In (n, c) l -> forall c', In (n, c') l <-> c' = c).
  { intros n c I c'. split; [intros J; exact (U n c' c J I)|intros ->; exact I]. }
  split.
  - intros n s b I. apply K, has_in, H, in_or_app. left. apply in_map_iff. exists (n, s, b). auto.
  - intros n c I. apply K, has_in, H, in_or_app. now right.
Qed.
Definition more_of (s : bool) : list alias := [("c_char", CInt s 8); ("c_float", CFloat 32); ("c_double", CFloat 64); ("c_void", CVoid)].

Lemma linux_all : forallb (fun '(a, w, s) => good w (more_of s) (on_linux a w)) linux_archs = true.
Proof. vm_compute. reflexivity. Qed.
Lemma linux_right : forall a w s, In (a, w, s) linux_archs -> exists l, aliases (on_linux a w) = Some l /\ NoDup (map fst l) /\
  right_integers w l /\ (forall c, In ("c_char", c) l <-> c = CInt s 8) /\ (forall c, In ("c_float", c) l <-> c = CFloat 32) /\
  (forall c, In ("c_double", c) l <-> c = CFloat 64).
Proof.
  intros a w s I. pose proof linux_all as F. rewrite forallb_forall in F. specialize (F _ I). apply good_ok in F as (l & E & N & R & M).
  exists l. split; [exact E|]. split; [exact N|]. split; [exact R|].
  split; [apply M; cbn; auto|]. split; apply M; cbn; auto.
Qed.
Lemma kernels_all : forallb (fun a => good 64 [("c_float", CFloat 32); ("c_double", CFloat 64)] (in_kernel a)) kernels = true.
Proof. vm_compute. reflexivity. Qed.
Lemma kernels_right : forall a, In a kernels -> exists l, aliases (in_kernel a) = Some l /\ NoDup (map fst l) /\ right_integers 64 l /\
  exists s, forall c, In ("c_char", c) l <-> c = CInt s 8.
Proof.
  intros a I. pose proof kernels_all as F. rewrite forallb_forall in F. specialize (F _ I). apply good_ok in F as (l & E & N & R & _).
  exists l. split; [exact E|]. split; [exact N|]. split; [exact R|].
  destruct (aliases_once _ _ E) as (_ & U).
  assert (G : forallb (fun a => match aliases (in_kernel a) with Some l => has l ("c_char", CInt true 8) || has l ("c_char", CInt false 8) | None => false end) kernels = true)
    by (vm_compute; reflexivity).
  rewrite forallb_forall in G. specialize (G _ I). cbv beta in G. rewrite E in G.
  apply orb_true_iff in G as [G|G]; apply has_in in G; [exists true|exists false]; intros c; (split; [intros J; exact (U _ _ _ J G)|intros ->; exact G]).
Qed.

(** Both of a pair have one width on every target. *)
Lemma pair_of : forall t l n m s b, aliases t = Some l -> In (n, m) pairs -> In (n, CInt s b) l -> s = true /\ In (m, CInt false b) l.
Proof.
  intros t l n m s b H P I. unfold aliases in H.
  destruct (ads t) as [|a [|]] eqn:A; try discriminate H. destruct (ods t) as [|o [|]] eqn:O; try discriminate H.
  destruct (twice (map fst (a ++ o ++ fixed t))); [discriminate H|]. assert (X : a ++ o ++ fixed t = l) by congruence. subst l. clear H.
  assert (LA : exists k x, (a = [("c_int", CInt true k); ("c_uint", CInt false k)] ++ x \/ a = x ++ [("c_int", CInt true k); ("c_uint", CInt false k)]) /\
    Forall (fun y => fst y = "c_char") x).
  { unfold ads in A. destruct (any (t_arch t) ["bpf"]).
    - cbn [app] in A. injection A as A _. exists 32%nat, (chars t). split; [left; now rewrite <- A|].
      unfold chars. destruct (t_bpf_arch t) as [z|]; [|constructor]. apply Forall_app. split; match goal with |- Forall _ (if ?q then _ else _) => destruct q end; repeat constructor.
    - repeat match type of A with context [if ?q then _ else _] => destruct q end; cbn [app] in A; try discriminate A; injection A as <-;
        match goal with |- context [[("c_char", ?q); ("c_int", CInt true ?k); _]] => exists k, [("c_char", q)] end; (split; [now right|repeat constructor]). }
  assert (LO : o = [] \/ exists k, o = longs k).
  { unfold ods in O. destruct (windows t), (any (t_os t) ["redox"; "solaris"]); cbn [negb orb app] in O; try discriminate O; try (injection O as <-; right; eexists; reflexivity).
    injection O as <-. destruct (Nat.eqb (t_width t) 16 || Nat.eqb (t_width t) 32) eqn:W; destruct (Nat.eqb (t_width t) 64) eqn:W'.
    - apply Nat.eqb_eq in W'. rewrite W' in W. discriminate W.
    - right. exists 32%nat. reflexivity.
    - right. exists 64%nat. reflexivity.
    - now left. }
  destruct LA as (k & x & LA & FX).
  assert (NX : forall c, In (n, c) x -> False).
  { intros c J. rewrite Forall_forall in FX. specialize (FX _ J). cbn [fst] in FX. subst n. cbn in P.
    repeat (destruct P as [P|P]; [discriminate P|]). exact P. }
  assert (I' : In (n, CInt s b) ([("c_int", CInt true k); ("c_uint", CInt false k)] ++ o ++ fixed t)).
  { apply in_app_iff in I as [I|I]; [|apply in_app_iff; now right]. apply in_app_iff. left.
    destruct LA as [-> | ->]; apply in_app_iff in I as [I|I]; try exact I; exfalso; exact (NX _ I). }
  assert (S' : In (m, CInt false b) ([("c_int", CInt true k); ("c_uint", CInt false k)] ++ o ++ fixed t) -> In (m, CInt false b) (a ++ o ++ fixed t)).
  { intros J. apply in_app_iff in J as [J|J]; apply in_app_iff; [left|now right]. destruct LA as [-> | ->]; apply in_app_iff; auto. }
  enough (Q : s = true /\ In (m, CInt false b) ([("c_int", CInt true k); ("c_uint", CInt false k)] ++ o ++ fixed t)) by (destruct Q; auto).
  clear - P I' LO. destruct LO as [-> | (j & ->)]; cbn [app longs fixed In] in I' |- *; unfold pairs in P; cbn [In] in P;
    repeat (destruct P as [P|P]; [apply pair_equal_spec in P as (<- & <-)|]); try contradiction;
    repeat (destruct I' as [I'|I']; [try discriminate I'|]); try contradiction;
    apply pair_equal_spec in I' as (_ & E); unfold c_schar, c_uchar in *; injection E as <- <-; (split; [reflexivity|]); tauto.
Qed.

(** Without a known architecture a program has no [c_char]. *)
Lemma no_char : forall t l c, t_arch t = "bpf" -> (forall a, t_bpf_arch t = Some a -> ~ In a kernels) -> aliases t = Some l -> ~ In ("c_char", c) l.
Proof.
  intros t l c B K H I. unfold aliases in H. assert (C : chars t = []).
  { unfold chars. destruct (t_bpf_arch t) as [a|]; [|reflexivity]. specialize (K a eq_refl).
    destruct (any a ["aarch64"; "arm"; "powerpc64"; "riscv64"; "s390x"; "mips"]) eqn:E1; [apply any_in in E1; exfalso; apply K; cbn in E1 |- *; tauto|].
    destruct (any a ["loongarch64"; "mips64"; "x86_64"]) eqn:E2; [apply any_in in E2; exfalso; apply K; cbn in E2 |- *; tauto|]. reflexivity. }
  assert (A : ads t = [[("c_int", CInt true 32); ("c_uint", CInt false 32)]]) by (unfold ads; rewrite B, C; reflexivity).
  rewrite A in H. destruct (ods t) as [|o [|]] eqn:O; try discriminate H.
  cbv zeta in H. match type of H with (if twice (map fst ?q) then _ else _) = _ => assert (X : q = l) by (destruct (twice (map fst q)); [discriminate H|congruence]) end. subst l. clear H.
  assert (LO : ~ In ("c_char", c) o).
  { intros J. unfold ods in O.
    destruct (windows t), (any (t_os t) ["redox"; "solaris"]); cbn [negb orb app] in O; try discriminate O; injection O as <-;
      try (cbn in J; destruct J as [J|[J|J]]; [discriminate J|discriminate J|exact J]).
    apply in_app_iff in J as [J|J];
      (match type of J with In _ (if ?q then _ else _) => destruct q end; [cbn in J; destruct J as [J|[J|J]]; [discriminate J|discriminate J|exact J]|exact J]). }
  apply in_app_iff in I as [I|I]; [cbn in I; destruct I as [I|[I|I]]; [discriminate I|discriminate I|exact I]|].
  apply in_app_iff in I as [I|I]; [exact (LO I)|]. cbn [fixed In] in I. repeat (destruct I as [I|I]; [discriminate I|]). exact I.
Qed.
(** At most one of each module is compiled, and the system always has one. *)
Lemma one_module : forall t, (length (ads t) <= 1)%nat /\ length (ods t) = 1%nat.
Proof.
  intros t. split.
  - unfold ads.
    assert (D : forall l1 l2, forallb (fun x => negb (any x l2)) l1 = true -> any (t_arch t) l1 = true -> any (t_arch t) l2 = false).
    { intros l1 l2 F A. apply any_in in A. rewrite forallb_forall in F. specialize (F _ A). now apply negb_true_iff in F. }
    match goal with |- context [any (t_arch t) ["bpf"]] => destruct (any (t_arch t) ["bpf"]) eqn:E1 end.
    + repeat match goal with |- context [any (t_arch t) ?l2] => rewrite (D ["bpf"] l2 eq_refl E1) end. cbn. lia.
    + match goal with |- context [any (t_arch t) ?l] => destruct (any (t_arch t) l) eqn:E2 end.
      * match type of E2 with any _ ?l = _ => repeat match goal with |- context [any (t_arch t) ?l2] => rewrite (D l l2 eq_refl E2) end end. cbn. lia.
      * match goal with |- context [any (t_arch t) ?l] => destruct (any (t_arch t) l) eqn:E3 end.
        -- match type of E3 with any _ ?l = _ => repeat match goal with |- context [any (t_arch t) ?l2] => rewrite (D l l2 eq_refl E3) end end. cbn. lia.
        -- destruct (any (t_arch t) ["msp430"]); cbn; lia.
  - unfold ods, windows. destruct (any (t_os t) ["windows"]) eqn:W.
    + assert (R : any (t_os t) ["redox"; "solaris"] = false).
      { apply any_in in W. destruct W as [<- |[]]. reflexivity. }
      rewrite R. reflexivity.
    + destruct (any (t_os t) ["redox"; "solaris"]); reflexivity.
Qed.
