(** Properties of the layout of the external symbol section. *)
From Coq Require Import String.
From Verif Require Import Base Text BtfTypes BtfTypesProofs BtfModel BtfProofs BtfProofs2 BtfSanitize BtfSanitizeSpec
  BtfSanitizeProofs BtfSanitizeProofs2 BtfSanitizeProofs3.
Local Open Scope Z_scope.

Lemma type_at_ok b id t : type_at b id = Ok t <-> 0 <= id /\ nth_error (b_types b) (Z.to_nat id) = Some t.
Proof.
  unfold type_at, type_by_id. destruct (nth_error (b_types b) (Z.to_nat id)) as [x|].
  - destruct (Z.leb_spec 0 id); split; try discriminate; intros H'.
    + apply ok_inj in H'. subst. auto.
    + destruct H' as [_ H']. f_equal. congruence.
    + lia.
  - split; [discriminate|]. intros [_ H]. discriminate.
Qed.

Lemma type_at_put_ne b id id' t : 0 <= id -> id' <> id -> type_at (put_at b id t) id' = type_at b id'.
Proof.
  intros H Hne. unfold type_at, type_by_id, put_at, set_type, set_types. cbn [b_types].
  destruct (Z.leb_spec 0 id').
  - rewrite nth_error_upd_ne by lia. reflexivity.
  - destruct (nth_error (upd _ _ _) _), (nth_error (b_types b) _); reflexivity.
Qed.

Lemma type_at_put_eq b id t t0 : type_at b id = Ok t0 -> type_at (put_at b id t) id = Ok t.
Proof.
  intros H. apply type_at_ok in H. destruct H as [H1 H2]. apply type_at_ok. split; [exact H1|].
  unfold put_at, set_type, set_types. cbn [b_types]. apply nth_error_upd_eq. apply nth_error_Some. congruence.
Qed.

(** Replacing a type by one of the same kind. *)
Lemma kinds_put b id t t0 : type_at b id = Ok t0 -> kind_of t = kind_of t0 ->
  map kind_of (b_types (put_at b id t)) = map kind_of (b_types b).
Proof.
  intros H Hk. apply type_at_ok in H. destruct H as [_ H]. unfold put_at, set_type, set_types. cbn [b_types].
  rewrite map_upd, Hk. apply upd_same. now apply map_nth_error.
Qed.

Lemma strings_put b id t : b_strings (put_at b id t) = b_strings b.
Proof. reflexivity. Qed.

(** What one entry's round does to the section. *)
Definition ksym_step (dsid : Z) (place : option Z) (b : btf) (i : nat) (b' : btf) : Prop :=
  map kind_of (b_types b') = map kind_of (b_types b) /\ b_strings b' = b_strings b /\
  forall dh es, type_at b dsid = Ok (TDataSec dh es) ->
    exists es' e e', type_at b' dsid = Ok (TDataSec dh es') /\ length es' = length es /\
      (forall j, j <> i -> nth_error es' j = nth_error es j) /\
      nth_error es i = Some e /\ nth_error es' i = Some e' /\
      de_off e' = u32 (4 * Z.of_nat i) /\ de_size e' = 4 /\
      (de_type e' = de_type e \/ place = Some (de_type e')).

Lemma ksym_entry_step dsid place pname int_id b i tid b' :
  ksym_entry dsid place pname int_id b i tid = Ok b' -> ksym_step dsid place b i b'.
Proof.
  unfold ksym_entry. intros H.
  destruct (type_at b tid) as [t|] eqn:Et; cbn [bind] in H; [|discriminate].
  pose proof (proj1 (proj1 (type_at_ok b tid t) Et)) as Htid.
  (* the first half: everything before the offsets are set *)
  match type of H with bind ?m _ = _ => destruct m as [b1|] eqn:E1; cbn [bind] in H; [|discriminate] end.
  assert (map kind_of (b_types b1) = map kind_of (b_types b) /\ b_strings b1 = b_strings b /\
    forall dh es, type_at b dsid = Ok (TDataSec dh es) ->
      exists es1, type_at b1 dsid = Ok (TDataSec dh es1) /\ length es1 = length es /\
        (forall j, j <> i -> nth_error es1 j = nth_error es j) /\
        (forall e, nth_error es i = Some e -> exists e1, nth_error es1 i = Some e1 /\
           (de_type e1 = de_type e \/ place = Some (de_type e1)))) as (K1 & S1 & D1).
  { destruct t; try discriminate.
    - destruct (string_at b (h_name h)) as [nm|]; cbn [bind] in E1; [|discriminate].
      set (b0 := put_at b tid (TFunc (with_info h (set_linkage (h_info h) 1)))) in *.
      assert (map kind_of (b_types b0) = map kind_of (b_types b)) as K0 by (eapply kinds_put; [exact Et|reflexivity]).
      assert (forall dh es, type_at b dsid = Ok (TDataSec dh es) -> type_at b0 dsid = Ok (TDataSec dh es)) as D0.
      { intros dh es Hd. unfold b0. rewrite type_at_put_ne; [exact Hd|exact Htid|]. intros ->. congruence. }
      match type of E1 with bind ?m _ = _ => destruct m as [b2|] eqn:E2; cbn [bind] in E1; [|discriminate] end.
      assert (map kind_of (b_types b2) = map kind_of (b_types b0) /\ b_strings b2 = b_strings b0 /\
        forall dh es, type_at b0 dsid = Ok (TDataSec dh es) -> type_at b2 dsid = Ok (TDataSec dh es)) as (K2 & S2 & D2).
      { destruct pname as [pn|]; [|apply ok_inj in E2; subst; auto].
        destruct (type_at b0 (h_third h)) as [p|] eqn:Ep; cbn [bind] in E2; [|discriminate].
        destruct p; try (apply ok_inj in E2; subst; auto; fail).
        apply ok_inj in E2. subst b2. split; [eapply kinds_put; [exact Ep|reflexivity]|]. split; [reflexivity|].
        intros dh es Hd. rewrite type_at_put_ne; [exact Hd|exact (proj1 (proj1 (type_at_ok _ _ _) Ep))|]. intros ->. congruence. }
      destruct place as [pid|].
      + destruct (type_at b2 dsid) as [d|] eqn:Ed; [|discriminate].
        destruct d; try (apply ok_inj in E1; subst b1; split; [congruence|]; split; [exact S2|];
          intros dh es Hd; apply D0, D2 in Hd; congruence).
        destruct (nth_error entries i) as [e|] eqn:Ee; [|discriminate].
        apply ok_inj in E1. subst b1. split; [|split].
        * rewrite <- K0, <- K2. eapply kinds_put; [exact Ed|reflexivity].
        * exact S2.
        * intros dh es Hd. apply D0, D2 in Hd. assert (h0 = dh /\ entries = es) as [-> ->] by (split; congruence).
          eexists. split; [eapply type_at_put_eq; exact Ed|]. split; [apply upd_length|]. split.
          -- intros j Hj. apply nth_error_upd_ne. congruence.
          -- intros e0 He0. eexists. split; [apply nth_error_upd_eq; apply nth_error_Some; congruence|]. right. reflexivity.
      + apply ok_inj in E1. subst b2. split; [congruence|]. split; [exact S2|].
        intros dh es Hd. apply D0, D2 in Hd. exists es. split; [exact Hd|]. split; [reflexivity|]. split; [reflexivity|].
        intros e He. exists e. auto.
    - destruct (string_at b (h_name h)) as [nm|]; cbn [bind] in E1; [|discriminate].
      apply ok_inj in E1. subst b1. split; [eapply kinds_put; [exact Et|reflexivity]|]. split; [reflexivity|].
      intros dh es Hd. exists es. split; [rewrite type_at_put_ne; [exact Hd|exact Htid|intros ->; congruence]|].
      split; [reflexivity|]. split; [reflexivity|]. intros e He. exists e. auto. }
  destruct (type_at b1 dsid) as [d|] eqn:Ed; cbn [bind] in H; [|discriminate].
  destruct d; try discriminate. destruct (nth_error entries i) as [e1|] eqn:Ee; [|discriminate].
  apply ok_inj in H. subst b'. split; [|split].
  - rewrite <- K1. eapply kinds_put; [exact Ed|reflexivity].
  - rewrite strings_put. exact S1.
  - intros dh es Hd. destruct (D1 dh es Hd) as (es1 & X1 & X2 & X3 & X4).
    assert (h = dh /\ entries = es1) as [-> ->] by (split; congruence).
    destruct (nth_error es i) as [e|] eqn:Ees; [|apply nth_error_None in Ees; assert (i < length es1)%nat by (apply nth_error_Some; congruence); lia].
    destruct (X4 e eq_refl) as (e2 & Y1 & Y2). assert (e2 = e1) as -> by congruence.
    do 3 eexists. split; [eapply type_at_put_eq; exact Ed|]. split; [rewrite upd_length; exact X2|].
    split; [intros j Hj; rewrite nth_error_upd_ne by congruence; auto|]. split; [reflexivity|].
    split; [apply nth_error_upd_eq; apply nth_error_Some; congruence|]. cbn [de_off de_size de_type]. auto.
Qed.

Lemma ksym_entries_ok dsid place pname int_id tids : forall b i b' dh es,
  ksym_entries dsid place pname int_id b i tids = Ok b' ->
  type_at b dsid = Ok (TDataSec dh es) ->
  map kind_of (b_types b') = map kind_of (b_types b) /\ b_strings b' = b_strings b /\
  exists es', type_at b' dsid = Ok (TDataSec dh es') /\ length es' = length es /\
    forall j, (j < i \/ i + length tids <= j)%nat /\ nth_error es' j = nth_error es j \/
      exists e e', (i <= j < i + length tids)%nat /\ nth_error es j = Some e /\ nth_error es' j = Some e' /\
        de_off e' = u32 (4 * Z.of_nat j) /\ de_size e' = 4 /\ (de_type e' = de_type e \/ place = Some (de_type e')).
Proof.
  induction tids as [|tid tids IH]; intros b i b' dh es H Hd; cbn [ksym_entries length] in *.
  - apply ok_inj in H. subst b'. split; [reflexivity|]. split; [reflexivity|]. exists es. split; [exact Hd|]. split; [reflexivity|].
    intros j. left. split; [lia|reflexivity].
  - destruct (ksym_entry dsid place pname int_id b i tid) as [b1|] eqn:E1; cbn [bind] in H; [|discriminate].
    destruct (ksym_entry_step _ _ _ _ _ _ _ _ E1) as (K1 & S1 & D1).
    destruct (D1 dh es Hd) as (es1 & e & e' & X1 & X2 & X3 & X4 & X5 & X6 & X7 & X8).
    destruct (IH b1 (S i) b' dh es1 H X1) as (K2 & S2 & es2 & Y1 & Y2 & Y3).
    split; [congruence|]. split; [congruence|]. exists es2. split; [exact Y1|]. split; [congruence|].
    intros j. destruct (Y3 j) as [[Hj Ej]|(f & f' & Hj & F1 & F2 & F3)].
    + destruct (Nat.eq_dec j i) as [->|Hne].
      * right. exists e, e'. split; [lia|]. split; [exact X4|]. split; [congruence|]. auto.
      * left. split; [lia|]. rewrite Ej. auto.
    + right. exists f, f'. split; [lia|]. split; [rewrite <- X3 by lia; exact F1|]. auto.
Qed.

Lemma type_at_app b ts id t more : type_at b id = Ok t -> b_types more = b_types b ++ ts -> type_at more id = Ok t.
Proof.
  intros H E. apply type_at_ok in H. destruct H as [H1 H2]. apply type_at_ok. split; [exact H1|].
  rewrite E, nth_error_app1; [exact H2|]. apply nth_error_Some. congruence.
Qed.

Theorem fixup_ksyms_layout b dsid place b' dh es :
  fixup_ksyms b dsid place = Ok b' -> type_at b dsid = Ok (TDataSec dh es) ->
  exists es', type_at b' dsid = Ok (TDataSec (with_third dh (u32 (4 * Z.of_nat (length es)))) es') /\
    Forall2 (fun e e' => de_size e' = 4 /\ (de_type e' = de_type e \/ place = Some (de_type e'))) es es' /\
    map de_off es' = map (fun i => u32 (4 * Z.of_nat i)) (seq 0 (length es)) /\
    exists more, map kind_of (b_types b') = map kind_of (b_types b) ++ more /\ (place <> None -> more = []).
Proof.
  intros H Hd. unfold fixup_ksyms in H.
  match type of H with bind ?m _ = _ => destruct m as [[[b0 pname] int_id]|] eqn:E0; cbn [bind] in H; [|discriminate] end.
  assert (exists ts, b_types b0 = b_types b ++ ts /\ (place <> None -> ts = [])) as (ts & Ets & Hts).
  { destruct place as [pid|].
    - destruct (type_at b pid) as [t|]; cbn [bind] in E0; [|discriminate]. destruct t; try discriminate.
      exists []. rewrite app_nil_r. split; [congruence|reflexivity].
    - destruct (find_int4 (b_types b) 0); [exists []; rewrite app_nil_r; split; [congruence|reflexivity]|].
      destruct (add_string b (txt "int")) as [b1 n] eqn:Ea. destruct (add_type b1 (new_int n 4 1 0)) as [b2 id] eqn:Eb.
      exists [new_int n 4 1 0]. split; [|congruence]. replace b0 with b2 by congruence.
      unfold add_string in Ea. unfold add_type in Eb. injection Ea as <- _. injection Eb as <- _. reflexivity. }
  pose proof (type_at_app b ts dsid _ b0 Hd Ets) as Hd0. rewrite Hd0 in H. cbn [bind] in H.
  destruct (string_at b0 (h_name dh)) as [nm|]; cbn [bind] in H; [|discriminate].
  destruct (ksym_entries _ _ _ _ _ _ _) as [b1|] eqn:E1; cbn [bind] in H; [|discriminate].
  destruct (ksym_entries_ok _ _ _ _ _ _ _ _ _ _ E1 Hd0) as (K1 & _ & es' & X1 & X2 & X3).
  rewrite X1 in H. apply ok_inj in H. subst b'. rewrite map_length in X3.
  exists es'. split; [eapply type_at_put_eq; exact X1|]. split; [|split].
  - apply Forall2_nth; [congruence|]. intros j e He.
    assert (j < length es)%nat by (apply nth_error_Some; congruence).
    destruct (X3 j) as [[Hj _]|(f & f' & Hj & F1 & F2 & F3 & F4 & F5)]; [lia|].
    exists f'. split; [exact F2|]. assert (f = e) as -> by congruence. auto.
  - apply list_eq_nth_error. intros j. rewrite !nth_error_map.
    destruct (Nat.ltb_spec j (length es)) as [Hj|Hj].
    + destruct (X3 j) as [[Hj' _]|(f & f' & _ & F1 & F2 & F3 & _)]; [lia|]. rewrite F2. cbn [option_map]. rewrite F3.
      rewrite (nth_error_nth' (seq 0 (length es)) 0%nat) by (rewrite seq_length; exact Hj). rewrite seq_nth by exact Hj. reflexivity.
    + rewrite (proj2 (nth_error_None es' j)) by lia. rewrite (proj2 (nth_error_None (seq 0 (length es)) j)) by (rewrite seq_length; lia). reflexivity.
  - exists (map kind_of ts). split.
    + rewrite (kinds_put _ _ _ _ X1) by reflexivity. rewrite K1, Ets. apply map_app.
    + intros Hp. now rewrite (Hts Hp).
Qed.
