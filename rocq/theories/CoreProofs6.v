(** Proofs about fitting kinds and access strings of types. *)
From Coq Require Import String.
From Verif Require Import Base Text Insn LinkModel BtfTypes BtfModel BtfExt CoreModel CoreSpec CoreProofs CoreProofs2 CoreProofs3 CoreProofs5 CoreSpec2.
Local Open Scope Z_scope.

Lemma kind_eqb_iff : forall a b, kind_eqb a b = true <-> a = b.
Proof. intros a b. split; [destruct a, b; cbn; intros H; try reflexivity; discriminate H|intros ->; destruct b; reflexivity]. Qed.

Lemma cand_fitting : forall l t, cand_kind l t = true <-> fitting l t.
Proof.
  intros l t. unfold cand_kind, fitting. rewrite orb_true_iff, kind_eqb_iff. split.
  - intros [H|H]; [left; now symmetry|]. right.
    destruct l; try discriminate H. match goal with |- context [TUnion ?h ?ms ?f] => destruct f as [fb|]; [|discriminate H] end.
    apply kind_eqb_iff in H. destruct t; try discriminate H. repeat eexists.
  - intros [H|(h & ms & fb & h' & vs & -> & ->)]; [left; now symmetry|right; reflexivity].
Qed.

Lemma candidates_fitting : forall tb l lname cs, find_candidates tb l lname = Ok cs -> forall id n, In (id, n) cs <->
  exists j t e, nth_error (b_types tb) j = Some t /\ id = u32 (Z.of_nat j) /\ fitting l t /\
    type_name tb t = Ok n /\ essential lname e /\ essential n e.
Proof.
  intros tb l lname cs H id n. rewrite (find_candidates_spec tb l lname cs H id n). split.
  - intros (j & t & E1 & E2 & E3 & E4 & E5). exists j, t, (flavorless n). repeat split; auto.
    + now apply cand_fitting.
    + now apply flavorless_iff.
    + now apply flavorless_iff.
  - intros (j & t & e & E1 & E2 & E3 & E4 & E5 & E6). exists j, t. repeat split; auto.
    + now apply cand_fitting.
    + apply flavorless_iff in E5, E6. congruence.
Qed.

Lemma type_class : forall k, class_of k = CType <-> about_types k.
Proof. intros k. unfold about_types. split; [destruct k; try discriminate; auto|]. intros [-> | [-> | [-> | ->]]]; reflexivity. Qed.

Lemma str_eqb_zero : forall l, str_eqb l [0] = true <-> l = [0].
Proof. intros l. apply str_eqb_eq. Qed.

Lemma type_access : forall b k root s sp, about_types k -> access_new b k root s = Ok sp ->
  indices s [0] /\ sp = {| sp_root := root; sp_parts := [0]; sp_acc := []; sp_bit := 0 |}.
Proof.
  intros b k root s sp T H. apply type_class in T. unfold access_new in H.
  apply bind_ok in H as (parts & P & H). apply bind_lift_ok in H as (id & R & H). apply bind_lift_ok in H as (ty & Y & H).
  rewrite T in H. destruct (str_eqb parts [0]) eqn:E; [|discriminate H].
  apply str_eqb_zero in E. subst parts. injection H as <-. split; [|reflexivity]. now apply parts_indices.
Qed.
Lemma type_access_other : forall b k root s l id ty, about_types k -> indices s l -> l <> [0] ->
  resolve_type (b_types b) root = Ok id -> type_by_id (b_types b) id = Ok ty ->
  access_new b k root s = Err RInvalidAccessString.
Proof.
  intros b k root s l id ty T I0 N R Y. apply type_class in T. unfold access_new.
  apply parts_indices in I0. rewrite I0. cbn [bind]. rewrite R. cbn [lift bind]. rewrite Y. cbn [lift bind]. rewrite T.
  destruct (str_eqb l [0]) eqn:E; [apply str_eqb_zero in E; contradiction|reflexivity].
Qed.

Lemma existence : forall be lb tb k ls ts, about_existence k -> exists c t,
  compute be lb tb k ls ts = Ok c /\ c_target c = Some t /\ (v_value t = 1 <-> ts <> None) /\ (v_value t = 0 <-> ts = None).
Proof.
  intros be lb tb k ls ts [-> | [-> | ->]]; destruct ts as [t0|]; do 2 eexists;
    (split; [reflexivity|]); (split; [reflexivity|]); cbn; split; split; intros H; try reflexivity; try discriminate; try (now destruct H).
Qed.

Lemma element_offset : forall be b s a r, last_acc (sp_acc s) = Some a -> ac_name a = None ->
  compute_field be b FByteOffset (Some s) = Ok r ->
  8 * v_value r <= sp_bit s < 8 * v_value r + 8 /\ v_type r = Some (ac_type a) /\
  exists n, type_size (b_types b) (ac_type a) = Ok n /\ v_size r = u32 n.
Proof.
  intros be b s a r L N H. cbn [compute_field] in H. rewrite L, N in H.
  apply bind_lift_ok in H as (n & S0 & H). injection H as <-. cbn [v_value v_type v_size].
  split; [|split; [reflexivity|exists n; split; [exact S0|reflexivity]]].
  pose proof (Z.mod_pos_bound (sp_bit s) 8 ltac:(lia)). pose proof (Z.div_mod (sp_bit s) 8 ltac:(lia)). lia.
Qed.

Lemma type_matches : forall stack lb tb k ls cid, about_types k ->
  (forall ts, match_candidate stack lb tb k ls cid = Ok (Some ts) <->
     compat stack (b_types lb) (b_types tb) (sp_root ls) cid = CRes (Ok true) /\
     ts = {| sp_root := cid; sp_parts := []; sp_acc := []; sp_bit := 0 |}) /\
  (match_candidate stack lb tb k ls cid = Ok None <->
     compat stack (b_types lb) (b_types tb) (sp_root ls) cid = CRes (Ok false)).
Proof.
  intros stack lb tb k ls cid T. apply type_class in T. unfold match_candidate. rewrite T.
  destruct (compat stack (b_types lb) (b_types tb) (sp_root ls) cid) as [|[[|]|e]]; cbn [lift bind]; split; try intros ts; split;
    try (intros H; discriminate H); try (intros [H _]; discriminate H); try (intros _; reflexivity).
  - intros H. injection H as <-. split; reflexivity.
  - intros [_ ->]. reflexivity.
Qed.

Lemma depth_ok : forall tb first a tid sp t sp', match_index tb first a tid sp = Ok (Some (t, sp')) ->
  length (sp_parts sp) <> deepest.
Proof.
  intros tb first a tid sp t sp' H E. unfold match_index in H. apply bind_ok in H as ([t0|] & _ & H); [|discriminate H].
  rewrite E in H. discriminate H.
Qed.

Lemma lift_not_nesting : forall {A} (r : res berr A), lift r <> Err RMaxNesting.
Proof. intros A [a|e]; cbn; discriminate. Qed.
Lemma bind_err : forall {A B} (r : res rerr A) (f : A -> res rerr B) e, bind r f = Err e -> r = Err e \/ exists a, r = Ok a /\ f a = Err e.
Proof. intros A B [a|e'] f e H; cbn in H; [right; exists a; auto|left; injection H as ->; reflexivity]. Qed.
Lemma depth_err : forall tb first a tid sp, match_index tb first a tid sp = Err RMaxNesting ->
  length (sp_parts sp) = deepest.
Proof.
  intros tb first a tid sp H. unfold match_index in H. apply bind_err in H as [H|([t0|] & _ & H)]; [| |discriminate H].
  - exfalso. destruct first; [discriminate H|].
    apply bind_err in H as [H|(ty & _ & H)]; [now apply lift_not_nesting in H|].
    destruct ty; try discriminate H.
    apply bind_err in H as [H|(v & _ & H)].
    + match type of H with (if ?c then _ else _) = _ => destruct c end; [|discriminate H].
      destruct (last_acc (sp_acc sp)) as [p|]; [|discriminate H].
      apply bind_err in H as [H|(pt & _ & H)]; [now apply lift_not_nesting in H|discriminate H].
    + match type of H with (if ?c then _ else _) = _ => destruct c end; [discriminate H|].
      apply bind_err in H as [H|(pt & _ & H)]; [now apply lift_not_nesting in H|discriminate H].
  - destruct (length (sp_parts sp) =? MAX_SPEC_LEN)%nat eqn:E; [now apply Nat.eqb_eq in E|].
    apply bind_err in H as [H|(n & _ & H)]; [now apply lift_not_nesting in H|discriminate H].
Qed.

Lemma unsigned_iff : forall d, int_unsigned d = true <-> ~ signed_int d.
Proof.
  intros d. unfold int_unsigned, signed_int.
  assert (B : Z.land (Z.shiftr d 24) 1 = Z.b2z (Z.testbit d 24)).
  { change 1 with (Z.ones 1). rewrite Z.land_ones by lia. change (2 ^ 1) with 2.
    rewrite <- Z.bit0_mod, Z.shiftr_spec by lia. reflexivity. }
  rewrite B. destruct (Z.testbit d 24); cbn; split; intros H; try discriminate; try reflexivity. exfalso. now apply H.
Qed.

Lemma resize_ok : forall lb tb l t c c', v_size l <> v_size t -> resize lb tb l t c = Ok c' ->
  exists li ti lty tty, v_type l = Some li /\ v_type t = Some ti /\ type_by_id (b_types lb) li = Ok lty /\
    type_by_id (b_types tb) ti = Ok tty /\ resizable lty tty.
Proof.
  intros lb tb l t c c' N H. unfold resize in H. destruct (v_size l =? v_size t) eqn:E; [apply Z.eqb_eq in E; contradiction|].
  destruct (v_type l) as [li|]; [|discriminate H]. apply bind_lift_ok in H as (lty & L & H).
  destruct (v_type t) as [ti|]; [|discriminate H]. apply bind_lift_ok in H as (tty & T & H).
  exists li, ti, lty, tty. repeat (split; [reflexivity || assumption|]).
  destruct lty; try discriminate H; destruct tty; try discriminate H.
  - left. do 2 eexists. split; reflexivity.
  - right. match type of H with (if ?c then _ else _) = _ => destruct c eqn:U end; [|discriminate H].
    apply andb_true_iff in U as [U1 U2]. apply unsigned_iff in U1, U2. do 4 eexists. repeat split; eassumption.
Qed.
Lemma resize_refused : forall lb tb l t c li ti lty tty, v_size l <> v_size t -> v_type l = Some li -> v_type t = Some ti ->
  type_by_id (b_types lb) li = Ok lty -> type_by_id (b_types tb) ti = Ok tty -> ~ resizable lty tty ->
  resize lb tb l t c = Err RInvalidInsn.
Proof.
  intros lb tb l t c li ti lty tty N L T LY TY R. destruct (resize lb tb l t c) as [c'|e] eqn:H.
  - apply resize_ok in H as (li' & ti' & lty' & tty' & E1 & E2 & E3 & E4 & E5); [|exact N]. exfalso. apply R. congruence.
  - unfold resize in H. destruct (v_size l =? v_size t) eqn:E; [discriminate H|]. rewrite L, T, LY in H. cbn [lift bind] in H. rewrite TY in H. cbn [lift bind] in H.
    match type of H with (if ?c then _ else _) = _ => destruct c end; [|symmetry; exact H].
    destruct (size_bits (v_size t)); [discriminate H|symmetry; exact H].
Qed.
