(** Proofs about the lines that create probe events. *)
From Coq Require Import String.
From Verif Require Import Base Text TextParse TextSplit LogModel LogShowProofs ProbeModel ProbeCmdSpec.
Local Open Scope Z_scope.

Lemma upto_app x a b : ~ In x a -> upto x (a ++ x :: b) = a.
Proof. induction a as [|c a IH]; intros N; cbn [app upto]; [now rewrite Z.eqb_refl|]. destruct (Z.eqb_spec c x) as [->|]; [exfalso; apply N; now left|]. rewrite IH; [reflexivity|]. intros I. apply N. now right. Qed.
Lemma upto_none x a : ~ In x a -> upto x a = a.
Proof. induction a as [|c a IH]; intros N; cbn [upto]; [reflexivity|]. destruct (Z.eqb_spec c x) as [->|]; [exfalso; apply N; now left|]. rewrite IH; [reflexivity|]. intros I. apply N. now right. Qed.
Lemma cut_app x a b : ~ In x a -> cut x (a ++ x :: b) = Some (a, b).
Proof. induction a as [|c a IH]; intros N; cbn [app cut]; [now rewrite Z.eqb_refl|]. destruct (Z.eqb_spec c x) as [->|]; [exfalso; apply N; now left|]. rewrite IH; [reflexivity|]. intros I. apply N. now right. Qed.
Lemma cut_none x a : ~ In x a -> cut x a = None.
Proof. induction a as [|c a IH]; intros N; cbn [cut]; [reflexivity|]. destruct (Z.eqb_spec c x) as [->|]; [exfalso; apply N; now left|]. rewrite IH; [reflexivity|]. intros I. apply N. now right. Qed.
Lemma cut_last_app x a b : ~ In x b -> cut_last x (a ++ x :: b) = Some (a, b).
Proof.
  intros N. unfold cut_last. rewrite rev_app_distr. cbn [rev]. rewrite <- app_assoc. cbn [app]. rewrite cut_app; [now rewrite !rev_involutive|]. now rewrite <- in_rev.
Qed.

Definition alnum (c : Z) : bool := letter c || number c.
Definition alnums (s : list Z) : Prop := Forall (fun c => alnum c = true) s.
Lemma dec_alnums n : 0 <= n < 10 ^ 20 -> alnums (dec n).
Proof. intros H. destruct (dec_spec n H) as (_ & F & _). eapply Forall_impl; [|exact F]. cbn. intros c D. unfold is_digit in D. unfold alnum, number. now rewrite D, orb_true_r. Qed.
Lemma hex_alnums fuel : forall n acc, 0 <= n -> alnums acc -> alnums (hex_go fuel false n acc).
Proof.
  induction fuel as [|fuel IH]; intros n acc N A; cbn [hex_go]; [exact A|]. pose proof (Z.mod_pos_bound n 16 ltac:(lia)) as M.
  assert (alnums ((if n mod 16 <? 10 then 48 + n mod 16 else 87 + n mod 16) :: acc)) as C.
  { constructor; [|exact A]. unfold alnum, letter, number. destruct (Z.ltb_spec (n mod 16) 10); lia. }
  destruct (n / 16 =? 0); [exact C|]. apply IH; [apply Z.div_pos; lia|exact C].
Qed.
Lemma ptr_alnums n : 0 <= n -> alnums (show_ptr n).
Proof. intros H. unfold show_ptr, show_hex. apply Forall_app. split; [repeat constructor|]. apply hex_alnums; [exact H|constructor]. Qed.
Lemma under_alnums t : Forall (fun c => path_char c = true) t -> alnums (map underscore t).
Proof.
  intros H. apply Forall_map. eapply Forall_impl; [|exact H]. cbn. intros c P. unfold underscore. destruct ((c =? 46) || (c =? 47) || (c =? 45)) eqn:E; [reflexivity|].
  unfold path_char in P. unfold alnum. rewrite <- !orb_assoc in *. rewrite E in P. now rewrite orb_false_r in P.
Qed.
Lemma alias_alnums pid r t o i : 0 <= pid < 10 ^ 20 -> 0 <= i < 10 ^ 20 -> 0 <= o -> Forall (fun c => path_char c = true) t -> alnums (alias pid r t o i).
Proof.
  intros P I O T. unfold alias. pose proof (ptr_alnums o O) as HP. generalize dependent (show_ptr o). intros p HP.
  repeat (apply Forall_app; split); try (repeat constructor; fail).
  - now apply dec_alnums.
  - destruct r; repeat constructor.
  - now apply under_alnums.
  - exact HP.
  - now apply dec_alnums.
Qed.
Lemma alias_good pid r t o i : 0 <= pid < 10 ^ 20 -> 0 <= i < 10 ^ 20 -> 0 <= o -> Forall (fun c => path_char c = true) t -> good_name (alias pid r t o i) = true.
Proof.
  intros P I O T. pose proof (alias_alnums pid r t o i P I O T) as A. unfold alias in *. change (txt "aya_" ++ ?x) with (97 :: txt "ya_" ++ x) in *.
  apply Forall_inv_tail in A. cbn [good_name]. change (letter 97) with true. cbn [andb]. apply forallb_forall. now apply Forall_forall.
Qed.
Lemma no_char c s (P : Z -> bool) : Forall (fun c => P c = true) s -> P c = false -> ~ In c s.
Proof. intros F N I. rewrite Forall_forall in F. specialize (F _ I). congruence. Qed.
Lemma alnum_no_ws s (P : Z -> bool) : (forall c, is_ws c = true -> P c = false) -> Forall (fun c => P c = true) s -> Forall (fun c => is_ws c = false) s.
Proof. intros W F. eapply Forall_impl; [|exact F]. cbn. intros c H. destruct (is_ws c) eqn:E; [|reflexivity]. rewrite (W _ E) in H. discriminate. Qed.
Lemma path_ws c : is_ws c = true -> path_char c = false.
Proof. unfold is_ws, path_char, letter, number. lia. Qed.
Lemma alnum_path s : alnums s -> Forall (fun c => path_char c = true) s.
Proof. intros H. eapply Forall_impl; [|exact H]. cbn. intros c A. unfold path_char. unfold alnum in A. now rewrite A. Qed.

Lemma number_ptr n : 0 <= n < 2 ^ 64 -> k_number (show_ptr n) = Some n.
Proof. intros H. change (k_number (show_ptr n)) with (hex_u64 (show_hex false n)). apply show_hex_parse. exact H. Qed.
Lemma dec_go_head fuel : forall n acc, 0 < n < 10 ^ Z.of_nat fuel -> exists c r, dec_go fuel n acc = c :: r /\ c <> 48.
Proof.
  induction fuel as [|fuel IH]; intros n acc Hn; [cbn in Hn; lia|]. cbn [dec_go]. destruct (Z.eqb_spec (n / 10) 0) as [E|E].
  - eexists _, _. split; [reflexivity|]. lia.
  - apply IH. rewrite Nat2Z.inj_succ, Z.pow_succ_r in Hn by lia. lia.
Qed.
Lemma dec_no_zero n r : 0 < n < 10 ^ 20 -> dec n <> 48 :: r.
Proof. intros H E. destruct (dec_go_head 20 n [] H) as (c & r' & E' & C). unfold dec in E. rewrite E in E'. congruence. Qed.
Lemma number_dec n : 0 <= n < 2 ^ 64 -> k_number (dec n) = Some n.
Proof.
  intros H. assert (0 <= n < 10 ^ 20) as H' by (split; [lia|]; eapply Z.lt_trans; [apply H|reflexivity]). pose proof (parse_dec (2 ^ 64) n H' ltac:(lia)) as P.
  destruct (dec_spec n H') as (V & F & N). destruct (dec n) as [|c r] eqn:E; [contradiction|]. unfold k_number.
  destruct (Z.eq_dec c 48) as [->|C].
  - destruct r as [|c2 r]; [exact P|exfalso]. assert (n <> 0) as NZ by (intros ->; discriminate E). apply (dec_no_zero n (c2 :: r)); [lia|exact E].
  - destruct c as [|p|p]; try exact P. do 6 (destruct p as [p|p|]; try exact P). contradiction.
Qed.

Definition probe_group (kprobe : bool) : list Z := if kprobe then txt "kprobes" else txt "uprobes".
Lemma create_shape kprobe ret name target offset :
  create_command kprobe ret name target offset =
  ((if ret then 114 else 112) :: 58 :: probe_group kprobe ++ 47 :: name) ++ 32 ::
  (target ++ (if kprobe then (if ret then [] else 43 :: dec offset) else 58 :: show_ptr offset)) ++ [10].
Proof. unfold create_command, probe_group. destruct kprobe, ret; cbn [app]; rewrite <- ?app_assoc; reflexivity. Qed.
Definition line_char (c : Z) : bool := path_char c || (c =? 58) || (c =? 43).
Lemma line_ws c : is_ws c = true -> line_char c = false.
Proof. unfold line_char, is_ws, path_char, letter, number. lia. Qed.
Lemma path_line s : Forall (fun c => path_char c = true) s -> Forall (fun c => line_char c = true) s.
Proof. intros H. eapply Forall_impl; [|exact H]. cbn. intros c A. unfold line_char. now rewrite A. Qed.

Lemma create_read kprobe ret pid target offset index : 0 <= pid < 10 ^ 20 -> 0 <= index < 10 ^ 20 -> 0 <= offset < 2 ^ 64 ->
  target <> [] -> Forall (fun c => path_char c = true) target ->
  k_create kprobe (create_command kprobe ret (alias pid ret target offset index) target offset) =
  Some {| kd_return := ret; kd_group := probe_group kprobe; kd_event := alias pid ret target offset index; kd_target := target;
          kd_offset := if kprobe && ret then 0 else offset |}.
Proof.
  intros P I O N T. pose proof (alias_alnums pid ret target offset index P I ltac:(lia) T) as A. pose proof (alias_good pid ret target offset index P I ltac:(lia) T) as G.
  set (name := alias pid ret target offset index) in *. clearbody name. rewrite create_shape.
  set (head := (if ret then 114 else 112) :: 58 :: probe_group kprobe ++ 47 :: name).
  set (point := target ++ (if kprobe then (if ret then [] else 43 :: dec offset) else 58 :: show_ptr offset)).
  assert (0 <= offset < 10 ^ 20) as O' by (split; [lia|]; eapply Z.lt_trans; [apply O|reflexivity]).
  assert (Forall (fun c => line_char c = true) head) as Hh.
  { unfold head. constructor; [now destruct ret|]. constructor; [reflexivity|]. apply Forall_app. split; [destruct kprobe; repeat constructor|].
    constructor; [reflexivity|]. now apply path_line, alnum_path. }
  assert (Forall (fun c => line_char c = true) point) as Hp.
  { unfold point. apply Forall_app. split; [now apply path_line|]. destruct kprobe.
    - destruct ret; [constructor|]. constructor; [reflexivity|]. now apply path_line, alnum_path, dec_alnums.
    - constructor; [reflexivity|]. apply path_line, alnum_path, ptr_alnums. lia. }
  assert (head <> []) as Nh by discriminate. assert (point <> []) as Np. { unfold point. destruct target; [contradiction|discriminate]. }
  assert (forall c, line_char c = false -> ~ In c (head ++ 32 :: point) \/ c = 32) as NI.
  { intros c L. destruct (Z.eq_dec c 32) as [->|N32]; [now right|left]. intros X. apply in_app_or in X as [X|[X|X]]; [exact (no_char _ _ _ Hh L X)|congruence|exact (no_char _ _ _ Hp L X)]. }
  unfold k_create. replace (head ++ 32 :: point ++ [10]) with ((head ++ 32 :: point) ++ 10 :: []) by (rewrite <- app_assoc; reflexivity).
  rewrite upto_app by (destruct (NI 10 eq_refl) as [X|X]; [exact X|discriminate X]).
  rewrite upto_none by (destruct (NI 35 eq_refl) as [X|X]; [exact X|discriminate X]).
  rewrite ws_words_cons by (split; [exact Nh|exact (alnum_no_ws _ _ line_ws Hh)]).
  rewrite ws_words_last by (split; [exact Np|exact (alnum_no_ws _ _ line_ws Hp)]).
  assert (k_head head = Some (ret, probe_group kprobe, name)) as ->.
  { unfold head, k_head. rewrite cut_app by (destruct kprobe; cbn; intuition discriminate). rewrite G. destruct kprobe, ret; reflexivity. }
  assert (k_point kprobe point = Some (target, if kprobe && ret then 0 else offset)) as ->.
  { unfold k_point, point. destruct kprobe.
    - destruct ret; cbn [andb].
      + rewrite app_nil_r, cut_none; [reflexivity|]. exact (no_char 43 _ _ T eq_refl).
      + rewrite cut_app by exact (no_char 43 _ _ T eq_refl). now rewrite number_dec by lia.
    - cbn [andb]. rewrite cut_last_app by exact (no_char 58 _ _ (ptr_alnums offset ltac:(lia)) eq_refl). now rewrite number_ptr by lia. }
  reflexivity.
Qed.
