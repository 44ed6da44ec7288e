(** Choosing the kernel to test: pages. *)
From Coq Require Import String.
From Verif Require Import Base Text TextParse LogModel TextSplit KmodModel KmodProofs UbuntuModel UbuntuSpec.
Local Open Scope Z_scope.

Lemma lower_iff c l : 97 <= l <= 122 -> (lower c = l <-> upper_or_lower c l).
Proof.
  intros H. unfold lower, upper_or_lower. destruct (Z.leb_spec 65 c), (Z.leb_spec c 90); cbn [andb]; lia.
Qed.
Lemma str_eqb_iff a b : str_eqb a b = true <-> a = b.
Proof. unfold str_eqb. destruct (list_eq_dec Z.eq_dec a b); split; congruence. Qed.
Lemma href_iff n : same_letters n (txt "href") = true <-> is_href n.
Proof.
  unfold same_letters. rewrite str_eqb_iff. change (map lower (txt "href")) with [104; 114; 101; 102]. split.
  - intros E. destruct n as [|h [|r [|e [|f [|x n]]]]]; try discriminate E. cbn [map] in E. apply cons_inj in E as [E1 E]. apply cons_inj in E as [E2 E]. apply cons_inj in E as [E3 E]. apply cons_inj in E as [E4 _].
    exists h, r, e, f. split; [reflexivity|]. repeat split; apply lower_iff; (lia || assumption).
  - intros (h & r & e & f & -> & A & B & C & D). cbn [map]. apply lower_iff in A; [|lia]. apply lower_iff in B; [|lia]. apply lower_iff in C; [|lia]. apply lower_iff in D; [|lia]. rewrite A, B, C, D. reflexivity.
Qed.
Lemma trim_start_cons c s : is_ws c = false -> trim_start (c :: s) = c :: s.
Proof. intros H. cbn [trim_start]. rewrite H. reflexivity. Qed.
Lemma trim_end_ws s w : blanks w -> (forall c, In c s -> is_ws c = false) -> trim_end (s ++ w) = s.
Proof.
  intros H F. unfold trim_end. rewrite rev_app_distr, trim_start_ws by (apply Forall_rev; exact H).
  destruct (rev s) as [|c r] eqn:E; [symmetry; rewrite <- (rev_involutive s), E; reflexivity|].
  rewrite trim_start_cons; [rewrite <- E; apply rev_involutive|]. apply F. apply in_rev. rewrite E. left. reflexivity.
Qed.
Lemma ws_not c : is_ws c = true -> c <> 61 /\ c <> 62 /\ c <> 47 /\ c <> 34 /\ c <> 39.
Proof. unfold is_ws. intros H. apply orb_prop in H as [H|H]; [apply andb_prop in H as [A B]; apply Z.leb_le in A, B|apply Z.eqb_eq in H]; lia. Qed.

Lemma attr_step fuel a rest : fine_attr a ->
  attributes (S fuel) (attr_text a ++ rest) = if same_letters (a_name a) (txt "href") then Some (a_value a) else attributes fuel rest.
Proof.
  intros (B1 & B2 & B3 & Q & V & _ & N & F). destruct a as [before name left right q value]. unfold attr_text. cbn [a_before a_name a_left a_right a_quote a_value] in *.
  cbn [attributes]. rewrite <- !app_assoc, trim_start_ws by exact B1. destruct name as [|c name]; [contradiction|].
  inversion F as [|? ? (W & N61 & N62 & N47 & _) F']; subst. rewrite <- app_comm_cons. rewrite trim_start_cons by exact W.
  assert (X : once 61 (c :: name ++ left ++ [61] ++ right ++ [q] ++ value ++ [q] ++ rest) = Some ((c :: name) ++ left, right ++ [q] ++ value ++ [q] ++ rest)).
  { apply once_some. split; [rewrite <- app_comm_cons, <- app_assoc; reflexivity|]. rewrite in_app_iff. intros [I|I].
    - rewrite Forall_forall in F. destruct (F 61 I) as (_ & Y & _). apply Y. reflexivity.
    - unfold blanks in B2. rewrite Forall_forall in B2. discriminate (B2 61 I). }
  cbn [starts_with]. replace (62 =? c) with false by (symmetry; apply Z.eqb_neq; lia). replace (47 =? c) with false by (symmetry; apply Z.eqb_neq; lia). cbn [andb orb].
  rewrite X. rewrite trim_start_ws by exact B3. cbn [app].
  assert (Wq : is_ws q = false) by (destruct Q as [-> | ->]; reflexivity). rewrite trim_start_cons by exact Wq.
  replace ((q =? 34) || (q =? 39)) with true by (destruct Q as [-> | ->]; reflexivity).
  assert (Z1 : once q (value ++ q :: rest) = Some (value, rest)) by (apply once_some; auto). rewrite Z1.
  rewrite app_comm_cons, trim_end_ws; [reflexivity|exact B2|]. intros x I. rewrite Forall_forall in F. apply (F x I).
Qed.
Lemma attrs_href fuel l1 x l2 rest : Forall fine_attr (l1 ++ x :: l2) -> Forall (fun y => ~ is_href (a_name y)) l1 -> is_href (a_name x) -> (length l1 < fuel)%nat ->
  attributes fuel (flat_map attr_text (l1 ++ x :: l2) ++ rest) = Some (a_value x).
Proof.
  revert fuel. induction l1 as [|y l1 IH]; intros fuel F N H L; (destruct fuel as [|fuel]; [cbn [length] in L; lia|]).
  - cbn [app flat_map] in *. inversion F; subst. rewrite <- app_assoc, attr_step by assumption. apply href_iff in H. rewrite H. reflexivity.
  - cbn [app flat_map] in *. inversion F; subst. inversion N; subst. rewrite <- app_assoc, attr_step by assumption.
    destruct (same_letters (a_name y) (txt "href")) eqn:E; [apply href_iff in E; contradiction|]. apply IH; try assumption. cbn [length] in L. lia.
Qed.
Lemma attrs_none fuel l rest : Forall fine_attr l -> Forall (fun y => ~ is_href (a_name y)) l -> (exists w c r, rest = w ++ c :: r /\ blanks w /\ (c = 62 \/ c = 47)) ->
  attributes fuel (flat_map attr_text l ++ rest) = None.
Proof.
  intros F N (w & c & r & -> & B & C). revert fuel. induction l as [|y l IH]; intros fuel; (destruct fuel as [|fuel]; [reflexivity|]).
  - cbn [flat_map app attributes]. rewrite trim_start_ws by exact B. destruct C as [-> | ->]; reflexivity.
  - cbn [flat_map]. inversion F; subst. inversion N; subst. rewrite <- app_assoc, attr_step by assumption.
    destruct (same_letters (a_name y) (txt "href")) eqn:E; [apply href_iff in E; contradiction|]. apply IH; assumption.
Qed.
Lemma attr_len a : (1 <= length (attr_text a))%nat.
Proof. unfold attr_text. rewrite !app_length. cbn [length]. lia. Qed.
Lemma attrs_len l : (length l <= length (flat_map attr_text l))%nat.
Proof. induction l as [|a l IH]; [cbn; lia|]. cbn [flat_map length]. rewrite app_length. pose proof (attr_len a). lia. Qed.

Lemma tag_ends d : In d [9; 10; 12; 13; 32; 62; 47] <-> ascii_ws d || (d =? 62) || (d =? 47) = true.
Proof.
  unfold ascii_ws. rewrite !orb_true_iff, !Z.eqb_eq. cbn [In]. intuition lia.
Qed.
Lemma no_link_href s : no_link s -> html_tag_href s = None.
Proof.
  intros (_ & H). unfold html_tag_href.
  assert (X : exists w, blanks w /\ s = w ++ trim_start s /\ match trim_start s with [] => True | c :: _ => is_ws c = false end).
  { clear H. induction s as [|c s (w & B & E & M)]; [exists []; repeat split; constructor|]. cbn [trim_start]. destruct (is_ws c) eqn:W.
    - exists (c :: w). split; [constructor; assumption|]. split; [cbn [app]; f_equal; exact E|exact M].
    - exists []. split; [constructor|]. split; [reflexivity|exact W]. }
  destruct X as (w & B & E & M). destruct (trim_start s) as [|c r]; [reflexivity|]. destruct (H w c r B M E) as [(A1 & A2)|(d & r' & -> & D)].
  - destruct (Z.eqb_spec (lower c) 97) as [L|L]; [|reflexivity]. apply lower_iff in L; [|lia]. unfold upper_or_lower in L. lia.
  - destruct (negb (lower c =? 97)); [reflexivity|]. destruct (ascii_ws d || (d =? 62) || (d =? 47)) eqn:T; [apply tag_ends in T; contradiction|reflexivity].
Qed.
Lemma piece_href p o : fine_piece p -> target p o -> html_tag_href (piece_text p) = o.
Proof.
  intros F T. destruct T as [a l1 x l2 rest N H|a l rest N|s]; cbn [fine_piece] in F.
  1,2: destruct F as (A & FA & _ & R & d & r & E & D); cbn [piece_text]; unfold html_tag_href;
    rewrite trim_start_cons by (destruct A as [-> | ->]; reflexivity);
    assert (L : lower a = 97) by (apply lower_iff; [lia|exact A]); rewrite L; change (negb (97 =? 97)) with false; cbv beta iota;
    apply tag_ends in D.
  - assert (G : (length l1 < S (length (flat_map attr_text (l1 ++ x :: l2) ++ rest)))%nat).
    { rewrite app_length. pose proof (attrs_len (l1 ++ x :: l2)) as Q. rewrite app_length in Q. cbn [length] in Q. lia. }
    pose proof (attrs_href _ l1 x l2 rest FA N H G) as X. rewrite E in X |- *. rewrite D. exact X.
  - pose proof (attrs_none (S (length (flat_map attr_text l ++ rest))) l rest FA N R) as X. rewrite E in X |- *. rewrite D. exact X.
  - apply no_link_href. exact F.
Qed.
Lemma attr_no_lt a : fine_attr a -> ~ In 60 (attr_text a).
Proof.
  intros (B1 & B2 & B3 & Q & _ & V & _ & F) I. unfold attr_text in I. unfold blanks in *. rewrite Forall_forall in B1, B2, B3, F.
  rewrite !in_app_iff in I. destruct I as [I|[I|[I|[I|[I|[I|[I|I]]]]]]].
  - discriminate (B1 60 I).
  - destruct (F 60 I) as (_ & _ & _ & _ & X). apply X. reflexivity.
  - discriminate (B2 60 I).
  - destruct I as [I|[]]. discriminate I.
  - discriminate (B3 60 I).
  - destruct I as [I|[]]. lia.
  - contradiction.
  - destruct I as [I|[]]. lia.
Qed.
Lemma piece_no_lt p : fine_piece p -> ~ In 60 (piece_text p).
Proof.
  destruct p as [a l rest|s]; cbn [fine_piece piece_text]; [|intros (H & _); exact H].
  intros (A & F & R & _) [I|I]; [destruct A as [-> | ->]; lia|]. apply in_app_iff in I as [I|I]; [|contradiction].
  apply in_flat_map in I as (x & I & J). rewrite Forall_forall in F. exact (attr_no_lt x (F x I) J).
Qed.
Lemma not_in_forall x s : ~ In x s -> Forall (fun c => (x =? c) = false) s.
Proof. intros H. apply Forall_forall. intros c I. apply Z.eqb_neq. intros ->. contradiction. Qed.
Lemma page_split start l : ~ In 60 start -> Forall fine_piece l -> split_at 60 (page_text start l) = start :: map piece_text l.
Proof.
  unfold page_text, split_at. intros S F. revert start S. induction F as [|p l Fp F IH]; intros start S.
  - cbn [flat_map map]. rewrite app_nil_r. apply split_by_none. apply not_in_forall. exact S.
  - cbn [flat_map map]. rewrite <- app_comm_cons, split_by_app by (first [apply not_in_forall; exact S|reflexivity]). f_equal. apply IH. apply piece_no_lt. exact Fp.
Qed.
Lemma page_hrefs start l targets : no_link start -> Forall fine_piece l -> Forall2 target l targets ->
  hrefs (page_text start l) = flat_map (fun o => match o with Some h => [h] | None => [] end) targets.
Proof.
  intros S F T. unfold hrefs. rewrite page_split by (first [apply S|exact F]). cbn [flat_map]. rewrite (no_link_href start S). cbn [app].
  revert F. induction T as [|p o l os T _ IH]; intros F; [reflexivity|]. inversion F; subst. cbn [map flat_map]. rewrite (piece_href p o) by assumption. f_equal. apply IH. assumption.
Qed.
