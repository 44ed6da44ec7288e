(** Proofs about functions in text sections and program sections. *)
From Coq Require Import String.
From Verif Require Import Base Text Insn LinkModel BtfTypes BtfModel ObjModel ObjSpec ObjProofs.
Local Open Scope Z_scope.

Definition keyed (s : symbol) : Z * symbol := (s_address s, s).
Lemma map_fst_keyed l : map fst (map keyed l) = map s_address l.
Proof. rewrite map_map. reflexivity. Qed.

Lemma assoc_none_in {V} k (l : list (Z * V)) : assoc Z.eqb k l = None <-> ~ In k (map fst l).
Proof.
  induction l as [|[x v] l IH]; cbn [assoc map fst In]; [tauto|]. destruct (Z.eqb_spec k x) as [->|N].
  - split; [discriminate|]. intros H. exfalso. apply H. now left.
  - rewrite IH. split; [|tauto]. intros H [E|E]; [congruence|tauto].
Qed.

Lemma text_sym_spec sec s : text_sym sec s = fun_sym sec s.
Proof. unfold text_sym, fun_sym. destruct (s_def s), (s_kind s), (s_section s); reflexivity. Qed.
Lemma fun_syms_cons sec i s syms : fun_syms sec ((i, s) :: syms) = if text_sym sec s then s :: fun_syms sec syms else fun_syms sec syms.
Proof. rewrite text_sym_spec. reflexivity. Qed.

Lemma by_address_spec sec syms acc : NoDup (map fst acc) ->
  match by_address sec syms acc with
  | Ok r => r = rev (map keyed (fun_syms sec syms)) ++ acc /\ NoDup (map fst r)
  | Err e => e = OConflict /\ ~ NoDup (map s_address (fun_syms sec syms) ++ map fst acc)
  end.
Proof.
  revert acc. induction syms as [|[i s] syms IH]; intros acc N; cbn [by_address].
  - split; [reflexivity|exact N].
  - rewrite fun_syms_cons. destruct (text_sym sec s) eqn:T; [|apply IH; exact N].
    destruct (assoc Z.eqb (s_address s) acc) as [v|] eqn:A.
    + split; [reflexivity|]. intros X. cbn [map app] in X. apply NoDup_cons_iff in X. destruct X as [X _]. apply X.
      apply in_or_app. right. destruct (in_dec Z.eq_dec (s_address s) (map fst acc)) as [Y|Y]; [exact Y|].
      apply assoc_none_in in Y. congruence.
    + apply assoc_none_in in A. specialize (IH ((s_address s, s) :: acc)).
      cbn [map fst] in IH. specialize (IH ltac:(constructor; assumption)).
      destruct (by_address sec syms ((s_address s, s) :: acc)) as [r|e].
      * destruct IH as [-> D]. split; [|exact D]. cbn [map rev]. now rewrite <- app_assoc.
      * destruct IH as [-> D]. split; [reflexivity|]. intros X. apply D. cbn [map app] in X.
        apply NoDup_cons_iff in X. destruct X as [X1 X2]. apply NoDup_Add with (a := s_address s) (l := map s_address (fun_syms sec syms) ++ map fst acc).
        { apply Add_app. }
        { split; assumption. }
Qed.

(** Lookup among symbols of pairwise different addresses. *)
Lemma assoc_keyed l s : NoDup (map s_address l) -> In s l -> assoc Z.eqb (s_address s) (rev (map keyed l)) = Some s.
Proof.
  intros N I. apply assoc_nodup with (eqb := Z.eqb).
  - intros. now apply Z.eqb_eq.
  - rewrite map_rev, map_fst_keyed. now apply NoDup_rev.
  - apply -> in_rev. change (s_address s, s) with (keyed s). now apply in_map.
Qed.
Lemma assoc_keyed_inv l a s : assoc Z.eqb a (rev (map keyed l)) = Some s -> In s l /\ s_address s = a.
Proof.
  intros H. apply assoc_in in H; [|intros; now apply Z.eqb_eq]. apply in_rev in H. apply in_map_iff in H.
  destruct H as (t & E & I). unfold keyed in E. injection E as E1 E2. subst t. now split.
Qed.
Lemma assoc_keyed_none l a : assoc Z.eqb a (rev (map keyed l)) = None <-> (forall s, In s l -> s_address s <> a).
Proof.
  rewrite assoc_none_in, map_rev, <- in_rev, map_fst_keyed. rewrite in_map_iff. split.
  - intros H s I E. apply H. eauto.
  - intros H (s & E & I). now apply (H s).
Qed.

Lemma copy_size d n : length d = Z.to_nat n -> 0 <= n ->
  (n mod 8 = 0 -> exists ins, copy_instructions d = Ok ins /\ 8 * Z.of_nat (length ins) = n) /\
  (n mod 8 <> 0 -> copy_instructions d = Err OCode).
Proof.
  intros L P. assert (Z.of_nat (length d mod 8) = n mod 8) as M by (rewrite Nat2Z.inj_mod, L; f_equal; lia).
  split; intros H.
  - unfold copy_instructions. destruct (Nat.eqb_spec (length d mod 8) 0) as [E|E]; [|lia].
    eexists. split; [reflexivity|]. rewrite dec_insns_length. rewrite Nat2Z.inj_div, L. change (Z.of_nat 8) with 8. lia.
  - unfold copy_instructions. destruct (Nat.eqb_spec (length d mod 8) 0) as [E|E]; [lia|reflexivity].
Qed.

Definition sizes_ok (l : list symbol) : Prop := Forall (fun s => 0 <= s_size s) l.

Section text.
Variables (t : tables) (sec : osec) (l : list symbol).
Hypothesis (SZ : sizes_ok l) (ND : NoDup (map s_address l)).
Let len := Z.of_nat (length (os_data sec)).
Let addrs := rev (map keyed l).

Lemma cut_in off n : 0 <= off -> 0 <= n -> off + n <= len -> exists d, cut (os_data sec) off n = Ok d /\
  d = slice (Z.to_nat off) (Z.to_nat n) (os_data sec) /\ length d = Z.to_nat n.
Proof.
  intros H1 H2 H3. unfold cut. fold len. destruct (Z.leb_spec 0 off); [|lia]. destruct (Z.leb_spec (off + n) len); [|lia].
  cbn [andb]. eexists. split; [reflexivity|]. split; [reflexivity|]. apply slice_length. unfold len in *. lia.
Qed.

(** The functions found and the symbols they come from. *)
Definition from_sym (x : name * func) : Prop :=
  exists s, In s l /\ s_address s = f_addr (snd x) /\ s_name s = Some (fst x) /\ s_size s = 8 * Z.of_nat (length (f_ins (snd x))) /\
    f_finfo (snd x) = pick_finfo (tb_func t (os_name sec)) (f_secoff (snd x)) false /\
    f_linfo (snd x) = pick_linfo (tb_line t (os_name sec)) (f_secoff (snd x)) (s_size s) false.

Lemma text_ok fuel off r : 0 <= off <= len -> text_loop fuel t sec addrs off = Ok r ->
  tiles sec off r /\ Forall from_sym r /\ chain sec l off len.
Proof.
  revert off r. induction fuel as [|fuel IH]; intros off r B; cbn [text_loop]; fold len;
    destruct (Z.leb_spec len off) as [L|L].
  1,3: intros H; apply ok_inj in H; subst r; assert (off = len) as -> by lia;
       split; [apply tiles_end|split; [constructor|apply chain_end]].
  - discriminate.
  - destruct (assoc Z.eqb (u64 (os_address sec + off)) addrs) as [s|] eqn:A; [|discriminate].
    apply assoc_keyed_inv in A. destruct A as [I E].
    assert (0 <= s_size s) as S0 by (unfold sizes_ok in SZ; rewrite Forall_forall in SZ; now apply SZ).
    destruct (Z.eqb_spec (s_size s) 0) as [Z0|Z0]; [discriminate|].
    destruct (Z_le_gt_dec (off + s_size s) len) as [F|F].
    2: { unfold cut. fold len. destruct (Z.leb_spec (off + s_size s) len); [lia|]. rewrite andb_false_r. discriminate. }
    destruct (cut_in off (s_size s) (proj1 B) S0 F) as (d & -> & D & DL). cbn [bind].
    destruct (s_name s) as [n|] eqn:N; [|discriminate].
    destruct (copy_instructions d) as [ins|] eqn:C; [|discriminate]. cbn [bind].
    pose proof (copy_length _ _ C) as CL.
    destruct (text_loop fuel t sec addrs (off + s_size s)) as [q|] eqn:Q; [|discriminate]. cbn [bind].
    intros H. apply ok_inj in H. subst r. apply IH in Q; [|lia]. destruct Q as (Q1 & Q2 & Q3).
    assert (s_size s = 8 * Z.of_nat (length ins)) as SE by lia.
    split; [|split].
    + apply tiles_fun with (ins := ins); cbn [f_sec f_secoff f_addr f_ins]; try reflexivity.
      * intros ->. cbn in SE. lia.
      * unfold len in *. lia.
      * replace (8 * length ins)%nat with (Z.to_nat (s_size s)) by lia. now rewrite <- D.
      * now rewrite <- SE.
    + constructor; [|exact Q2]. exists s. cbn [fst snd f_addr f_ins f_finfo f_linfo f_secoff]. repeat split; auto.
    + apply chain_sym with (s := s) (n := n); auto; lia.
Qed.

Lemma chain_mono o e : chain sec l o e -> o <= e.
Proof. induction 1; lia. Qed.

Lemma text_complete fuel off e : 0 <= off <= len -> len - off <= Z.of_nat fuel -> chain sec l off e ->
  (e = len -> exists r, text_loop fuel t sec addrs off = Ok r) /\
  (forall x, e < len -> fault sec l e x -> text_loop fuel t sec addrs off = Err x).
Proof.
  intros B Fu H. revert fuel B Fu. induction H as [o|o s n e H1 H2 H3 H4 H5 H6 H7 _ IH]; intros fuel B Fu.
  - split.
    + intros ->. exists []. destruct fuel; cbn [text_loop]; fold len; now rewrite Z.leb_refl.
    + intros x L F. destruct fuel as [|fuel]; [lia|]. cbn [text_loop]. fold len.
      destruct (Z.leb_spec len o); [lia|]. destruct F as [G|s I E Z0|s I E G|s I E P G N|s n I E G N M].
      * apply assoc_keyed_none in G. fold addrs in G. now rewrite G.
      * rewrite <- E. unfold addrs. rewrite assoc_keyed by assumption. now rewrite Z0.
      * rewrite <- E. unfold addrs. rewrite assoc_keyed by assumption. fold len in G.
        destruct (Z.eqb_spec (s_size s) 0); [lia|]. unfold cut. fold len.
        destruct (Z.leb_spec (o + s_size s) len); [lia|]. now rewrite andb_false_r.
      * rewrite <- E. unfold addrs. rewrite assoc_keyed by assumption. fold len in G.
        destruct (Z.eqb_spec (s_size s) 0); [lia|].
        destruct (cut_in o (s_size s)) as (d & -> & _); try lia. cbn [bind]. now rewrite N.
      * rewrite <- E. unfold addrs. rewrite assoc_keyed by assumption. fold len in G.
        assert (0 <= s_size s) as S0 by (unfold sizes_ok in SZ; rewrite Forall_forall in SZ; now apply SZ).
        destruct (Z.eqb_spec (s_size s) 0) as [Z0|]; [rewrite Z0 in M; now elim M|].
        destruct (cut_in o (s_size s)) as (d & -> & _ & DL); try lia. cbn [bind]. rewrite N.
        destruct (copy_size d (s_size s) DL S0) as [_ C]. now rewrite (C M).
  - fold len in H1, H7. destruct fuel as [|fuel]; [lia|]. specialize (IH fuel ltac:(lia) ltac:(lia)).
    assert (text_loop (S fuel) t sec addrs o =
      bind (copy_instructions (slice (Z.to_nat o) (Z.to_nat (s_size s)) (os_data sec))) (fun ins =>
      bind (text_loop fuel t sec addrs (o + s_size s)) (fun r =>
        Ok ((n, {| f_sec := os_index sec; f_addr := u64 (os_address sec + o); f_secoff := o; f_ins := ins;
                   f_finfo := pick_finfo (tb_func t (os_name sec)) o false;
                   f_linfo := pick_linfo (tb_line t (os_name sec)) o (s_size s) false |}) :: r)))) as ->.
    { cbn [text_loop]. fold len. destruct (Z.leb_spec len o); [lia|]. rewrite <- H3 at 1. unfold addrs at 1. rewrite assoc_keyed by assumption.
      destruct (Z.eqb_spec (s_size s) 0); [lia|]. destruct (cut_in o (s_size s)) as (d & -> & -> & _); try lia. cbn [bind]. now rewrite H6. }
    destruct (cut_in o (s_size s)) as (d & _ & D & DL); try lia. rewrite <- D.
    destruct (copy_size d (s_size s) DL) as [C _]; [lia|]. destruct (C H5) as (ins & -> & _). cbn [bind]. split.
    + intros E. destruct IH as [IH _]. destruct (IH E) as [r ->]. cbn [bind]. eauto.
    + intros x L F. destruct IH as [_ IH]. now rewrite (IH x L F).
Qed.

Lemma text_err fuel off x : 0 <= off <= len -> len - off <= Z.of_nat fuel -> text_loop fuel t sec addrs off = Err x ->
  exists e, chain sec l off e /\ e < len /\ fault sec l e x.
Proof.
  revert off. induction fuel as [|fuel IH]; intros off B Fu; cbn [text_loop]; fold len;
    destruct (Z.leb_spec len off) as [L|L]; try discriminate; try lia.
  destruct (assoc Z.eqb (u64 (os_address sec + off)) addrs) as [s|] eqn:A.
  2: { intros H. injection H as <-. exists off. split; [apply chain_end|]. split; [exact L|]. apply fault_gap. now apply assoc_keyed_none. }
  apply assoc_keyed_inv in A. destruct A as [I E].
  assert (0 <= s_size s) as S0 by (unfold sizes_ok in SZ; rewrite Forall_forall in SZ; now apply SZ).
  destruct (Z.eqb_spec (s_size s) 0) as [Z0|Z0].
  { intros H. injection H as <-. exists off. split; [apply chain_end|]. split; [exact L|]. now apply fault_empty with s. }
  destruct (Z_le_gt_dec (off + s_size s) len) as [F|F].
  2: { unfold cut. fold len. destruct (Z.leb_spec (off + s_size s) len); [lia|]. rewrite andb_false_r. intros X. injection X as <-.
       exists off. split; [apply chain_end|]. split; [exact L|]. apply fault_long with s; auto. }
  destruct (cut_in off (s_size s) (proj1 B) S0 F) as (d & -> & D & DL). cbn [bind].
  destruct (s_name s) as [n|] eqn:N.
  2: { intros H. injection H as <-. exists off. split; [apply chain_end|]. split; [exact L|]. apply fault_name with s; auto. lia. }
  destruct (copy_size d (s_size s) DL S0) as [C1 C2]. destruct (Z.eq_dec (s_size s mod 8) 0) as [M|M].
  2: { rewrite (C2 M). cbn [bind]. intros H. injection H as <-. exists off. split; [apply chain_end|]. split; [exact L|]. now apply fault_code with s n. }
  destruct (C1 M) as (ins & -> & _). cbn [bind].
  destruct (text_loop fuel t sec addrs (off + s_size s)) as [q|y] eqn:Q; [discriminate|]. cbn [bind]. intros H. injection H as ->.
  apply IH in Q; try lia. destruct Q as (e & Q1 & Q2 & Q3). exists e. split; [|now split].
  apply chain_sym with s n; auto. lia.
Qed.
End text.

(** Functions that tile a section spell out all its instructions. *)
Lemma tiles_concat sec o r : 0 <= o -> tiles sec o r ->
  copy_instructions (skipn (Z.to_nat o) (os_data sec)) = Ok (flat_map (fun x => f_ins (snd x)) r).
Proof.
  intros P H. induction H as [|o n f l ins NE H1 H2 H3 H4 H5 H6 _ IH].
  - rewrite skipn_all2 by lia. reflexivity.
  - cbn [flat_map snd]. rewrite H4.
    assert (skipn (Z.to_nat o) (os_data sec) = slice (Z.to_nat o) (8 * length ins) (os_data sec) ++ skipn (Z.to_nat (o + 8 * Z.of_nat (length ins))) (os_data sec)) as ->.
    { unfold slice. replace (Z.to_nat (o + 8 * Z.of_nat (length ins))) with (Z.to_nat o + 8 * length ins)%nat by lia.
      rewrite <- skipn_skipn'. symmetry. apply firstn_skipn. }
    apply copy_app; [exact H6|]. apply IH. lia.
Qed.

(** The whole of [parse_text]. *)
Lemma text_parsed t syms sec r : sizes_ok (fun_syms (os_index sec) syms) -> parse_text t syms sec = Ok r ->
  NoDup (map s_address (fun_syms (os_index sec) syms)) /\ tiles sec 0 r /\ Forall (from_sym t sec (fun_syms (os_index sec) syms)) r /\
  chain sec (fun_syms (os_index sec) syms) 0 (Z.of_nat (length (os_data sec))).
Proof.
  intros SZ. unfold parse_text. pose proof (by_address_spec (os_index sec) syms [] (NoDup_nil _)) as S.
  destruct (by_address (os_index sec) syms []) as [addrs|]; [|discriminate]. cbn [bind]. destruct S as [-> N]. rewrite app_nil_r in *.
  rewrite map_rev, map_fst_keyed in N. apply NoDup_rev in N. rewrite rev_involutive in N.
  intros H. eapply text_ok in H; try lia; try exact SZ. tauto.
Qed.
Lemma text_accepts t syms sec : sizes_ok (fun_syms (os_index sec) syms) ->
  ((exists r, parse_text t syms sec = Ok r) <->
   NoDup (map s_address (fun_syms (os_index sec) syms)) /\ chain sec (fun_syms (os_index sec) syms) 0 (Z.of_nat (length (os_data sec)))).
Proof.
  intros SZ. split.
  - intros [r H]. apply text_parsed in H; tauto.
  - intros [N C]. unfold parse_text. pose proof (by_address_spec (os_index sec) syms [] (NoDup_nil _)) as S.
    destruct (by_address (os_index sec) syms []) as [addrs|].
    2: { exfalso. apply (proj2 S). cbn [map]. now rewrite app_nil_r. }
    cbn [bind]. destruct S as [-> _]. rewrite app_nil_r. eapply text_complete; eauto; lia.
Qed.
Lemma text_rejects t syms sec x : sizes_ok (fun_syms (os_index sec) syms) ->
  (parse_text t syms sec = Err x <->
   (x = OConflict /\ ~ NoDup (map s_address (fun_syms (os_index sec) syms))) \/
   (NoDup (map s_address (fun_syms (os_index sec) syms)) /\
    exists o, chain sec (fun_syms (os_index sec) syms) 0 o /\ o < Z.of_nat (length (os_data sec)) /\ fault sec (fun_syms (os_index sec) syms) o x)).
Proof.
  intros SZ. unfold parse_text. pose proof (by_address_spec (os_index sec) syms [] (NoDup_nil _)) as S.
  destruct (by_address (os_index sec) syms []) as [addrs|y]; cbn [bind].
  - destruct S as [-> N]. rewrite app_nil_r in *. rewrite map_rev, map_fst_keyed in N. apply NoDup_rev in N. rewrite rev_involutive in N.
    split.
    + intros H. right. split; [exact N|]. apply text_err in H; auto; lia.
    + intros [[_ H]|[_ (o & C & L & F)]]; [tauto|]. destruct (text_complete t sec _ SZ N (length (os_data sec)) 0 o) as [_ H]; auto; lia.
  - destruct S as [-> N]. cbn [map] in N. rewrite app_nil_r in N. split.
    + intros H. injection H as <-. left. now split.
    + intros [[-> _]|[H _]]; [reflexivity|tauto].
Qed.
Lemma text_all t syms sec r : sizes_ok (fun_syms (os_index sec) syms) -> parse_text t syms sec = Ok r ->
  copy_instructions (os_data sec) = Ok (flat_map (fun x => f_ins (snd x)) r).
Proof. intros SZ H. apply text_parsed in H; [|exact SZ]. destruct H as (_ & H & _). now apply tiles_concat in H. Qed.
