(** Messages: reading one, receiving many. *)
From Coq Require Import String.
From Verif Require Import Base Text NetlinkModel NetlinkSpec NetlinkProofs.
Local Open Scope Z_scope.

Lemma amsg_bytes_length m : length (amsg_bytes m) = (16 + length (a_data m))%nat.
Proof. unfold amsg_bytes. rewrite !app_length, !le_enc_length. lia. Qed.

Definition read_as (m : amsg) : res nerr msg :=
  if a_type m =? 2 then
    if (length (a_data m) <? 20)%nat then Err NShortError
    else Ok {| m_len := 16 + Z.of_nat (length (a_data m)); m_type := 2; m_flags := a_flags m; m_data := skipn 20 (a_data m);
               m_error := Some (err_code m) |}
  else Ok (got m).

Lemma i32_dec b : bytes_ok b = true -> length b = 4%nat ->
  i32 (le_dec b) = if le_dec b <? 2147483648 then le_dec b else le_dec b - 4294967296.
Proof.
  intros B L. pose proof (le_dec_bound b B) as H. rewrite L in H. change (256 ^ Z.of_nat 4) with 4294967296 in H.
  unfold i32, swrap. change (2 ^ 32) with 4294967296. change (2 ^ (32 - 1)) with 2147483648.
  cbv zeta. rewrite Z.mod_small by lia. reflexivity.
Qed.

Lemma msg_read_amsg m rest : 0 <= a_type m < 65536 -> 0 <= a_flags m < 65536 -> 16 + Z.of_nat (length (a_data m)) < 4294967296 ->
  bytes_ok (a_data m) = true -> msg_read (amsg_bytes m ++ rest) = read_as m.
Proof.
  intros T F L B. set (b := amsg_bytes m ++ rest).
  assert (Lb : length b = (16 + length (a_data m) + length rest)%nat) by (unfold b; rewrite app_length, amsg_bytes_length; lia).
  unfold msg_read. replace (length b <? 16)%nat with false by (symmetry; apply Nat.ltb_ge; lia).
  assert (E1 : le_dec (slice 0 4 b) = 16 + Z.of_nat (length (a_data m))).
  { unfold b, amsg_bytes. rewrite <- !app_assoc, slice0, firstn_app_exact by (rewrite le_enc_length; reflexivity).
    apply le_dec_enc_small. change (256 ^ Z.of_nat 4) with 4294967296. lia. }
  assert (E2 : le_dec (slice 4 2 b) = a_type m).
  { unfold b, amsg_bytes. rewrite <- !app_assoc, slice_app_exact' by (rewrite ?le_enc_length; reflexivity).
    apply le_dec_enc_small. change (256 ^ Z.of_nat 2) with 65536. lia. }
  assert (E3 : le_dec (slice 6 2 b) = a_flags m).
  { unfold b, amsg_bytes. rewrite <- !app_assoc. rewrite (app_assoc (le_enc 4 _)).
    rewrite slice_app_exact' by (rewrite ?app_length, ?le_enc_length; reflexivity).
    apply le_dec_enc_small. change (256 ^ Z.of_nat 2) with 65536. lia. }
  rewrite E1, E2, E3. cbv zeta.
  replace (16 + Z.of_nat (length (a_data m)) <? 16) with false by lia.
  replace (Z.of_nat (length b) <? 16 + Z.of_nat (length (a_data m))) with false by lia.
  replace (Z.to_nat (16 + Z.of_nat (length (a_data m)))) with (length (amsg_bytes m)) by (rewrite amsg_bytes_length; lia).
  unfold b. rewrite firstn_app_exact by reflexivity.
  assert (E4 : skipn 16 (amsg_bytes m) = a_data m).
  { unfold amsg_bytes. rewrite !app_assoc. apply skipn_app_exact. rewrite !app_length, !le_enc_length. reflexivity. }
  rewrite E4. unfold read_as, NLMSG_ERROR. destruct (a_type m =? 2) eqn:C; [| reflexivity].
  apply Z.eqb_eq in C. destruct (length (a_data m) <? 20)%nat eqn:C2; [reflexivity |].
  apply Nat.ltb_ge in C2. rewrite C, i32_dec.
  - reflexivity.
  - apply bytes_ok_slice, B.
  - apply slice_length. lia.
Qed.

Lemma split_at {A} n (l : list A) : l = firstn n l ++ skipn n l. Proof. symmetry. apply firstn_skipn. Qed.
Lemma enc_slice o n b : bytes_ok b = true -> (o + n <= length b)%nat -> le_enc n (le_dec (slice o n b)) = slice o n b.
Proof. intros B L. rewrite <- (slice_length o n b L) at 1. apply le_enc_dec, bytes_ok_slice, B. Qed.
(** Any bytes either begin with a message or are refused. *)
Lemma msg_read_cases b : bytes_ok b = true ->
  (exists m rest, 0 <= a_type m < 65536 /\ 0 <= a_flags m < 65536 /\ 16 + Z.of_nat (length (a_data m)) < 4294967296
     /\ bytes_ok (a_data m) = true /\ b = amsg_bytes m ++ rest /\ msg_read b = read_as m)
  \/ ((length b < 16)%nat /\ msg_read b = Err NShortHeader)
  \/ ((16 <= length b)%nat /\ (le_dec (firstn 4 b) < 16 \/ Z.of_nat (length b) < le_dec (firstn 4 b)) /\ msg_read b = Err NBadLen).
Proof.
  intro B. destruct (Nat.lt_ge_cases (length b) 16) as [L | L].
  - right. left. split; [exact L |]. unfold msg_read. replace (length b <? 16)%nat with true by (symmetry; apply Nat.ltb_lt; exact L). reflexivity.
  - destruct (Z.lt_ge_cases (le_dec (firstn 4 b)) 16) as [C1 | C1];
      [| destruct (Z.lt_ge_cases (Z.of_nat (length b)) (le_dec (firstn 4 b))) as [C2 | C2]].
    + right. right. split; [exact L |]. split; [left; exact C1 |]. unfold msg_read.
      replace (length b <? 16)%nat with false by (symmetry; apply Nat.ltb_ge; exact L). rewrite slice0.
      replace (le_dec (firstn 4 b) <? 16) with true by lia. reflexivity.
    + right. right. split; [exact L |]. split; [right; exact C2 |]. unfold msg_read.
      replace (length b <? 16)%nat with false by (symmetry; apply Nat.ltb_ge; exact L). rewrite slice0. cbv zeta.
      replace (le_dec (firstn 4 b) <? 16) with false by lia.
      replace (Z.of_nat (length b) <? le_dec (firstn 4 b)) with true by lia. reflexivity.
    + left. set (n := Z.to_nat (le_dec (firstn 4 b))).
      assert (N : le_dec (firstn 4 b) = Z.of_nat n) by (unfold n; lia).
      set (m := {| a_type := le_dec (slice 4 2 b); a_flags := le_dec (slice 6 2 b); a_seq := le_dec (slice 8 4 b);
                   a_port := le_dec (slice 12 4 b); a_data := slice 16 (n - 16) b; a_pad := [] |}).
      assert (LD : length (slice 16 (n - 16) b) = (n - 16)%nat) by (apply slice_length; lia).
      assert (T : 0 <= a_type m < 65536) by (apply le_dec_bound2; [apply bytes_ok_slice, B | apply slice_length; lia]).
      assert (F : 0 <= a_flags m < 65536) by (apply le_dec_bound2; [apply bytes_ok_slice, B | apply slice_length; lia]).
      assert (LL : 16 + Z.of_nat (length (a_data m)) < 4294967296).
      { cbn [a_data m]. rewrite LD. pose proof (le_dec_bound (firstn 4 b) (bytes_ok_firstn 4 b B)) as H.
        rewrite firstn_length, Nat.min_l in H by lia. change (256 ^ Z.of_nat 4) with 4294967296 in H. lia. }
      assert (BD : bytes_ok (a_data m) = true) by apply bytes_ok_slice, B.
      assert (Eb : b = amsg_bytes m ++ skipn n b).
      { unfold amsg_bytes. cbn [a_type a_flags a_seq a_port a_data m]. rewrite LD.
        replace (16 + Z.of_nat (n - 16)) with (le_dec (slice 0 4 b)) by (rewrite slice0; lia).
        rewrite !enc_slice by (exact B || lia).
        rewrite <- (Nat.add_0_l 4) at 2. rewrite <- !app_assoc.
        rewrite <- (firstn_skipn n b) at 1.
        rewrite !app_assoc. f_equal.
        change (slice 4 2 b) with (slice (0 + 4) 2 b). rewrite slice_app_split.
        change (slice 6 2 b) with (slice (0 + (4 + 2)) 2 b). rewrite slice_app_split.
        change (slice 8 4 b) with (slice (0 + (4 + 2 + 2)) 4 b). rewrite slice_app_split.
        change (slice 12 4 b) with (slice (0 + (4 + 2 + 2 + 4)) 4 b). rewrite slice_app_split.
        change (slice 16 (n - 16) b) with (slice (0 + (4 + 2 + 2 + 4 + 4)) (n - 16) b). rewrite slice_app_split.
        unfold slice. rewrite skipn_O. f_equal. lia. }
      exists m, (skipn n b). do 4 (split; [assumption |]). split; [exact Eb |].
      rewrite Eb at 1. apply msg_read_amsg; assumption.
Qed.

(** ** Fuel *)

Definition rx_size (s : rx) (ds : list (list Z)) : nat := (length (rx_buf s) - rx_off s + length (concat ds) + length ds)%nat.
Lemma msg_read_len b m : msg_read b = Ok m -> 16 <= m_len m.
Proof.
  unfold msg_read. cbv zeta. destruct (length b <? 16)%nat; [discriminate |].
  destruct (le_dec (slice 0 4 b) <? 16) eqn:C; [discriminate |].
  destruct (Z.of_nat (length b) <? le_dec (slice 0 4 b)); [discriminate |].
  destruct (le_dec (slice 4 2 b) =? NLMSG_ERROR).
  - destruct (_ <? 20)%nat; [discriminate |]. intro H. apply ok_inj in H. subst m. cbn [m_len]. lia.
  - intro H. apply ok_inj in H. subst m. cbn [m_len]. lia.
Qed.
Lemma rx_next_fuel k : forall s ds n p, rx_size s ds = k -> (k < n)%nat -> (k < p)%nat -> rx_next n s ds = rx_next p s ds.
Proof.
  induction k as [k IH] using lt_wf_ind. intros s ds n p E N P.
  destruct n as [| n]; [lia |]. destruct p as [| p]; [lia |]. cbn [rx_next].
  destruct (rx_off s <? length (rx_buf s))%nat eqn:C.
  - apply Nat.ltb_lt in C. destruct (msg_read (skipn (rx_off s) (rx_buf s))) as [m | e] eqn:R; [| reflexivity].
    destruct (m_type m =? NLMSG_ERROR); [| reflexivity]. destruct (m_error m) as [e |]; [| reflexivity].
    destruct (e =? 0); [| reflexivity].
    pose proof (msg_read_len _ _ R) as LM. rewrite align4_eq.
    assert (D : (rx_size {| rx_buf := rx_buf s; rx_off := rx_off s + (Z.to_nat (m_len m) + pad4 (Z.to_nat (m_len m)));
        rx_multi := negb (Z.land (m_flags m) NLM_F_MULTI =? 0)%Z |} ds < k)%nat)
      by (unfold rx_size in *; cbn [rx_buf rx_off]; lia).
    apply (IH _ D); [reflexivity | lia | lia].
  - destruct (negb (rx_multi s)); [reflexivity |]. destruct ds as [| d ds]; [reflexivity |]. destruct d as [| z d]; [reflexivity |].
    assert (D : (rx_size {| rx_buf := firstn (Z.to_nat 4096) (z :: d); rx_off := 0; rx_multi := rx_multi s |} ds < k)%nat).
    { unfold rx_size in *. cbn [rx_buf rx_off]. cbn [concat length] in E. rewrite app_length in E.
      pose proof (firstn_length (Z.to_nat 4096) (z :: d)). lia. }
    apply (IH _ D); [reflexivity | lia | lia].
Qed.

(** Progress: an item that is a message leaves less to read. *)
Lemma rx_next_size n : forall s ds m s' ds', rx_next n s ds = (RxItem (Ok m), s', ds') -> (rx_size s' ds' < rx_size s ds)%nat.
Proof.
  induction n as [| n IH]; intros s ds m s' ds' H; [discriminate |]. cbn [rx_next] in H.
  destruct (rx_off s <? length (rx_buf s))%nat eqn:C.
  - apply Nat.ltb_lt in C. destruct (msg_read (skipn (rx_off s) (rx_buf s))) as [m0 | e] eqn:R; [| inversion H].
    pose proof (msg_read_len _ _ R) as LM. rewrite align4_eq in H.
    set (s1 := {| rx_buf := rx_buf s; rx_off := _; rx_multi := _ |}) in H.
    assert (D : (rx_size s1 ds < rx_size s ds)%nat) by (unfold rx_size, s1; cbn [rx_buf rx_off]; lia).
    destruct (m_type m0 =? NLMSG_ERROR).
    + destruct (m_error m0) as [e |]; [| inversion H]. destruct (e =? 0).
      * apply IH in H. lia.
      * destruct (error_texts (attrs (m_data m0))); inversion H.
    + destruct (m_type m0 =? NLMSG_DONE); inversion H. subst. exact D.
  - destruct (negb (rx_multi s)); [inversion H |]. destruct ds as [| d ds]; [inversion H |]. destruct d as [| z d]; [inversion H |].
    apply IH in H. unfold rx_size in *. cbn [rx_buf rx_off] in H. cbn [concat length]. rewrite app_length.
    pose proof (firstn_length (Z.to_nat 4096) (z :: d)). lia.
Qed.
Lemma rx_step_fuel n s ds : (rx_size s ds < n)%nat -> rx_next n s ds = rx_step s ds.
Proof. intro N. unfold rx_step. apply (rx_next_fuel (rx_size s ds)); [reflexivity | exact N | unfold rx_fuel, rx_size; lia]. Qed.
Lemma rx_all_fuel k : forall s ds n p, rx_size s ds = k -> (k < n)%nat -> (k < p)%nat -> rx_all n s ds = rx_all p s ds.
Proof.
  induction k as [k IH] using lt_wf_ind. intros s ds n p E N P.
  destruct n as [| n]; [lia |]. destruct p as [| p]; [lia |]. cbn [rx_all].
  destruct (rx_step s ds) as [[i s'] ds'] eqn:R. destruct i as [| [m | e]]; [reflexivity | | reflexivity].
  apply rx_next_size in R. f_equal. apply (IH (rx_size s' ds')); lia.
Qed.
Lemma rx0_size ds : rx_size rx0 ds = (length (concat ds) + length ds)%nat. Proof. reflexivity. Qed.

(** ** Delivery *)

Lemma rx_next_S n s ds : rx_next (S n) s ds =
  if (rx_off s <? length (rx_buf s))%nat then
    match msg_read (skipn (rx_off s) (rx_buf s)) with
    | Err e => (RxItem (Err e), s, ds)
    | Ok m =>
        let s := {| rx_buf := rx_buf s; rx_off := (rx_off s + align4 (Z.to_nat (m_len m)))%nat; rx_multi := negb (Z.land (m_flags m) NLM_F_MULTI =? 0) |} in
        if m_type m =? NLMSG_ERROR then
          match m_error m with
          | None => (RxItem (Err NPanic), s, ds)
          | Some e =>
              if e =? 0 then rx_next n s ds
              else match error_texts (attrs (m_data m)) with Err x => (RxItem (Err x), s, ds) | Ok ts => (RxItem (Err (NOs (- e) ts)), s, ds) end
          end
        else if m_type m =? NLMSG_DONE then (RxEnd, s, ds)
        else (RxItem (Ok m), s, ds)
    end
  else if negb (rx_multi s) then (RxEnd, s, ds)
  else match ds with
       | [] => (RxItem (Err NRecv), s, [])
       | [] :: rest => (RxEnd, s, rest)
       | d :: rest => rx_next n {| rx_buf := firstn (Z.to_nat 4096) d; rx_off := 0; rx_multi := rx_multi s |} rest
       end.
Proof. reflexivity. Qed.

Definition run (s : rx) (ds : list (list Z)) : res nerr (list msg) := rx_all (S (rx_size s ds)) s ds.
Lemma run_eq s ds : run s ds =
  match rx_step s ds with
  | (RxEnd, _, _) => Ok []
  | (RxItem (Err e), _, _) => Err e
  | (RxItem (Ok m), s, ds) => match run s ds with Err e => Err e | Ok r => Ok (m :: r) end
  end.
Proof.
  unfold run at 1. cbn [rx_all]. destruct (rx_step s ds) as [[i s'] ds'] eqn:R. destruct i as [| [m | e]]; [reflexivity | | reflexivity].
  pose proof (rx_next_size _ _ _ _ _ _ R) as D. unfold run.
  rewrite (rx_all_fuel _ s' ds' (rx_size s ds) (S (rx_size s' ds')) eq_refl) by lia. reflexivity.
Qed.
Lemma run_step s ds s' ds' : rx_step s ds = rx_step s' ds' -> run s ds = run s' ds'.
Proof. intro H. rewrite run_eq, H, <- run_eq. reflexivity. Qed.

Lemma land2 f : negb (Z.land f 2 =? 0) = Z.testbit f 1.
Proof.
  assert (E : Z.land f 2 = if Z.testbit f 1 then 2 else 0).
  { apply Z.bits_inj'. intros i Hi. rewrite Z.land_spec. change 2 with (2 ^ 1) at 1. rewrite Z.pow2_bits_eqb by lia.
    destruct (1 =? i) eqn:C.
    - apply Z.eqb_eq in C. subst i. destruct (Z.testbit f 1); reflexivity.
    - rewrite andb_false_r. destruct (Z.testbit f 1); [| rewrite Z.bits_0; reflexivity].
      change 2 with (2 ^ 1). rewrite Z.pow2_bits_eqb by lia. rewrite C. reflexivity. }
  rewrite E. destruct (Z.testbit f 1); reflexivity.
Qed.

Lemma run_datagram ds buf l : forall off mu, Forall amsg_ok l -> (off <= length buf)%nat -> skipn off buf = datagram l ->
  run {| rx_buf := buf; rx_off := off; rx_multi := mu |} ds
  = deliver_one l mu (fun mu => run {| rx_buf := buf; rx_off := length buf; rx_multi := mu |} ds).
Proof.
  induction l as [| m l IH]; intros off mu F OFF E.
  - cbn [deliver_one]. f_equal. f_equal.
    assert (length (skipn off buf) = 0%nat) by (rewrite E; reflexivity). rewrite skipn_length in H. lia.
  - pose proof (Forall_inv F) as M. apply Forall_inv_tail in F. destruct M as (T & FL & LL & B & P & ER).
    unfold datagram in E. cbn [map concat] in E. fold (datagram l) in E.
    assert (LE : length (skipn off buf) = (16 + length (a_data m) + pad4 (length (a_data m)) + length (datagram l))%nat)
      by (rewrite E, !app_length, amsg_bytes_length, P; lia).
    rewrite skipn_length in LE.
    assert (PD : pad4 (16 + length (a_data m)) = pad4 (length (a_data m))) by (apply (pad4_add4 (4 + (4 + (4 + _)))) || idtac; rewrite <- (pad4_add4 (length (a_data m))), <- (pad4_add4 (4 + length (a_data m))), <- (pad4_add4 (4 + (4 + length (a_data m)))), <- (pad4_add4 (4 + (4 + (4 + length (a_data m))))); f_equal; lia).
    assert (RD : msg_read (skipn off buf) = read_as m).
    { rewrite E, <- app_assoc. apply msg_read_amsg; assumption. }
    cbn [deliver_one].
    set (s0 := {| rx_buf := buf; rx_off := off; rx_multi := mu |}).
    set (s1 := {| rx_buf := buf; rx_off := (off + align4 (16 + length (a_data m)))%nat; rx_multi := multi m |}).
    assert (OF1 : (rx_off s1 <= length buf)%nat) by (unfold s1; cbn [rx_off]; rewrite align4_eq, PD; lia).
    assert (SK : skipn (rx_off s1) buf = datagram l).
    { unfold s1. cbn [rx_off]. rewrite <- skipn_skipn', E, align4_eq, PD. apply skipn_app_exact.
      rewrite app_length, amsg_bytes_length, P. lia. }
    assert (ST : rx_step s0 ds =
      if a_type m =? 2 then
        if err_code m =? 0 then rx_step s1 ds
        else match error_texts (attrs (skipn 20 (a_data m))) with Err x => (RxItem (Err x), s1, ds) | Ok ts => (RxItem (Err (NOs (- err_code m) ts)), s1, ds) end
      else if a_type m =? 3 then (RxEnd, s1, ds) else (RxItem (Ok (got m)), s1, ds)).
    { assert (D : (rx_size s1 ds < rx_size s0 ds)%nat)
        by (unfold rx_size, s0, s1; cbn [rx_buf rx_off]; rewrite align4_eq; lia).
      rewrite <- (rx_step_fuel (S (S (rx_size s0 ds)))) by lia. rewrite rx_next_S. cbn [rx_off rx_buf s0].
      replace (off <? length buf)%nat with true by (symmetry; apply Nat.ltb_lt; lia).
      rewrite RD. unfold read_as.
      destruct (a_type m =? 2) eqn:C.
      - apply Z.eqb_eq in C. replace (length (a_data m) <? 20)%nat with false by (symmetry; apply Nat.ltb_ge; auto).
        cbv zeta. cbn [m_len m_type m_flags m_data m_error].
        replace (Z.to_nat (16 + Z.of_nat (length (a_data m)))) with (16 + length (a_data m))%nat by lia.
        unfold NLM_F_MULTI. rewrite land2. change (Z.testbit (a_flags m) 1) with (multi m). fold s1.
        replace (2 =? NLMSG_ERROR) with true by reflexivity. destruct (err_code m =? 0); [| reflexivity].
        apply rx_step_fuel. lia.
      - cbv zeta. unfold got. cbn [m_len m_type m_flags m_data m_error].
        replace (Z.to_nat (16 + Z.of_nat (length (a_data m)))) with (16 + length (a_data m))%nat by lia.
        unfold NLM_F_MULTI. rewrite land2. change (Z.testbit (a_flags m) 1) with (multi m). fold s1.
        unfold NLMSG_ERROR, NLMSG_DONE. rewrite C. reflexivity. }
    destruct (a_type m =? 2).
    + destruct (err_code m =? 0).
      * rewrite (run_step _ _ _ _ ST). apply IH; assumption.
      * rewrite run_eq, ST. destruct (error_texts (attrs (skipn 20 (a_data m)))); reflexivity.
    + destruct (a_type m =? 3).
      * rewrite run_eq, ST. reflexivity.
      * rewrite run_eq, ST. unfold s1. rewrite IH by assumption. reflexivity.
Qed.

Lemma deliver_one_ext l : forall mu k k', (forall b, k b = k' b) -> deliver_one l mu k = deliver_one l mu k'.
Proof.
  induction l as [| m l IH]; intros mu k k' H; [apply H |]. cbn [deliver_one]. rewrite (IH _ k k' H). reflexivity.
Qed.
Lemma run_deliver ds : forall mu buf, Forall datagram_ok ds ->
  run {| rx_buf := buf; rx_off := length buf; rx_multi := mu |} (map datagram ds) = deliver ds mu.
Proof.
  induction ds as [| d ds IH]; intros mu buf F.
  - cbn [map]. rewrite run_eq. unfold rx_step, rx_fuel. cbn [rx_buf rx_off concat length]. rewrite Nat.sub_diag. rewrite rx_next_S.
    cbn [rx_off rx_buf rx_multi]. rewrite Nat.ltb_irrefl. destruct mu; reflexivity.
  - pose proof (Forall_inv F) as [FM LD]. apply Forall_inv_tail in F. cbn [deliver map].
    destruct mu.
    + set (s1 := {| rx_buf := datagram d; rx_off := 0; rx_multi := true |}).
      rewrite (run_step _ _ s1 (map datagram ds)).
      * unfold s1. rewrite (run_datagram (map datagram ds) (datagram d) d 0 true FM); [| lia | reflexivity].
        apply deliver_one_ext. intro b. apply IH, F.
      * assert (D : (rx_size s1 (map datagram ds) < rx_size {| rx_buf := buf; rx_off := length buf; rx_multi := true |} (datagram d :: map datagram ds))%nat)
          by (unfold rx_size, s1; cbn [rx_buf rx_off concat length]; rewrite app_length; lia).
        rewrite <- (rx_step_fuel (S (S (rx_size {| rx_buf := buf; rx_off := length buf; rx_multi := true |} (datagram d :: map datagram ds))))) by lia.
        rewrite rx_next_S. cbn [rx_off rx_buf rx_multi negb]. rewrite Nat.ltb_irrefl.
        rewrite firstn_all2 by lia. fold s1.
        destruct (datagram d) as [| z t] eqn:Ed; [cbn in LD; lia |].
        apply rx_step_fuel. lia.
    + rewrite run_eq. unfold rx_step, rx_fuel. rewrite rx_next_S. cbn [rx_off rx_buf rx_multi negb]. rewrite Nat.ltb_irrefl. reflexivity.
Qed.
Lemma recv_delivers ds : Forall datagram_ok ds -> recv_all (map datagram ds) = deliver ds true.
Proof.
  intro F. unfold recv_all. rewrite <- (run_deliver ds true [] F). reflexivity.
Qed.

(** ** No panic *)

Lemma attr_next_no_panic b b' : attr_next b <> Some (Err NPanic, b').
Proof.
  intro H. destruct (Nat.le_gt_cases 4 (length b)) as [L | L].
  - rewrite attr_next_long in H by exact L. cbv zeta in H. set (n := Z.to_nat (le_dec (slice 0 2 b))) in H.
    destruct (n <? 4)%nat eqn:C1; [discriminate |]. destruct (length (skipn 4 b) <? align4 n - 4)%nat eqn:C2; [discriminate |].
    destruct (length (firstn (align4 n - 4) (skipn 4 b)) <? n - 4)%nat eqn:C3; [| discriminate].
    apply Nat.ltb_lt in C3. apply Nat.ltb_ge in C2. rewrite firstn_length, align4_eq in *. lia.
  - unfold attr_next in H. destruct b; [discriminate |].
    replace (length (z :: b) <? 4)%nat with true in H by (symmetry; apply Nat.ltb_lt; exact L). discriminate.
Qed.
Lemma attrs_no_panic b : ~ In (Err NPanic) (attrs b).
Proof.
  remember (length b) as k eqn:E. revert b E. induction k as [k IH] using lt_wf_ind. intros b E H.
  rewrite attrs_unfold in H. destruct (attr_next b) as [[r b'] |] eqn:A; [| contradiction].
  destruct H as [-> | H]; [exact (attr_next_no_panic _ _ A) |].
  pose proof (attr_next_shrinks _ _ _ A). apply (IH (length b')) in H; [contradiction | lia | reflexivity].
Qed.
Lemma error_texts_no_panic l : ~ In (Err NPanic) l -> error_texts l <> Err NPanic.
Proof.
  induction l as [| [a | e] l IH]; intros N H; cbn [error_texts] in H; [discriminate | |].
  - assert (N' : ~ In (Err NPanic) l) by (intro X; apply N; right; exact X). specialize (IH N').
    destruct (Z.land (at_type a) NLA_TYPE_MASK =? 1); [| contradiction].
    destruct (cstr (at_data a)); [| discriminate]. destruct (error_texts l); [discriminate |]. cbn in H. congruence.
  - apply N. left. congruence.
Qed.
Lemma msg_read_error b m : msg_read b = Ok m -> m_type m = 2 -> m_error m <> None.
Proof.
  unfold msg_read. cbv zeta. destruct (length b <? 16)%nat; [discriminate |].
  destruct (le_dec (slice 0 4 b) <? 16); [discriminate |].
  destruct (Z.of_nat (length b) <? le_dec (slice 0 4 b)); [discriminate |].
  destruct (le_dec (slice 4 2 b) =? NLMSG_ERROR) eqn:C.
  - destruct (_ <? 20)%nat; [discriminate |]. intro H. apply ok_inj in H. subst m. discriminate.
  - intros H T. apply ok_inj in H. subst m. cbn [m_type] in T. rewrite T in C. discriminate.
Qed.
Lemma msg_read_no_panic b : msg_read b <> Err NPanic.
Proof.
  unfold msg_read. cbv zeta. destruct (length b <? 16)%nat; [discriminate |].
  destruct (le_dec (slice 0 4 b) <? 16); [discriminate |].
  destruct (Z.of_nat (length b) <? le_dec (slice 0 4 b)); [discriminate |].
  destruct (le_dec (slice 4 2 b) =? NLMSG_ERROR); [destruct (_ <? 20)%nat; discriminate | discriminate].
Qed.
Lemma rx_next_no_panic n : forall s ds s' ds', rx_next n s ds <> (RxItem (Err NPanic), s', ds').
Proof.
  induction n as [| n IH]; intros s ds s' ds' H; [discriminate |]. cbn [rx_next] in H.
  destruct (rx_off s <? length (rx_buf s))%nat.
  - destruct (msg_read (skipn (rx_off s) (rx_buf s))) as [m | e] eqn:R.
    + destruct (m_type m =? NLMSG_ERROR) eqn:T.
      * apply Z.eqb_eq in T. pose proof (msg_read_error _ _ R T) as NN.
        destruct (m_error m) as [e |]; [| contradiction]. destruct (e =? 0); [apply IH in H; exact H |].
        pose proof (error_texts_no_panic _ (attrs_no_panic (m_data m))) as EN.
        destruct (error_texts (attrs (m_data m))); [discriminate |]. congruence.
      * destruct (m_type m =? NLMSG_DONE); discriminate.
    + pose proof (msg_read_no_panic (skipn (rx_off s) (rx_buf s))) as NP. congruence.
  - destruct (negb (rx_multi s)); [discriminate |]. destruct ds as [| d ds]; [discriminate |]. destruct d; [discriminate |].
    apply IH in H. exact H.
Qed.
Lemma rx_all_no_panic n : forall s ds, rx_all n s ds <> Err NPanic.
Proof.
  induction n as [| n IH]; intros s ds H; [discriminate |]. cbn [rx_all] in H.
  destruct (rx_step s ds) as [[i s'] ds'] eqn:R. destruct i as [| [m | e]]; [discriminate | |].
  - specialize (IH s' ds'). destruct (rx_all n s' ds'); [discriminate |]. cbn [bind] in H. congruence.
  - assert (e = NPanic) by congruence. subst e. exact (rx_next_no_panic _ _ _ _ _ R).
Qed.
Lemma recv_fuel n ds : (length (concat ds) + length ds < n)%nat -> rx_all n rx0 ds = recv_all ds.
Proof.
  intro N. unfold recv_all. apply (rx_all_fuel (rx_size rx0 ds)); [reflexivity | |]; unfold rx_size, rx0; cbn [rx_buf rx_off length]; lia.
Qed.

(** An error leaves the iterator where it was. *)
Lemma rx_error_again n s ds e : (rx_off s < length (rx_buf s))%nat -> msg_read (skipn (rx_off s) (rx_buf s)) = Err e ->
  rx_next (S n) s ds = (RxItem (Err e), s, ds).
Proof. intros L R. rewrite rx_next_S. replace (rx_off s <? length (rx_buf s))%nat with true by (symmetry; apply Nat.ltb_lt; exact L). rewrite R. reflexivity. Qed.
