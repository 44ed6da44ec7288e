(** Proofs about sections, licences, versions, instructions and functions. *)
From Coq Require Import String.
From Verif Require Import Base Text Insn LinkModel BtfTypes BtfModel ObjModel ObjSpec.
Local Open Scope Z_scope.

Lemma starts_begins p n : starts p n = true <-> begins p n.
Proof.
  revert n. induction p as [|x p IH]; intros n.
  - split; [intros _; exists n; reflexivity|reflexivity].
  - destruct n as [|y n]; cbn [starts].
    + split; [discriminate|intros [r H]; discriminate].
    + rewrite andb_true_iff, Z.eqb_eq, IH. split.
      * intros [-> [r ->]]. exists r. reflexivity.
      * intros [r H]. cbn in H. injection H as -> ->. split; [reflexivity|exists r; reflexivity].
Qed.

(** Each kind's name test, in any order. *)
Lemma starts_excl p q n : starts p n = true -> starts q n = true -> starts p q = true \/ starts q p = true.
Proof.
  revert q n. induction p as [|x p IH]; intros q n; [now left|]. destruct q as [|y q]; [now right|].
  destruct n as [|z n]; cbn [starts]; [discriminate|]. rewrite !andb_true_iff, !Z.eqb_eq.
  intros [-> H1] [-> H2]. destruct (IH q n H1 H2); auto.
Qed.
Definition prefix_of (k : skind) : option (list Z) :=
  match k with
  | KLicense => Some (txt "license") | KVersion => Some (txt "version") | KMaps => Some (txt "maps")
  | KBtfMaps => Some (txt ".maps") | KTextS => Some (txt ".text") | KBss => Some (txt ".bss")
  | KDataS => Some (txt ".data") | KRodata => Some (txt ".rodata") | _ => None
  end.

Lemma from_name_prefix n k p : prefix_of k = Some p -> (from_name n = k <-> begins p n).
Proof.
  intros P. rewrite <- starts_begins. unfold from_name. split.
  - intros H. destruct k; try discriminate P; unfold prefix_of in P; apply some_inj in P; subst p;
    repeat (match type of H with (if ?c then _ else _) = _ => destruct c eqn:? end; try discriminate H); first [reflexivity|assumption].
  - intros H. destruct k; try discriminate P; unfold prefix_of in P; apply some_inj in P; subst p.
    all: repeat match goal with
      | |- (if ?c then _ else _) = _ => destruct c eqn:?; [|]
      end; try reflexivity; try congruence;
      match goal with A : starts ?a ?m = true, B : starts ?b ?m = true |- _ =>
        destruct (starts_excl a b m A B) as [E|E]; vm_compute in E; discriminate E end.
Qed.

Lemma from_name_btf n : (from_name n = KBtf <-> n = txt ".BTF") /\ (from_name n = KBtfExt <-> n = txt ".BTF.ext").
Proof.
  split; (split; [|intros ->; vm_compute; reflexivity]); unfold from_name; intros H;
    repeat (match type of H with (if ?c then _ else _) = _ => destruct c eqn:? end; try discriminate H);
    now apply str_eqb_eq.
Qed.

Lemma from_name_undefined n : from_name n = KUndefined <->
  ((forall k p, prefix_of k = Some p -> ~ begins p n) /\ n <> txt ".BTF" /\ n <> txt ".BTF.ext").
Proof.
  destruct (from_name_btf n) as [B1 B2]. split.
  - intros H. split.
    + intros k p P X. apply (from_name_prefix n k p P) in X. rewrite H in X. subst k. discriminate P.
    + split; intros X; [apply B1 in X|apply B2 in X]; congruence.
  - intros (H & N1 & N2). destruct (from_name n) eqn:E; try reflexivity; exfalso;
      try (match type of E with _ = ?k =>
             destruct (prefix_of k) as [p|] eqn:P; [apply (H k p P); now apply (from_name_prefix n k p P)|] end; discriminate P).
    + unfold from_name in E.
      repeat (match type of E with (if ?c then _ else _) = _ => destruct c eqn:? end; try discriminate E).
    + apply N1. now apply B1.
    + apply N2. now apply B2.
Qed.

Lemma section_kind_spec n exec size : section_kind n exec size =
  match from_name n with
  | KUndefined => if exec && (0 <? size) then KProgram else KUndefined
  | k => k
  end.
Proof. reflexivity. Qed.

(** Licence and version. *)
Lemma cstr_spec d s : cstr d = Ok s <-> d = s ++ [0] /\ ~ In 0 s.
Proof.
  revert s. induction d as [|x d IH]; intros s.
  - cbn. split; [discriminate|]. intros [E _]. destruct s; discriminate.
  - destruct d as [|y d].
    + cbn [cstr]. destruct (Z.eqb_spec x 0) as [->|N]; split.
      * intros E. apply ok_inj in E. subst s. split; [reflexivity|intros []].
      * intros [E _]. destruct s as [|a [|b s]]; [reflexivity|discriminate|discriminate].
      * discriminate.
      * intros [E _]. destruct s as [|a [|b s]]; [|discriminate|discriminate]. cbn in E. congruence.
    + change (cstr (x :: y :: d)) with (if x =? 0 then Err OLicense else bind (cstr (y :: d)) (fun s => Ok (x :: s))).
      destruct (Z.eqb_spec x 0) as [->|N].
      * split; [discriminate|]. intros [E H]. exfalso. destruct s as [|a s]; [discriminate|]. cbn in E. injection E as <- _. apply H. now left.
      * split.
        { destruct (cstr (y :: d)) as [t|e] eqn:E; cbn [bind]; [|discriminate]. intros X. apply ok_inj in X. subst s.
          destruct (IH t) as [IH1 _]. destruct (IH1 eq_refl) as [E1 E2]. split; [cbn; now rewrite <- E1|].
          intros [X|X]; [congruence|now apply E2]. }
        { intros [E H]. destruct s as [|a s]; [discriminate|]. cbn in E. injection E as <- E.
          destruct (IH s) as [_ IH2]. rewrite IH2; [reflexivity|]. split; [exact E|]. intros X. apply H. now right. }
Qed.
Lemma license_spec d s : parse_license d = Ok s <-> d = s ++ [0] /\ s <> [] /\ ~ In 0 s.
Proof.
  unfold parse_license. destruct (Nat.ltb_spec (length d) 2) as [L|L].
  - split; [discriminate|]. intros (-> & N & _). rewrite app_length in L. cbn in L. destruct s; [congruence|cbn in L; lia].
  - rewrite cstr_spec. split; [|tauto]. intros [-> H]. split; [reflexivity|]. split; [|exact H].
    intros ->. cbn in L. lia.
Qed.

Definition be_enc (be : bool) (v : Z) : list Z := if be then rev (le_enc 4 v) else le_enc 4 v.
Lemma version_spec be v : 0 <= v < 2 ^ 32 ->
  parse_version be (be_enc be v) = Ok (if v =? 2 ^ 32 - 2 then None else Some v).
Proof.
  intros H. unfold parse_version, be_enc.
  assert (length (if be then rev (le_enc 4 v) else le_enc 4 v) = 4)%nat as -> by (destruct be; [rewrite rev_length|]; apply le_enc_length).
  cbn [Nat.eqb]. assert (le_dec (if be then rev (if be then rev (le_enc 4 v) else le_enc 4 v) else if be then rev (le_enc 4 v) else le_enc 4 v) = v) as ->.
  { destruct be; [rewrite rev_involutive|]; apply le_dec_enc_small; exact H. }
  reflexivity.
Qed.
Lemma version_length be d r : parse_version be d = Ok r -> length d = 4%nat.
Proof. unfold parse_version. destruct (Nat.eqb_spec (length d) 4); [auto|discriminate]. Qed.

(** Instructions. *)
Lemma i16_wrap x : - 2 ^ 15 <= x < 2 ^ 15 -> i16 (x mod 2 ^ 16) = x.
Proof.
  intros H. unfold i16, swrap. cbv zeta. change (16 - 1) with 15. change (2 ^ 15) with 32768 in *. change (2 ^ 16) with 65536 in *.
  destruct (Z.ltb_spec ((x mod 65536) mod 65536) 32768); lia.
Qed.
Lemma i32_wrap x : - 2 ^ 31 <= x < 2 ^ 31 -> i32 (x mod 2 ^ 32) = x.
Proof.
  intros H. unfold i32, swrap. cbv zeta. change (32 - 1) with 31. change (2 ^ 31) with 2147483648 in *. change (2 ^ 32) with 4294967296 in *.
  destruct (Z.ltb_spec ((x mod 4294967296) mod 4294967296) 2147483648); lia.
Qed.
Lemma enc_insn_length i : length (enc_insn i) = 8%nat.
Proof. unfold enc_insn. rewrite !app_length, !le_enc_length. reflexivity. Qed.
Lemma dec_enc_insn i : insn_ok i -> dec_insn (enc_insn i) = i.
Proof.
  intros (H1 & H2 & H3 & H4 & H5). unfold dec_insn, enc_insn.
  rewrite (slice_app_exact' 2 2 [code i; dst i + 16 * src i]) by (rewrite ?le_enc_length; reflexivity).
  assert (slice 4 4 ([code i; dst i + 16 * src i] ++ le_enc 2 (off i mod 2 ^ 16) ++ le_enc 4 (imm i mod 2 ^ 32)) = le_enc 4 (imm i mod 2 ^ 32)) as ->.
  { set (m := le_enc 4 (imm i mod 2 ^ 32)).
    pose proof (slice_app_exact' 4 4 ([code i; dst i + 16 * src i] ++ le_enc 2 (off i mod 2 ^ 16)) m []) as S.
    rewrite app_nil_r, <- app_assoc in S. apply S; [rewrite app_length, le_enc_length; reflexivity|unfold m; now rewrite le_enc_length]. }
  rewrite !le_dec_enc_small by (apply Z.mod_pos_bound; reflexivity). rewrite i16_wrap, i32_wrap by assumption.
  cbn [app nth]. destruct i as [c d s o m]. cbn [code dst src off imm] in *. f_equal.
  - change 15 with (Z.ones 4). rewrite Z.land_ones by lia. change (2 ^ 4) with 16. lia.
  - rewrite Z.shiftr_div_pow2 by lia. change (2 ^ 4) with 16. lia.
Qed.
Lemma dec_insns_enc l r : Forall insn_ok l -> dec_insns (length l) (flat_map enc_insn l ++ r) = l.
Proof.
  induction 1 as [|i l Hi _ IH]; [reflexivity|]. cbn [length dec_insns flat_map]. rewrite <- app_assoc.
  rewrite firstn_app_exact by (now rewrite enc_insn_length). rewrite skipn_app_exact by (now rewrite enc_insn_length).
  now rewrite dec_enc_insn, IH.
Qed.
Lemma flat_enc_length l : length (flat_map enc_insn l) = (8 * length l)%nat.
Proof. induction l as [|i l IH]; [reflexivity|]. cbn [flat_map length]. rewrite app_length, enc_insn_length, IH. lia. Qed.
Lemma copy_enc l : Forall insn_ok l -> copy_instructions (flat_map enc_insn l) = Ok l.
Proof.
  intros H. unfold copy_instructions. rewrite flat_enc_length.
  replace ((8 * length l) mod 8)%nat with 0%nat by (rewrite Nat.mul_comm; symmetry; apply Nat.mod_mul; lia).
  replace ((8 * length l) / 8)%nat with (length l) by (rewrite Nat.mul_comm; symmetry; apply Nat.div_mul; lia).
  cbn [Nat.eqb]. rewrite <- (app_nil_r (flat_map _ _)). now rewrite dec_insns_enc.
Qed.
Lemma dec_insns_length n d : length (dec_insns n d) = n.
Proof. revert d. induction n as [|n IH]; intros d; cbn [dec_insns length]; [reflexivity|now rewrite IH]. Qed.
Lemma copy_length d ins : copy_instructions d = Ok ins -> length d = (8 * length ins)%nat.
Proof.
  unfold copy_instructions. destruct (Nat.eqb_spec (length d mod 8) 0) as [E|]; [|discriminate]. intros H. apply ok_inj in H. subst ins.
  rewrite dec_insns_length. pose proof (Nat.div_mod (length d) 8). lia.
Qed.
Lemma dec_insns_app n m d e : length d = (8 * n)%nat -> dec_insns (n + m) (d ++ e) = dec_insns n d ++ dec_insns m e.
Proof.
  revert d. induction n as [|n IH]; intros d L.
  - destruct d; [reflexivity|discriminate].
  - cbn [Nat.add dec_insns app]. rewrite firstn_app, skipn_app.
    replace (8 - length d)%nat with 0%nat by lia. rewrite firstn_O, app_nil_r. change (skipn 0 e) with e. f_equal. apply IH. rewrite skipn_length. lia.
Qed.
Lemma copy_app d e a b : copy_instructions d = Ok a -> copy_instructions e = Ok b -> copy_instructions (d ++ e) = Ok (a ++ b).
Proof.
  intros H1 H2. pose proof (copy_length _ _ H1) as L1. pose proof (copy_length _ _ H2) as L2.
  unfold copy_instructions in *. rewrite app_length, L1, L2.
  replace ((8 * length a + 8 * length b) mod 8)%nat with 0%nat by (replace (8 * length a + 8 * length b)%nat with ((length a + length b) * 8)%nat by lia; symmetry; apply Nat.mod_mul; lia).
  replace ((8 * length a + 8 * length b) / 8)%nat with (length a + length b)%nat by (replace (8 * length a + 8 * length b)%nat with ((length a + length b) * 8)%nat by lia; symmetry; apply Nat.div_mul; lia).
  cbn [Nat.eqb]. rewrite dec_insns_app by exact L1. f_equal. f_equal.
  - destruct (_ =? 0)%nat; [|discriminate]. apply ok_inj in H1. rewrite <- H1 at 2. rewrite L1. f_equal. rewrite Nat.mul_comm. symmetry. apply Nat.div_mul. lia.
  - destruct (length e mod 8 =? 0)%nat; [|discriminate]. apply ok_inj in H2. rewrite <- H2 at 2. rewrite L2. f_equal. rewrite Nat.mul_comm. symmetry. apply Nat.div_mul. lia.
Qed.
