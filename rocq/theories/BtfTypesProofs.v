(** Proofs about the BTF type codec. *)
From Verif Require Import Base BtfTypes.
Local Open Scope Z_scope.

Definition word_ok (x : Z) : Prop := 0 <= x < 2 ^ 32.
Definition head_ok (h : thead) : Prop := word_ok (h_name h) /\ word_ok (h_info h) /\ word_ok (h_third h).

(** A type the codec can represent: words in range, the kind and the number of
    elements recorded in the info word. *)
Definition btype_ok (t : btype) : Prop :=
  match t with
  | TUnknown => False
  | TFwd h => head_ok h /\ h_third h = 0 /\ info_kind (h_info h) = kind_num KFwd
  | TConst h | TVolatile h | TRestrict h | TPtr h | TTypedef h | TFunc h | TFloat h | TTypeTag h =>
      head_ok h /\ info_kind (h_info h) = kind_num (kind_of t)
  | TInt h d => head_ok h /\ word_ok d /\ info_kind (h_info h) = kind_num KInt
  | TEnum h vs => head_ok h /\ Forall word_ok (pair_words vs) /\ info_kind (h_info h) = kind_num KEnum /\
                  type_vlen (h_info h) = Z.of_nat (length vs)
  | TArray h e i l => head_ok h /\ h_third h = 0 /\ word_ok e /\ word_ok i /\ word_ok l /\
                      info_kind (h_info h) = kind_num KArray
  | TStruct h ms => head_ok h /\ Forall word_ok (member_words ms) /\ info_kind (h_info h) = kind_num KStruct /\
                    type_vlen (h_info h) = Z.of_nat (length ms)
  | TUnion h ms fb => head_ok h /\ Forall word_ok (member_words ms) /\ info_kind (h_info h) = kind_num KUnion /\
                      type_vlen (h_info h) = Z.of_nat (length ms) /\ fb = None
  | TFuncProto h ps => head_ok h /\ Forall word_ok (pair_words ps) /\ info_kind (h_info h) = kind_num KFuncProto /\
                       type_vlen (h_info h) = Z.of_nat (length ps)
  | TVar h l => head_ok h /\ 0 <= l <= 3 /\ info_kind (h_info h) = kind_num KVar
  | TDataSec h es => head_ok h /\ Forall word_ok (entry_words es) /\ info_kind (h_info h) = kind_num KDataSec /\
                     type_vlen (h_info h) = Z.of_nat (length es)
  | TDeclTag h c => head_ok h /\ - 2 ^ 31 <= c < 2 ^ 31 /\ info_kind (h_info h) = kind_num KDeclTag
  | TEnum64 h vs => head_ok h /\ Forall word_ok (triple_words vs) /\ info_kind (h_info h) = kind_num KEnum64 /\
                    type_vlen (h_info h) = Z.of_nat (length vs)
  end.

Lemma words_length ws : length (words ws) = (4 * length ws)%nat.
Proof.
  unfold words. induction ws as [|w ws IH]; [reflexivity|]. cbn [map concat length].
  rewrite app_length, le_enc_length, IH. lia.
Qed.

Lemma words_app a b : words (a ++ b) = words a ++ words b.
Proof. unfold words. now rewrite map_app, concat_app. Qed.

Lemma words_cons x ws : words (x :: ws) = le_enc 4 x ++ words ws.
Proof. reflexivity. Qed.

Lemma unwords_words ws rest : Forall word_ok ws -> unwords (length ws) (words ws ++ rest) = ws.
Proof.
  induction 1 as [|w ws Hw _ IH]; [reflexivity|].
  rewrite words_cons, <- app_assoc. cbn [length unwords].
  rewrite firstn_app_exact by (now rewrite le_enc_length).
  rewrite skipn_app_exact by (now rewrite le_enc_length).
  rewrite IH, le_dec_enc_small; [reflexivity|exact Hw].
Qed.

Lemma unwords_length n l : length (unwords n l) = n.
Proof. revert l. induction n as [|n IH]; intros l; cbn [unwords length]; [reflexivity|now rewrite IH]. Qed.

Lemma unwords_ok n l : bytes_ok l = true -> (4 * n <= length l)%nat -> Forall word_ok (unwords n l).
Proof.
  revert l. induction n as [|n IH]; intros l Hl Hn; cbn [unwords]; constructor.
  - pose proof (le_dec_bound (firstn 4 l) (bytes_ok_firstn 4 l Hl)) as H.
    rewrite firstn_length, Nat.min_l in H by lia. exact H.
  - apply IH; [now apply bytes_ok_skipn|]. rewrite skipn_length. lia.
Qed.

Lemma words_unwords n l : bytes_ok l = true -> (4 * n <= length l)%nat -> words (unwords n l) = firstn (4 * n) l.
Proof.
  revert l. induction n as [|n IH]; intros l Hl Hn; [reflexivity|].
  cbn [unwords]. rewrite words_cons, IH by (try apply bytes_ok_skipn; try rewrite skipn_length; auto; lia).
  pose proof (le_enc_dec (firstn 4 l) (bytes_ok_firstn 4 l Hl)) as H.
  rewrite firstn_length, Nat.min_l in H by lia. rewrite H.
  replace (4 * S n)%nat with (4 + 4 * n)%nat by lia.
  rewrite <- (firstn_skipn 4 l) at 3. rewrite firstn_app.
  rewrite firstn_length, Nat.min_l by lia.
  rewrite (firstn_all2 (firstn 4 l)) by (rewrite firstn_length; lia).
  do 2 f_equal. lia.
Qed.

Lemma read_words_words ws rest : Forall word_ok ws -> read_words (length ws) (words ws ++ rest) = Ok ws.
Proof.
  intros H. unfold read_words. rewrite app_length, words_length.
  destruct (Nat.ltb_spec (4 * length ws + length rest) (4 * length ws)); [lia|].
  now rewrite unwords_words.
Qed.

Lemma read_words_ok n l ws : read_words n l = Ok ws -> (4 * n <= length l)%nat /\ ws = unwords n l.
Proof.
  unfold read_words. destruct (Nat.ltb_spec (length l) (4 * n)); intros E; inversion E; auto.
Qed.

Lemma to_pairs_words l : to_pairs (pair_words l) = l.
Proof. induction l as [|[a b] l IH]; [reflexivity|]. cbn [pair_words flat_map app to_pairs fst snd]. f_equal. exact IH. Qed.
Lemma to_members_words l : to_members (member_words l) = l.
Proof.
  induction l as [|[a b c] l IH]; [reflexivity|]. cbn [member_words flat_map app to_members m_name m_type m_off].
  f_equal. exact IH.
Qed.
Lemma to_entries_words l : to_entries (entry_words l) = l.
Proof.
  induction l as [|[a b c] l IH]; [reflexivity|]. cbn [entry_words flat_map app to_entries de_type de_off de_size].
  f_equal. exact IH.
Qed.
Lemma to_triples_words l : to_triples (triple_words l) = l.
Proof.
  induction l as [|[[a b] c] l IH]; [reflexivity|]. cbn [triple_words flat_map app to_triples fst snd]. f_equal. exact IH.
Qed.

Lemma pair_words_length l : length (pair_words l) = (2 * length l)%nat.
Proof. induction l as [|a l IH]; [reflexivity|]. cbn [pair_words flat_map app length] in *. fold (pair_words l). lia. Qed.
Lemma member_words_length l : length (member_words l) = (3 * length l)%nat.
Proof. induction l as [|a l IH]; [reflexivity|]. cbn [member_words flat_map app length] in *. fold (member_words l). lia. Qed.
Lemma entry_words_length l : length (entry_words l) = (3 * length l)%nat.
Proof. induction l as [|a l IH]; [reflexivity|]. cbn [entry_words flat_map app length] in *. fold (entry_words l). lia. Qed.
Lemma triple_words_length l : length (triple_words l) = (3 * length l)%nat.
Proof. induction l as [|a l IH]; [reflexivity|]. cbn [triple_words flat_map app length] in *. fold (triple_words l). lia. Qed.

Lemma to_pairs_inv n : forall ws, length ws = (2 * n)%nat -> pair_words (to_pairs ws) = ws /\ length (to_pairs ws) = n.
Proof.
  induction n as [|n IH]; intros ws H; [destruct ws; [auto|discriminate]|].
  destruct ws as [|a [|b r]]; cbn [length] in H; try lia. destruct (IH r ltac:(lia)) as [E1 E2].
  cbn [to_pairs pair_words flat_map app fst snd length]. fold (pair_words (to_pairs r)). now rewrite E1, E2.
Qed.
Lemma to_members_inv n : forall ws, length ws = (3 * n)%nat -> member_words (to_members ws) = ws /\ length (to_members ws) = n.
Proof.
  induction n as [|n IH]; intros ws H; [destruct ws; [auto|discriminate]|].
  destruct ws as [|a [|b [|c r]]]; cbn [length] in H; try lia. destruct (IH r ltac:(lia)) as [E1 E2].
  cbn [to_members member_words flat_map app m_name m_type m_off length]. fold (member_words (to_members r)). now rewrite E1, E2.
Qed.
Lemma to_entries_inv n : forall ws, length ws = (3 * n)%nat -> entry_words (to_entries ws) = ws /\ length (to_entries ws) = n.
Proof.
  induction n as [|n IH]; intros ws H; [destruct ws; [auto|discriminate]|].
  destruct ws as [|a [|b [|c r]]]; cbn [length] in H; try lia. destruct (IH r ltac:(lia)) as [E1 E2].
  cbn [to_entries entry_words flat_map app de_type de_off de_size length]. fold (entry_words (to_entries r)). now rewrite E1, E2.
Qed.
Lemma to_triples_inv n : forall ws, length ws = (3 * n)%nat -> triple_words (to_triples ws) = ws /\ length (to_triples ws) = n.
Proof.
  induction n as [|n IH]; intros ws H; [destruct ws; [auto|discriminate]|].
  destruct ws as [|a [|b [|c r]]]; cbn [length] in H; try lia. destruct (IH r ltac:(lia)) as [E1 E2].
  cbn [to_triples triple_words flat_map app fst snd length]. fold (triple_words (to_triples r)). now rewrite E1, E2.
Qed.

Lemma kind_of_num_num k : kind_of_num (kind_num k) = Some k.
Proof. now destruct k. Qed.

Lemma kind_of_num_some n k : kind_of_num n = Some k -> n = kind_num k.
Proof. unfold kind_of_num. intros H. apply find_some in H. destruct H as [_ H]. lia. Qed.

Lemma i32_swrap_id c : - 2 ^ 31 <= c < 2 ^ 31 -> i32 (c mod 2 ^ 32) = c.
Proof.
  intros H. unfold i32, swrap. change (32 - 1) with 31. rewrite Z.mod_mod by lia.
  destruct (Z.ltb_spec (c mod 2 ^ 32) (2 ^ 31)); lia.
Qed.

(** The size a type reports is the number of bytes it writes. *)
Lemma to_bytes_length t : t <> TUnknown -> length (to_bytes t) = type_info_size t.
Proof.
  intros H. destruct t; try congruence; unfold to_bytes; cbn [head_of payload type_info_size];
    rewrite app_length, !words_length; cbn [length];
    rewrite ?pair_words_length, ?member_words_length, ?entry_words_length, ?triple_words_length; lia.
Qed.

Ltac fw := repeat (apply Forall_cons; [try assumption; try (unfold word_ok; lia)|]); try apply Forall_nil.

Lemma read_head h rest :
  head_ok h ->
  read_words 3 (words [h_name h; h_info h; h_third h] ++ rest) = Ok [h_name h; h_info h; h_third h] /\
  skipn 12 (words [h_name h; h_info h; h_third h] ++ rest) = rest.
Proof.
  intros (A & B & C). split.
  - apply (read_words_words [h_name h; h_info h; h_third h]). fw.
  - reflexivity.
Qed.

Lemma head_eta h : {| h_name := h_name h; h_info := h_info h; h_third := h_third h |} = h.
Proof. now destruct h. Qed.

Lemma words_one x : words [x] = le_enc 4 x.
Proof. unfold words. cbn [map concat]. apply app_nil_r. Qed.

Lemma le_enc_mod n x : le_enc n x = le_enc n (x mod 256 ^ Z.of_nat n).
Proof.
  pose proof (le_enc_dec (le_enc n x) (le_enc_bytes_ok n x)) as H. rewrite le_enc_length, le_dec_enc in H. now symmetry.
Qed.

(** Reading back what was written, whatever follows. *)
Theorem read_to_bytes t rest : btype_ok t -> read (to_bytes t ++ rest) = Ok t.
Proof.
  intros H.
  assert (exists h, head_of t = Some h /\ head_ok h /\ info_kind (h_info h) = kind_num (kind_of t)) as (h & Hh & Hok & Hk).
  { destruct t; cbn [btype_ok] in H; try contradiction;
      (eexists; split; [reflexivity|]; split; [apply H|]; cbn [kind_of]; intuition). }
  unfold to_bytes. rewrite Hh. rewrite <- app_assoc.
  destruct (read_head h (words (payload t) ++ rest) Hok) as [E1 E2].
  unfold read. rewrite E1, E2. cbn [bind nth].
  unfold type_kind. rewrite Hk, kind_of_num_num. cbn [bind].
  destruct t; cbn [btype_ok] in H; try contradiction; cbn [kind_of payload head_of] in *;
    injection Hh as ->; rewrite ?head_eta; try reflexivity.
  - (* Fwd *) destruct H as (_ & Hz & _). rewrite <- Hz, head_eta. reflexivity.
  - (* Int *) destruct H as (_ & Hd & _). pose proof (read_words_words [data] rest ltac:(fw)) as R; cbn [length] in R; rewrite R; clear R. reflexivity.
  - (* Enum *) destruct H as (_ & Hw & _ & Hv). rewrite Hv, Nat2Z.id, <- pair_words_length, read_words_words by exact Hw.
    cbn [bind]. now rewrite to_pairs_words.
  - (* Array *) destruct H as (_ & Hz & He & Hi & Hl & _).
    pose proof (read_words_words [elem; index; len] rest ltac:(fw)) as R; cbn [length] in R; rewrite R; clear R. cbn [bind nth].
    rewrite <- Hz, head_eta. reflexivity.
  - (* Struct *) destruct H as (_ & Hw & _ & Hv). rewrite Hv, Nat2Z.id, <- member_words_length, read_words_words by exact Hw.
    cbn [bind]. now rewrite to_members_words.
  - (* Union *) destruct H as (_ & Hw & _ & Hv & ->). rewrite Hv, Nat2Z.id, <- member_words_length, read_words_words by exact Hw.
    cbn [bind]. now rewrite to_members_words.
  - (* FuncProto *) destruct H as (_ & Hw & _ & Hv). rewrite Hv, Nat2Z.id, <- pair_words_length, read_words_words by exact Hw.
    cbn [bind]. now rewrite to_pairs_words.
  - (* Var *) destruct H as (_ & Hl & _). pose proof (read_words_words [linkage] rest ltac:(fw)) as R; cbn [length] in R; rewrite R; clear R.
    cbn [bind nth]. now replace (linkage <=? 3) with true by lia.
  - (* DataSec *) destruct H as (_ & Hw & _ & Hv). rewrite Hv, Nat2Z.id, <- entry_words_length, read_words_words by exact Hw.
    cbn [bind]. now rewrite to_entries_words.
  - (* DeclTag *) destruct H as (_ & Hc & _). rewrite words_one, le_enc_mod, <- words_one.
    pose proof (read_words_words [component mod 256 ^ Z.of_nat 4] rest ltac:((fw; unfold word_ok; change (256 ^ Z.of_nat 4) with (2 ^ 32); lia))) as R; cbn [length] in R; rewrite R; clear R.
    cbn [bind nth]. change (256 ^ Z.of_nat 4) with (2 ^ 32). now rewrite i32_swrap_id.
  - (* Enum64 *) destruct H as (_ & Hw & _ & Hv). rewrite Hv, Nat2Z.id, <- triple_words_length, read_words_words by exact Hw.
    cbn [bind]. now rewrite to_triples_words.
Qed.

Lemma type_vlen_range i : 0 <= type_vlen i < 2 ^ 16.
Proof. unfold type_vlen. change 65535 with (Z.ones 16). rewrite Z.land_ones by lia. apply Z.mod_pos_bound. lia. Qed.

(** Conversely: whatever is read is representable, its bytes fit in the input,
    and writing it gives the bytes read, up to the word that forward
    declarations and arrays do not use. *)
Definition used_third (t : btype) : bool := match t with TFwd _ | TArray _ _ _ _ => false | _ => true end.


Lemma read_close d a b c z n :
  bytes_ok d = true -> (12 + 4 * n <= length d)%nat -> unwords 3 d = [a; b; c] ->
  (z = c -> words [a; b; z] ++ words (unwords n (skipn 12 d)) = firstn (12 + 4 * n) d) /\
  firstn 8 (words [a; b; z] ++ words (unwords n (skipn 12 d))) = firstn 8 d /\
  skipn 12 (words [a; b; z] ++ words (unwords n (skipn 12 d))) = skipn 12 (firstn (12 + 4 * n) d).
Proof.
  intros Hb Hl Eu.
  pose proof (words_unwords 3 d Hb ltac:(lia)) as Ew. rewrite Eu in Ew. change (4 * 3)%nat with 12%nat in Ew.
  assert (words (unwords n (skipn 12 d)) = firstn (4 * n) (skipn 12 d)) as Hwu.
  { apply words_unwords; [now apply bytes_ok_skipn|]. rewrite skipn_length. lia. }
  rewrite Hwu. split; [|split].
  - intros ->. rewrite Ew. rewrite <- (firstn_skipn 12 d) at 3.
    rewrite firstn_app, firstn_length, Nat.min_l by lia.
    rewrite (firstn_all2 (firstn 12 d)) by (rewrite firstn_length; lia). do 2 f_equal. lia.
  - transitivity (firstn 8 (words [a; b])); [reflexivity|].
    transitivity (firstn 8 (firstn 12 d)); [rewrite <- Ew; reflexivity|].
    rewrite firstn_firstn. reflexivity.
  - transitivity (firstn (4 * n) (skipn 12 d)); [reflexivity|].
    rewrite firstn_skipn_comm. reflexivity.
Qed.

Theorem read_ok d t : bytes_ok d = true -> read d = Ok t -> t <> TUnknown ->
  btype_ok t /\ (type_info_size t <= length d)%nat /\
  (used_third t = true -> to_bytes t = firstn (type_info_size t) d) /\
  firstn 8 (to_bytes t) = firstn 8 d /\ skipn 12 (to_bytes t) = skipn 12 (firstn (type_info_size t) d).
Proof.
  intros Hb H Hu. unfold read in H.
  destruct (read_words 3 d) as [ty|] eqn:E3; [|discriminate].
  apply read_words_ok in E3. destruct E3 as [Hl ->]. cbn [bind] in H.
  pose proof (unwords_ok 3 d Hb ltac:(lia)) as Hw.
  pose proof (fun z n H1 => read_close d (nth 0 (unwords 3 d) 0) (nth 1 (unwords 3 d) 0) (nth 2 (unwords 3 d) 0) z n Hb H1 eq_refl) as Hcl.
  assert (exists a b c, unwords 3 d = [a; b; c]) as (a & b & c & Eu) by (do 3 eexists; reflexivity).
  rewrite Eu in *. cbn [nth] in H, Hcl.
  inversion Hw as [|? ? Ha Hw1]; subst. inversion Hw1 as [|? ? Hbb Hw2]; subst. inversion Hw2 as [|? ? Hc _]; subst.
  assert (bytes_ok (skipn 12 d) = true) as Hb' by (apply bytes_ok_skipn, Hb).
  assert (length (skipn 12 d) = length d - 12)%nat as Hld by apply skipn_length.
  destruct (type_kind b) as [k|] eqn:Ek; [|discriminate]. cbn [bind] in H.
  unfold type_kind in Ek. destruct (kind_of_num (info_kind b)) as [k'|] eqn:Ek'; [|discriminate].
  injection Ek as ->. apply kind_of_num_some in Ek'.
  pose proof (type_vlen_range b) as Hv.
  assert (head_ok {| h_name := a; h_info := b; h_third := c |}) as Hho by (split; [|split]; assumption).
  assert (head_ok {| h_name := a; h_info := b; h_third := 0 |}) as Hho0
    by (split; [|split]; try assumption; unfold word_ok; cbn [h_third]; lia).
  (* what remains to be shown, for each number of trailing words *)
  assert (forall t' n z, h_third z = c \/ used_third t' = false -> h_name z = a -> h_info z = b ->
      (4 * n <= length (skipn 12 d))%nat -> head_of t' = Some z -> payload t' = unwords n (skipn 12 d) ->
      type_info_size t' = (12 + 4 * n)%nat -> btype_ok t' ->
      btype_ok t' /\ (type_info_size t' <= length d)%nat /\
      (used_third t' = true -> to_bytes t' = firstn (type_info_size t') d) /\
      firstn 8 (to_bytes t') = firstn 8 d /\ skipn 12 (to_bytes t') = skipn 12 (firstn (type_info_size t') d)) as Fin.
  { intros t' n z H3 H1 H2 H4 H5 H6 H7 H8. unfold to_bytes. rewrite H5, H6, H7, H1, H2.
    destruct (Hcl (h_third z) n ltac:(lia)) as (G1 & G2 & G3).
    split; [exact H8|]. split; [lia|]. split; [|split; assumption].
    intros Hu3. apply G1. destruct H3; congruence. }
  assert (forall n, (4 * n <= length (skipn 12 d))%nat -> Forall word_ok (unwords n (skipn 12 d))) as Hwo
    by (intros; now apply unwords_ok).
  assert (forall t', head_of t' = Some {| h_name := a; h_info := b; h_third := c |} -> payload t' = [] ->
      type_info_size t' = 12%nat -> btype_ok t' ->
      btype_ok t' /\ (type_info_size t' <= length d)%nat /\
      (used_third t' = true -> to_bytes t' = firstn (type_info_size t') d) /\
      firstn 8 (to_bytes t') = firstn 8 d /\ skipn 12 (to_bytes t') = skipn 12 (firstn (type_info_size t') d)) as Fin0.
  { intros t' G1 G2 G3 G4. apply (Fin t' 0%nat {| h_name := a; h_info := b; h_third := c |}); auto; lia. }
  destruct k; cbn [bind] in H;
  try match type of H with bind (read_words ?n _) _ = _ =>
     destruct (read_words n (skipn 12 d)) as [ws|] eqn:E; [|discriminate];
     apply read_words_ok in E; destruct E as [E ->]; cbn [bind] in H end;
  try (apply ok_inj in H; subst t).
  - congruence.
  - (* Int *) apply (Fin _ 1%nat {| h_name := a; h_info := b; h_third := c |}); try reflexivity; [now left|exact E|]. split; [exact Hho|]. split; [|exact Ek'].
    specialize (Hwo 1%nat E). inversion Hwo; assumption.
  - (* Ptr *) apply Fin0; try reflexivity. split; assumption.
  - (* Array *) apply (Fin _ 3%nat {| h_name := a; h_info := b; h_third := 0 |}); try reflexivity; [now right|exact E|]. split; [exact Hho0|]. split; [reflexivity|].
    specialize (Hwo 3%nat E). inversion Hwo as [|? ? W1 V1]; inversion V1 as [|? ? W2 V2]; inversion V2 as [|? ? W3 _]; auto.
  - (* Struct *) set (n := Z.to_nat (type_vlen b)) in *.
    destruct (to_members_inv n (unwords (3 * n) (skipn 12 d)) (unwords_length _ _)) as [I1 I2].
    apply (Fin _ (3 * n)%nat {| h_name := a; h_info := b; h_third := c |}); try reflexivity; [now left|exact E|exact I1|cbn [type_info_size]; rewrite I2; lia|].
    cbn [btype_ok h_info]. rewrite I1, I2. split; [exact Hho|]. split; [apply Hwo, E|]. split; [exact Ek'|lia].
  - (* Union *) set (n := Z.to_nat (type_vlen b)) in *.
    destruct (to_members_inv n (unwords (3 * n) (skipn 12 d)) (unwords_length _ _)) as [I1 I2].
    apply (Fin _ (3 * n)%nat {| h_name := a; h_info := b; h_third := c |}); try reflexivity; [now left|exact E|exact I1|cbn [type_info_size]; rewrite I2; lia|].
    cbn [btype_ok h_info]. rewrite I1, I2. split; [exact Hho|]. split; [apply Hwo, E|]. split; [exact Ek'|]. split; [lia|reflexivity].
  - (* Enum *) set (n := Z.to_nat (type_vlen b)) in *.
    destruct (to_pairs_inv n (unwords (2 * n) (skipn 12 d)) (unwords_length _ _)) as [I1 I2].
    apply (Fin _ (2 * n)%nat {| h_name := a; h_info := b; h_third := c |}); try reflexivity; [now left|exact E|exact I1|cbn [type_info_size]; rewrite I2; lia|].
    cbn [btype_ok h_info]. rewrite I1, I2. split; [exact Hho|]. split; [apply Hwo, E|]. split; [exact Ek'|lia].
  - (* Fwd *) apply (Fin _ 0%nat {| h_name := a; h_info := b; h_third := 0 |}); try reflexivity; [now right|lia|]. split; [exact Hho0|]. split; [reflexivity|exact Ek'].
  - apply Fin0; try reflexivity. split; assumption.
  - apply Fin0; try reflexivity. split; assumption.
  - apply Fin0; try reflexivity. split; assumption.
  - apply Fin0; try reflexivity. split; assumption.
  - apply Fin0; try reflexivity. split; assumption.
  - (* FuncProto *) set (n := Z.to_nat (type_vlen b)) in *.
    destruct (to_pairs_inv n (unwords (2 * n) (skipn 12 d)) (unwords_length _ _)) as [I1 I2].
    apply (Fin _ (2 * n)%nat {| h_name := a; h_info := b; h_third := c |}); try reflexivity; [now left|exact E|exact I1|cbn [type_info_size]; rewrite I2; lia|].
    cbn [btype_ok h_info]. rewrite I1, I2. split; [exact Hho|]. split; [apply Hwo, E|]. split; [exact Ek'|lia].
  - (* Var *) pose proof (Hwo 1%nat E) as W. cbn [unwords nth] in *.
    destruct (Z.leb_spec (le_dec (firstn 4 (skipn 12 d))) 3); [|discriminate]. apply ok_inj in H; subst t.
    apply (Fin _ 1%nat {| h_name := a; h_info := b; h_third := c |}); try reflexivity; [now left|exact E|].
    split; [exact Hho|]. split; [|exact Ek']. apply Forall_inv in W. unfold word_ok in W. lia.
  - (* DataSec *) set (n := Z.to_nat (type_vlen b)) in *.
    destruct (to_entries_inv n (unwords (3 * n) (skipn 12 d)) (unwords_length _ _)) as [I1 I2].
    apply (Fin _ (3 * n)%nat {| h_name := a; h_info := b; h_third := c |}); try reflexivity; [now left|exact E|exact I1|cbn [type_info_size]; rewrite I2; lia|].
    cbn [btype_ok h_info]. rewrite I1, I2. split; [exact Hho|]. split; [apply Hwo, E|]. split; [exact Ek'|lia].
  - apply Fin0; try reflexivity. split; assumption.
  - (* DeclTag *) pose proof (Hwo 1%nat E) as W. cbn [unwords nth] in *.
    destruct (Hcl c 1%nat ltac:(lia)) as (G1 & G2 & G3). cbn [unwords] in G1, G2, G3.
    set (x := le_dec (firstn 4 (skipn 12 d))) in *. pose proof (Forall_inv W) as W1. cbv beta in W1.
    assert (words [i32 x] = words [x]) as Ewx.
    { rewrite !words_one, le_enc_mod. rewrite (le_enc_mod 4 x). f_equal. change (256 ^ Z.of_nat 4) with (2 ^ 32).
      unfold i32, swrap. unfold word_ok in W1. change (32 - 1) with 31. destruct (Z.ltb_spec (x mod 2 ^ 32) (2 ^ 31)); lia. }
    split; [split; [exact Hho|split; [|exact Ek']]|].
    { unfold i32, swrap. unfold word_ok in W1. change (32 - 1) with 31. destruct (Z.ltb_spec (x mod 2 ^ 32) (2 ^ 31)); lia. }
    split; [cbn; lia|]. unfold to_bytes. cbn [used_third head_of payload type_info_size btype_ok h_third h_name h_info].
    rewrite Ewx. split; [intros _; now apply G1|]. split; assumption.
  - apply Fin0; try reflexivity. split; assumption.
  - (* Enum64 *) set (n := Z.to_nat (type_vlen b)) in *.
    destruct (to_triples_inv n (unwords (3 * n) (skipn 12 d)) (unwords_length _ _)) as [I1 I2].
    apply (Fin _ (3 * n)%nat {| h_name := a; h_info := b; h_third := c |}); try reflexivity; [now left|exact E|exact I1|cbn [type_info_size]; rewrite I2; lia|].
    cbn [btype_ok h_info]. rewrite I1, I2. split; [exact Hho|]. split; [apply Hwo, E|]. split; [exact Ek'|lia].
Qed.

(** Reading consumes at least the leading words and never more than the input. *)
Lemma read_size d t : bytes_ok d = true -> read d = Ok t -> (12 <= type_info_size t <= length d)%nat.
Proof.
  intros Hb H. destruct t; try (destruct (read_ok d _ Hb H ltac:(discriminate)) as (_ & Hs & _); split; [cbn; lia|exact Hs]).
  unfold read in H. destruct (read_words 3 d) as [ty|] eqn:E; [|discriminate]. apply read_words_ok in E. cbn. lia.
Qed.

(** * The constructors *)
Lemma info_kind_lor k v : 0 <= k < 32 -> 0 <= v < 2 ^ 16 -> info_kind (Z.lor (Z.shiftl k 24) v) = k.
Proof.
  intros Hk Hv. unfold info_kind. rewrite Z.shiftr_lor.
  rewrite Z.shiftr_shiftl_l by lia. change (24 - 24) with 0. rewrite Z.shiftl_0_r.
  rewrite (Z.shiftr_div_pow2 v) by lia. rewrite Z.div_small by lia. rewrite Z.lor_0_r.
  change 31 with (Z.ones 5). rewrite Z.land_ones by lia. apply Z.mod_small. exact Hk.
Qed.

Lemma type_vlen_lor k v : 0 <= v < 2 ^ 16 -> type_vlen (Z.lor (Z.shiftl k 24) v) = v.
Proof.
  intros Hv. unfold type_vlen. rewrite Z.land_lor_distr_l. change 65535 with (Z.ones 16).
  rewrite !Z.land_ones by lia. rewrite (Z.mod_small v) by exact Hv.
  rewrite Z.shiftl_mul_pow2 by lia. change (2 ^ 24) with (2 ^ 8 * 2 ^ 16). rewrite Z.mul_assoc, Z.mod_mul by lia.
  reflexivity.
Qed.

Lemma lor_word a b : word_ok a -> word_ok b -> word_ok (Z.lor a b).
Proof.
  unfold word_ok. intros Ha Hb. split; [apply Z.lor_nonneg; lia|].
  destruct (Z.eq_dec (Z.lor a b) 0) as [->|Hne]; [lia|].
  apply Z.log2_lt_pow2; [pose proof (proj2 (Z.lor_nonneg a b)); lia|].
  rewrite Z.log2_lor by lia. apply Z.max_lub_lt.
  - destruct (Z.eq_dec a 0) as [->|]; [cbn; lia|]. apply Z.log2_lt_pow2; lia.
  - destruct (Z.eq_dec b 0) as [->|]; [cbn; lia|]. apply Z.log2_lt_pow2; lia.
Qed.

Lemma vlen_bits_range {A} (l : list A) : 0 <= vlen_bits l < 2 ^ 16.
Proof. apply type_vlen_range. Qed.

Lemma vlen_bits_small {A} (l : list A) : (Z.of_nat (length l) < 2 ^ 16) -> vlen_bits l = Z.of_nat (length l).
Proof.
  intros H. unfold vlen_bits. change 65535 with (Z.ones 16). rewrite Z.land_ones by lia.
  unfold u32, wrap. rewrite (Z.mod_small _ (2 ^ 32)) by lia. apply Z.mod_small. lia.
Qed.

Lemma kind_info_word k : word_ok (kind_info k).
Proof. destruct k; vm_compute; split; discriminate || reflexivity. Qed.

Lemma kind_vlen_word {A} k (l : list A) : word_ok (Z.lor (kind_info k) (vlen_bits l)).
Proof.
  apply lor_word; [apply kind_info_word|]. pose proof (vlen_bits_range l). unfold word_ok. lia.
Qed.

Lemma kind_num_range k : 0 <= kind_num k < 32.
Proof. destruct k; cbn; lia. Qed.

Lemma kind_info_kind k : info_kind (kind_info k) = kind_num k.
Proof. destruct k; reflexivity. Qed.

Lemma new_struct_ok name ms size : word_ok name -> Forall word_ok (member_words ms) -> word_ok size ->
  Z.of_nat (length ms) < 2 ^ 16 -> btype_ok (new_struct name ms size).
Proof.
  intros H1 H2 H3 H4. cbn [new_struct btype_ok]. unfold new_struct. cbn [h_info].
  split; [split; [exact H1|split; [apply kind_vlen_word|exact H3]]|]. split; [exact H2|].
  split; [apply info_kind_lor; [apply kind_num_range|apply vlen_bits_range]|].
  unfold kind_info. rewrite type_vlen_lor by apply vlen_bits_range. now apply vlen_bits_small.
Qed.

Lemma new_union_ok name size ms : word_ok name -> Forall word_ok (member_words ms) -> word_ok size ->
  Z.of_nat (length ms) < 2 ^ 16 -> btype_ok (new_union name size ms None).
Proof.
  intros H1 H2 H3 H4. unfold new_union. cbn [btype_ok h_info].
  split; [split; [exact H1|split; [apply kind_vlen_word|exact H3]]|]. split; [exact H2|].
  split; [apply info_kind_lor; [apply kind_num_range|apply vlen_bits_range]|].
  unfold kind_info. rewrite type_vlen_lor by apply vlen_bits_range. split; [now apply vlen_bits_small|reflexivity].
Qed.

Lemma new_datasec_ok name es size : word_ok name -> Forall word_ok (entry_words es) -> word_ok size ->
  Z.of_nat (length es) < 2 ^ 16 -> btype_ok (new_datasec name es size).
Proof.
  intros H1 H2 H3 H4. unfold new_datasec. cbn [btype_ok h_info].
  split; [split; [exact H1|split; [apply kind_vlen_word|exact H3]]|]. split; [exact H2|].
  split; [apply info_kind_lor; [apply kind_num_range|apply vlen_bits_range]|].
  unfold kind_info. rewrite type_vlen_lor by apply vlen_bits_range. now apply vlen_bits_small.
Qed.

Lemma new_func_proto_ok ps ret : Forall word_ok (pair_words ps) -> word_ok ret ->
  Z.of_nat (length ps) < 2 ^ 16 -> btype_ok (new_func_proto ps ret).
Proof.
  intros H2 H3 H4. unfold new_func_proto. cbn [btype_ok h_info].
  split; [split; [unfold word_ok; cbn; lia|split; [apply kind_vlen_word|exact H3]]|]. split; [exact H2|].
  split; [apply info_kind_lor; [apply kind_num_range|apply vlen_bits_range]|].
  unfold kind_info. rewrite type_vlen_lor by apply vlen_bits_range. now apply vlen_bits_small.
Qed.

Lemma info_flagged k v : 0 <= k < 32 -> 0 <= v < 2 ^ 16 ->
  info_kind (Z.lor (Z.lor (Z.shiftl k 24) v) (2 ^ 31)) = k /\
  type_vlen (Z.lor (Z.lor (Z.shiftl k 24) v) (2 ^ 31)) = v.
Proof.
  intros Hk Hv. split.
  - unfold info_kind. rewrite Z.shiftr_lor, Z.land_lor_distr_l.
    change (Z.land (Z.shiftr (2 ^ 31) 24) 31) with 0. rewrite Z.lor_0_r. now apply info_kind_lor.
  - unfold type_vlen. rewrite Z.land_lor_distr_l. change (Z.land (2 ^ 31) 65535) with 0. rewrite Z.lor_0_r.
    now apply type_vlen_lor.
Qed.

Lemma bit31_word : word_ok (2 ^ 31).
Proof. unfold word_ok. lia. Qed.

Lemma new_enum_ok name signed vs : word_ok name -> Forall word_ok (pair_words vs) ->
  Z.of_nat (length vs) < 2 ^ 16 -> btype_ok (new_enum name signed vs).
Proof.
  intros H1 H2 H4. unfold new_enum. cbn [btype_ok h_info h_name].
  destruct (info_flagged (kind_num KEnum) (vlen_bits vs) (kind_num_range _) (vlen_bits_range vs)) as [F1 F2].
  fold (kind_info KEnum) in F1, F2.
  split; [split; [exact H1|split; [|unfold word_ok; cbn; lia]]|].
  { cbn [h_info]. destruct signed; [apply lor_word; [|exact bit31_word]|]; apply kind_vlen_word. }
  split; [exact H2|]. destruct signed.
  - split; [exact F1|]. rewrite F2. now apply vlen_bits_small.
  - split; [apply info_kind_lor; [apply kind_num_range|apply vlen_bits_range]|].
    unfold kind_info. rewrite type_vlen_lor by apply vlen_bits_range. now apply vlen_bits_small.
Qed.

Lemma new_enum64_ok name signed vs : word_ok name -> Forall word_ok (triple_words vs) ->
  Z.of_nat (length vs) < 2 ^ 16 -> btype_ok (new_enum64 name signed vs).
Proof.
  intros H1 H2 H4. unfold new_enum64. cbn [btype_ok h_info h_name].
  destruct (info_flagged (kind_num KEnum64) (vlen_bits vs) (kind_num_range _) (vlen_bits_range vs)) as [F1 F2].
  fold (kind_info KEnum64) in F1, F2.
  split; [split; [exact H1|split; [|unfold word_ok; cbn; lia]]|].
  { cbn [h_info]. destruct signed; [|apply kind_vlen_word].
    rewrite <- Z.lor_assoc, (Z.lor_comm (2 ^ 31)), Z.lor_assoc. apply lor_word; [|exact bit31_word]. apply kind_vlen_word. }
  split; [exact H2|]. destruct signed.
  - rewrite <- Z.lor_assoc, (Z.lor_comm (2 ^ 31)), Z.lor_assoc.
    split; [exact F1|]. rewrite F2. now apply vlen_bits_small.
  - split; [apply info_kind_lor; [apply kind_num_range|apply vlen_bits_range]|].
    unfold kind_info. rewrite type_vlen_lor by apply vlen_bits_range. now apply vlen_bits_small.
Qed.

Lemma new_int_ok name size enc off : word_ok name -> word_ok size -> btype_ok (new_int name size enc off).
Proof.
  intros H1 H2. unfold new_int. cbn [btype_ok h_info]. split; [split; [exact H1|split; [apply kind_info_word|exact H2]]|].
  split; [|apply kind_info_kind].
  assert (forall x n, 0 <= n -> 0 <= Z.land x (Z.ones n) < 2 ^ n) as L
    by (intros x n Hn; rewrite Z.land_ones by exact Hn; apply Z.mod_pos_bound; lia).
  pose proof (L enc 4 ltac:(lia)) as A. pose proof (L off 8 ltac:(lia)) as B. pose proof (L (u32 (size * 8)) 8 ltac:(lia)) as C.
  change (Z.ones 4) with 15 in A. change (Z.ones 8) with 255 in B, C.
  apply lor_word; [apply lor_word|]; unfold word_ok; rewrite ?Z.shiftl_mul_pow2 by lia; lia.
Qed.

Lemma small_new_ok :
  (forall name t, word_ok name -> word_ok t -> btype_ok (new_typedef name t)) /\
  (forall t, word_ok t -> btype_ok (new_const t)) /\
  (forall name t, word_ok name -> word_ok t -> btype_ok (new_ptr name t)) /\
  (forall name t, word_ok name -> word_ok t -> btype_ok (new_float name t)) /\
  (forall name t, word_ok name -> word_ok t -> btype_ok (new_typetag name t)) /\
  (forall name t l, word_ok name -> word_ok t -> btype_ok (new_func name t l)) /\
  (forall name t l, word_ok name -> word_ok t -> 0 <= l <= 3 -> btype_ok (new_var name t l)) /\
  (forall name t c, word_ok name -> word_ok t -> - 2 ^ 31 <= c < 2 ^ 31 -> btype_ok (new_decl_tag name t c)).
Proof.
  assert (forall k n t, word_ok n -> word_ok t -> head_ok {| h_name := n; h_info := kind_info k; h_third := t |}) as Hk.
  { intros k n t Hn Ht. split; [exact Hn|]. split; [exact (kind_info_word k)|exact Ht]. }
  assert (word_ok 0) as H0 by (unfold word_ok; lia).
  split; [intros name t Hn Ht; exact (conj (Hk KTypedef name t Hn Ht) (kind_info_kind KTypedef))|].
  split; [intros t Ht; exact (conj (Hk KConst 0 t H0 Ht) (kind_info_kind KConst))|].
  split; [intros name t Hn Ht; exact (conj (Hk KPtr name t Hn Ht) (kind_info_kind KPtr))|].
  split; [intros name t Hn Ht; exact (conj (Hk KFloat name t Hn Ht) (kind_info_kind KFloat))|].
  split; [intros name t Hn Ht; exact (conj (Hk KTypeTag name t Hn Ht) (kind_info_kind KTypeTag))|].
  split.
  { intros name t l Hn Ht. pose proof (type_vlen_range l) as R. unfold type_vlen in R.
    split; [split; [exact Hn|split; [|exact Ht]]|].
    - cbn [h_info new_func]. apply lor_word; [apply kind_info_word|]. unfold word_ok. lia.
    - exact (info_kind_lor (kind_num KFunc) (Z.land l 65535) (kind_num_range KFunc) R). }
  split; [intros name t l Hn Ht Hl; exact (conj (Hk KVar name t Hn Ht) (conj Hl (kind_info_kind KVar)))|].
  intros name t c Hn Ht Hc. exact (conj (Hk KDeclTag name t Hn Ht) (conj Hc (kind_info_kind KDeclTag))).
Qed.

(** The limit of 65535 elements is real: a longer list is not read back. *)
Lemma read_struct_short d h ms : read d = Ok (TStruct h ms) -> Z.of_nat (length ms) < 2 ^ 16.
Proof.
  unfold read. destruct (read_words 3 d) as [ty|]; [|discriminate]. cbn [bind].
  destruct (type_kind (nth 1 ty 0)) as [k|]; [|discriminate]. cbn [bind]. set (n := Z.to_nat (type_vlen (nth 1 ty 0))).
  assert (Z.of_nat n < 2 ^ 16) as Hn by (unfold n; pose proof (type_vlen_range (nth 1 ty 0)); lia).
  destruct k; try discriminate;
  try match goal with |- bind (read_words ?k ?l) _ = _ -> _ =>
     destruct (read_words k l) as [ws|] eqn:E; [|discriminate];
     apply read_words_ok in E; destruct E as [E ->]; cbn [bind] end; try discriminate.
  - intros H. apply ok_inj in H. assert (ms = to_members (unwords (3 * n) (skipn 12 d))) as -> by congruence.
    now destruct (to_members_inv n (unwords (3 * n) (skipn 12 d)) (unwords_length _ _)) as [_ ->].
  - destruct (_ <=? 3); discriminate.
Qed.
