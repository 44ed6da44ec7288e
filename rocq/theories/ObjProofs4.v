(** Proofs about helper fallbacks and map definitions. *)
From Coq Require Import String Permutation.
From Verif Require Import Base Text Insn LinkModel BtfTypes BtfModel ObjModel ObjSpec ObjProofs ObjProofs3.
Local Open Scope Z_scope.

Lemma patch_errors syms gs : forall maps e, patch_map_data syms maps gs = Err e -> e = OSymbolNotFound \/ e = OGlobal \/ e = OMapNotFound.
Proof.
  induction gs as [|[[n d] must] gs IH]; intros maps e; cbn [patch_map_data]; [discriminate|].
  destruct (patch_one syms maps n d must) as [m|x] eqn:P; cbn [bind]; [apply IH|]. intros H. injection H as ->. revert P. unfold patch_one.
  repeat match goal with |- context[match ?c with _ => _ end] => destruct c end; intros H; try discriminate H; injection H as <-; auto.
Qed.

(** Helper fallbacks. *)
Lemma fallback_probe x : (if insn_is_helper_call x then fallback_helper (imm x) else None) =
  if is_probe_call x then Some (if (imm x =? 112) || (imm x =? 113) then 4 else 45) else None.
Proof.
  unfold is_probe_call, fallback_helper. destruct (insn_is_helper_call x); [|reflexivity]. cbn [andb].
  destruct (imm x =? 112), (imm x =? 113), (imm x =? 114), (imm x =? 115); reflexivity.
Qed.
(** State after looking at [l]: asked once if some call needs the answer. *)
Definition asked (probe : bool) (any : bool) (st : option bool * nat) : option bool * nat :=
  match fst st with Some _ => st | None => if any then (Some probe, S (snd st)) else st end.
Definition st_ok (probe : bool) (st : option bool * nat) : Prop := fst st = None \/ fst st = Some probe.
Lemma asked_ok probe any st : st_ok probe st -> st_ok probe (asked probe any st).
Proof. unfold st_ok, asked. intros [H|H]; rewrite H; [|now right]. destruct any; [now right|now left]. Qed.
Lemma asked_asked probe a b st : asked probe b (asked probe a st) = asked probe (a || b) st.
Proof. unfold asked. destruct st as [[x|] n], a, b; reflexivity. Qed.
Lemma sanitize_ins_spec probe l : forall st, st_ok probe st ->
  sanitize_ins probe st l = (map (fun x => if probe then x else legacy_call x) l, asked probe (existsb is_probe_call l) st).
Proof.
  induction l as [|x l IH]; intros st S; cbn [sanitize_ins map existsb].
  - unfold asked. destruct (fst st); reflexivity.
  - rewrite fallback_probe. destruct (is_probe_call x) eqn:P; cbv zeta.
    + assert (match fst st with Some _ => st | None => (Some probe, Datatypes.S (snd st)) end = asked probe true st) as -> by reflexivity.
      rewrite IH by (now apply asked_ok). rewrite asked_asked. cbn [fst snd orb]. f_equal.
      assert (match fst (asked probe true st) with Some b => b | None => probe end = probe) as ->.
      { destruct (asked_ok probe true st S) as [H|H]; now rewrite H. }
      unfold legacy_call. rewrite P. reflexivity.
    + rewrite IH by assumption. cbn [fst snd orb]. f_equal. unfold legacy_call. rewrite P. now destruct probe.
Qed.
Lemma sanitize_funs_spec probe fs : forall st, st_ok probe st ->
  sanitize_funs probe st fs =
  (map (fun f => with_insns f (map (fun x => if probe then x else legacy_call x) (f_ins f))) fs,
   asked probe (existsb (fun f => existsb is_probe_call (f_ins f)) fs) st).
Proof.
  induction fs as [|f fs IH]; intros st S; cbn [sanitize_funs map existsb].
  - unfold asked. destruct (fst st); reflexivity.
  - rewrite sanitize_ins_spec by assumption. cbv zeta. cbn [fst snd]. rewrite IH by (now apply asked_ok). cbn [fst snd].
    now rewrite asked_asked.
Qed.
Lemma sanitize_spec probe fs :
  fst (sanitize_functions probe fs) = map (fun f => with_insns f (map (fun x => if probe then x else legacy_call x) (f_ins f))) fs.
Proof. unfold sanitize_functions. rewrite sanitize_funs_spec by (now left). reflexivity. Qed.
Lemma sanitize_probes probe fs :
  snd (snd (sanitize_functions probe fs)) = (if existsb (fun f => existsb is_probe_call (f_ins f)) fs then 1 else 0)%nat.
Proof. unfold sanitize_functions. rewrite sanitize_funs_spec by (now left). cbn [snd]. unfold asked. cbn [fst snd]. now destruct (existsb _ fs). Qed.
Lemma with_insns_id f : with_insns f (f_ins f) = f.
Proof. destruct f; reflexivity. Qed.
Lemma map_if_id l : map (fun x : insn => x) l = l.
Proof. apply map_id. Qed.
Lemma sanitize_supported fs : fst (sanitize_functions true fs) = fs.
Proof.
  rewrite sanitize_spec. rewrite <- (map_id fs) at 2. apply map_ext. intros f. rewrite map_if_id. apply with_insns_id.
Qed.
Lemma legacy_no_probe x : is_probe_call (legacy_call x) = false.
Proof.
  unfold legacy_call. destruct (is_probe_call x) eqn:P; [|exact P]. unfold is_probe_call.
  assert (forall h, insn_is_helper_call (set_imm h x) = insn_is_helper_call x) as E by (intros; reflexivity). rewrite E.
  destruct ((imm x =? 112) || (imm x =? 113)); cbn [set_imm imm]; cbn; now rewrite andb_false_r.
Qed.
Lemma legacy_other x : is_probe_call x = false -> legacy_call x = x.
Proof. unfold legacy_call. now intros ->. Qed.
Lemma legacy_fields x : code (legacy_call x) = code x /\ dst (legacy_call x) = dst x /\ src (legacy_call x) = src x /\ off (legacy_call x) = off x.
Proof. unfold legacy_call. destruct (is_probe_call x); [|auto]. cbn. auto. Qed.
Lemma sanitize_again fs : sanitize_functions false (fst (sanitize_functions false fs)) = (fst (sanitize_functions false fs), (None, O)).
Proof.
  rewrite sanitize_spec. unfold sanitize_functions. rewrite sanitize_funs_spec by (now left). f_equal.
  - rewrite map_map. apply map_ext. intros f. cbn [with_insns f_ins]. rewrite map_map. unfold with_insns. cbn [f_sec f_addr f_secoff f_ins f_finfo f_linfo].
    f_equal. apply map_ext. intros x. apply legacy_other, legacy_no_probe.
  - unfold asked. cbn [fst snd]. replace (existsb _ _) with false; [reflexivity|]. symmetry. apply not_true_is_false. intros H.
    apply existsb_exists in H. destruct H as (f & I & H). apply in_map_iff in I. destruct I as (g & <- & _). cbn [with_insns f_ins] in H.
    apply existsb_exists in H. destruct H as (x & I & H). apply in_map_iff in I. destruct I as (y & <- & _). now rewrite legacy_no_probe in H.
Qed.

(** Legacy map definitions. *)
Definition enc_words (l : list Z) : list Z := flat_map (le_enc 4) l.
Lemma enc_words_length l : length (enc_words l) = (4 * length l)%nat.
Proof. induction l as [|x l IH]; [reflexivity|]. unfold enc_words in *. cbn [flat_map length]. rewrite app_length, le_enc_length, IH. lia. Qed.
Lemma word_enc l i x r : nth_error l i = Some x -> 0 <= x < 2 ^ 32 -> word (enc_words l ++ r) i = x.
Proof.
  revert i. induction l as [|y l IH]; intros i; [destruct i; discriminate|]. unfold enc_words. cbn [flat_map]. fold (enc_words l). rewrite <- app_assoc.
  destruct i as [|i]; cbn [nth_error]; intros H B.
  - apply some_inj in H. subst y. unfold word. change (4 * 0)%nat with 0%nat. unfold slice. cbn [skipn]. rewrite firstn_app_exact by (now rewrite le_enc_length).
    now apply le_dec_enc_small.
  - specialize (IH i H B). unfold word in *. rewrite <- IH. f_equal. unfold slice.
    replace (4 * S i)%nat with (4 + 4 * i)%nat by lia. rewrite <- skipn_skipn', skipn_app_exact by (now rewrite le_enc_length). reflexivity.
Qed.
Definition legacy_def (l : list Z) : mapdef :=
  {| md_type := nth 0 l 0; md_key := nth 1 l 0; md_value := nth 2 l 0; md_entries := nth 3 l 0; md_flags := nth 4 l 0; md_extra := 0;
     md_pin := nth 6 l 0; md_key_id := 0; md_value_id := 0; md_id := nth 5 l 0 |}.
Lemma repeat_words n : repeat 0 (4 * n) = enc_words (repeat 0 n).
Proof. induction n as [|n IH]; [reflexivity|]. replace (4 * S n)%nat with (4 + 4 * n)%nat by lia. rewrite repeat_app, IH. reflexivity. Qed.
Lemma nth_repeat_app (l : list Z) n i : nth i (l ++ repeat 0 n) 0 = nth i l 0.
Proof.
  destruct (Nat.lt_ge_cases i (length l)) as [L|L]; [now apply app_nth1|]. rewrite app_nth2, (nth_overflow l) by lia. apply nth_repeat.
Qed.
Lemma read_def l r : (7 <= length l)%nat -> Forall (fun x => 0 <= x < 2 ^ 32) l -> nth 6 l 0 = 0 \/ nth 6 l 0 = 1 ->
  read_map_def (enc_words l ++ r) = Ok (legacy_def l).
Proof.
  intros L W P. assert (forall i, (i < 7)%nat -> word (enc_words l ++ r) i = nth i l 0) as E.
  { intros i I. apply word_enc; [apply nth_error_nth'; lia|]. rewrite Forall_forall in W. apply W. apply nth_In. lia. }
  unfold read_map_def. rewrite !E by lia. unfold legacy_def. destruct P as [-> | ->]; reflexivity.
Qed.
(** The words of a definition of at least five; missing words read zero, what
    follows the seventh is ignored. *)
Lemma map_def_spec l r : (5 <= length l)%nat -> Forall (fun x => 0 <= x < 2 ^ 32) l -> nth 6 l 0 = 0 \/ nth 6 l 0 = 1 ->
  r = [] \/ (7 <= length l)%nat -> parse_map_def (enc_words l ++ r) = Ok (legacy_def l).
Proof.
  intros L W P R. unfold parse_map_def. rewrite app_length, enc_words_length.
  destruct (Nat.ltb_spec (4 * length l + length r) 20); [lia|]. destruct (Nat.ltb_spec (4 * length l + length r) 28) as [S|S].
  - assert (length l < 7)%nat as S' by lia. destruct R as [->|R]; [|lia]. rewrite app_nil_r. cbn [length]. rewrite Nat.add_0_r.
    replace (28 - 4 * length l)%nat with (4 * (7 - length l))%nat by lia. rewrite repeat_words.
    unfold enc_words. rewrite <- flat_map_app. fold (enc_words (l ++ repeat 0 (7 - length l))).
    pose proof (read_def (l ++ repeat 0 (7 - length l)) []) as X. rewrite app_nil_r in X. rewrite X.
    + f_equal. unfold legacy_def. now rewrite !nth_repeat_app.
    + rewrite app_length, repeat_length. lia.
    + apply Forall_app. split; [exact W|]. apply Forall_forall. intros x I. apply repeat_spec in I. lia.
    + now rewrite nth_repeat_app.
  - apply read_def; auto. destruct R as [->|R]; [cbn in S; lia|exact R].
Qed.
Lemma map_def_short d : (length d < 20)%nat -> parse_map_def d = Err OMapDef.
Proof. intros L. unfold parse_map_def. destruct (Nat.ltb_spec (length d) 20); [reflexivity|lia]. Qed.
Lemma map_def_padded d : (20 <= length d)%nat -> parse_map_def d = read_map_def (d ++ repeat 0 (28 - length d)).
Proof.
  intros L. unfold parse_map_def. destruct (Nat.ltb_spec (length d) 20); [lia|]. destruct (Nat.ltb_spec (length d) 28); [reflexivity|].
  replace (28 - length d)%nat with 0%nat by lia. now rewrite app_nil_r.
Qed.

(** Definitions of map sections, one per symbol. *)
Definition map_of (sec : osec) (k : skind) (x : nat * symbol) (y : name * omap) : Prop :=
  s_name (snd x) = Some (fst y) /\ om_btf (snd y) = false /\ om_kind (snd y) = k /\ om_section (snd y) = os_index sec /\
  om_symbol (snd y) = Some (fst x) /\ om_data (snd y) = [] /\ om_inner (snd y) = None /\
  s_address (snd x) + s_size (snd x) <= Z.of_nat (length (os_data sec)) /\
  parse_map_def (slice (Z.to_nat (s_address (snd x))) (Z.to_nat (s_size (snd x))) (os_data sec)) = Ok (om_def (snd y)).
Lemma maps_loop_ok sec k syms r : Forall (fun x => sym_ok (snd x)) syms -> maps_loop sec k syms = Ok r -> Forall2 (map_of sec k) syms r.
Proof.
  intros W. revert r. induction W as [|[i s] syms Hs _ IH]; intros r; cbn [maps_loop].
  - intros H. apply ok_inj in H. subst r. constructor.
  - destruct (cut (os_data sec) (s_address s) (s_size s)) as [d|] eqn:C; [|discriminate]. cbn [bind].
    cbn [snd] in Hs. apply cut_ok in C; [|destruct Hs; lia]. destruct C as (_ & C & ->).
    destruct (s_name s) as [n|] eqn:N; [|discriminate].
    destruct (parse_map_def (slice (Z.to_nat (s_address s)) (Z.to_nat (s_size s)) (os_data sec))) as [def|] eqn:D; [|discriminate]. cbn [bind].
    destruct (maps_loop sec k syms) as [q|]; [|discriminate]. cbn [bind]. intros H. apply ok_inj in H. subst r.
    constructor; [|now apply IH]. unfold map_of. cbn [fst snd om_btf om_kind om_section om_symbol om_def om_inner om_data]. repeat split; auto.
Qed.
Lemma maps_parsed sec k syms r : Forall (fun x => sym_ok (snd x)) syms -> parse_maps sec k syms = Ok r ->
  syms <> [] /\ Forall2 (map_of sec k) syms r.
Proof.
  intros W H. unfold parse_maps in H. destruct syms as [|x syms]; [discriminate|]. split; [discriminate|]. now apply maps_loop_ok.
Qed.
