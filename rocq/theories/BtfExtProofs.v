(** Proofs about .BTF.ext. *)
From Verif Require Import Base Text BtfTypes BtfTypesProofs BtfModel BtfExt BtfExtSpec.
Local Open Scope Z_scope.

Lemma wr32_length be x : length (wr32 be x) = 4%nat.
Proof. unfold wr32. destruct be; [rewrite rev_length|]; apply le_enc_length. Qed.

Lemma rd32_wr32 be x : 0 <= x < 2 ^ 32 -> rd32 be (wr32 be x) = x.
Proof.
  intros H. unfold rd32, wr32. destruct be; [rewrite rev_involutive|]; apply le_dec_enc_small; exact H.
Qed.

Lemma rd32_bound be l : bytes_ok l = true -> length l = 4%nat -> 0 <= rd32 be l < 2 ^ 32.
Proof.
  intros H Hl. unfold rd32. change (2 ^ 32) with (256 ^ Z.of_nat 4). rewrite <- Hl. destruct be; [|now apply le_dec_bound].
  rewrite <- rev_length. apply le_dec_bound. unfold bytes_ok in *. rewrite forallb_forall in *. intros x Hx. apply H. now apply in_rev.
Qed.

(** * Splitting into sections *)
Lemma concat_length_same n (rs : list (list Z)) :
  Forall (fun r => Z.of_nat (length r) = n) rs -> Z.of_nat (length (concat rs)) = n * Z.of_nat (length rs).
Proof. induction 1 as [|r rs Hr _ IH]; cbn [concat length]; [lia|]. rewrite app_length. nia. Qed.

Lemma enc_sec_length be rec s : sec_ok rec s ->
  Z.of_nat (length (enc_sec be s)) = 8 + rec * Z.of_nat (length (snd s)).
Proof.
  intros (_ & _ & H). unfold enc_sec. rewrite !app_length, !wr32_length. rewrite !Nat2Z.inj_add, (concat_length_same rec) by exact H. lia.
Qed.

Lemma sec_iter_enc be rec l : 0 < rec -> Forall (sec_ok rec) l ->
  forall fuel, (length (enc_secs be l) <= fuel)%nat ->
  sec_iter fuel be rec (enc_secs be l) = map sec_of (filter non_empty l).
Proof.
  intros Hrec. induction 1 as [|s l Hs Hl IH]; intros fuel Hf.
  - destruct fuel; reflexivity.
  - unfold enc_secs in *. cbn [map concat] in *. fold (enc_secs be l) in *. rewrite app_length in Hf.
    pose proof (enc_sec_length be rec s Hs) as Hlen. destruct Hs as (Hn & Hc & Hr).
    set (n := rec * Z.of_nat (length (snd s))) in *. assert (0 <= n) as Hn0 by (unfold n; nia).
    destruct fuel as [|fuel]; [lia|]. cbn [sec_iter]. rewrite app_length.
    destruct (Nat.ltb_spec (length (enc_sec be s) + length (enc_secs be l)) 8) as [Hx|_]; [lia|].
    assert (slice 0 4 (enc_sec be s ++ enc_secs be l) = wr32 be (fst s)) as ->.
    { unfold enc_sec. rewrite <- !app_assoc. unfold slice. cbn [skipn]. apply firstn_app_exact. now rewrite wr32_length. }
    assert (slice 4 4 (enc_sec be s ++ enc_secs be l) = wr32 be (Z.of_nat (length (snd s)))) as ->.
    { unfold enc_sec. rewrite <- !app_assoc. apply slice_app_exact'; now rewrite wr32_length. }
    rewrite !rd32_wr32 by lia. fold n.
    destruct (Z.ltb_spec (Z.of_nat (length (enc_sec be s) + length (enc_secs be l)) - 8) n) as [Hx|_]; [lia|].
    rewrite (skipn_app_exact (8 + Z.to_nat n)) by lia.
    rewrite IH by lia. cbn [filter]. destruct (Z.eqb_spec n 0) as [Hz|Hz].
    + assert (non_empty s = false) as ->; [|reflexivity].
      unfold non_empty. destruct (snd s); [reflexivity|]. cbn [length] in *. unfold n in Hz. nia.
    + assert (non_empty s = true) as ->.
      { unfold non_empty. destruct (snd s); [|reflexivity]. cbn [length] in *. unfold n in Hz. lia. }
      cbn [map]. f_equal.
      unfold sec_of. f_equal. unfold enc_sec. rewrite <- !app_assoc.
      rewrite app_assoc. apply slice_app_exact'; [now rewrite app_length, !wr32_length|].
      pose proof (concat_length_same rec _ Hr). fold n in H. lia.
Qed.

Lemma chunks_concat n rs : (0 < n)%nat -> Forall (fun r => length r = n) rs ->
  forall fuel, (length (concat rs) <= fuel)%nat -> chunks fuel n (concat rs) = rs.
Proof.
  intros Hn. induction 1 as [|r rs Hr Hrs IH]; intros fuel Hf; cbn [concat] in *.
  - destruct fuel; reflexivity.
  - rewrite app_length in Hf. destruct fuel as [|fuel]; [lia|]. destruct r as [|x r]; [cbn in Hr; lia|].
    cbn [app chunks]. rewrite (app_comm_cons r (concat rs) x), (firstn_app_exact n), (skipn_app_exact n) by (symmetry; exact Hr).
    rewrite IH by lia. reflexivity.
Qed.

Lemma records_concat rec rs : 0 < rec -> Forall (fun r => Z.of_nat (length r) = rec) rs -> records rec (concat rs) = Ok rs.
Proof.
  intros Hr H. unfold records. destruct (Z.eqb_spec rec 0); [lia|]. f_equal. apply chunks_concat; [lia| |lia].
  eapply Forall_impl; [|exact H]. cbv beta. intros r E. lia.
Qed.

(** * Records *)
Lemma slice_next {A} n k (p s : list A) : length p = n -> slice (n + k) 4 (p ++ s) = slice k 4 s.
Proof.
  intros H. unfold slice. f_equal. rewrite <- skipn_skipn'. f_equal. apply skipn_app_exact. now symmetry.
Qed.

Lemma slice_head {A} n (p s : list A) : length p = n -> slice 0 n (p ++ s) = p.
Proof. intros H. unfold slice. cbn [skipn]. apply firstn_app_exact. now symmetry. Qed.

Lemma parse_finfo_enc be off ty extra : 0 <= off < 2 ^ 32 -> 0 <= ty < 2 ^ 32 ->
  parse_finfo be (enc_finfo be off ty extra) = Ok {| fi_insn := off / 8; fi_type := ty |}.
Proof.
  intros Ho Ht. unfold parse_finfo, enc_finfo. rewrite !app_length, !wr32_length.
  destruct (Nat.ltb_spec (4 + (4 + length extra)) 8); [lia|].
  rewrite (slice_head 4) by apply wr32_length. rewrite (slice_next 4 0) by apply wr32_length.
  rewrite (slice_head 4) by apply wr32_length. now rewrite !rd32_wr32.
Qed.

Lemma parse_linfo_enc be off file line col extra :
  0 <= off < 2 ^ 32 -> 0 <= file < 2 ^ 32 -> 0 <= line < 2 ^ 32 -> 0 <= col < 2 ^ 32 ->
  parse_linfo be (enc_linfo be off file line col extra) =
  Ok {| li_insn := off / 8; li_file := file; li_line := line; li_col := col |}.
Proof.
  intros Ho Hf Hl Hc. unfold parse_linfo, enc_linfo. rewrite !app_length, !wr32_length.
  destruct (Nat.ltb_spec (4 + (4 + (4 + (4 + length extra)))) 16); [lia|].
  rewrite (slice_head 4) by apply wr32_length.
  rewrite (slice_next 4 0), (slice_head 4) by apply wr32_length.
  rewrite (slice_next 4 4), (slice_next 4 0), (slice_head 4) by apply wr32_length.
  rewrite (slice_next 4 8), (slice_next 4 4), (slice_next 4 0), (slice_head 4) by apply wr32_length.
  now rewrite !rd32_wr32.
Qed.

Lemma parse_relo_enc n off ty acc kind extra :
  0 <= off < 2 ^ 32 -> 0 <= ty < 2 ^ 32 -> 0 <= acc < 2 ^ 32 -> 0 <= kind < 12 ->
  parse_relo n (enc_relo off ty acc kind extra) =
  Ok {| rl_kind := kind; rl_ins_off := off; rl_type := ty; rl_access := acc; rl_number := n |}.
Proof.
  intros Ho Ht Ha Hk. unfold parse_relo, enc_relo. rewrite !app_length, !le_enc_length.
  destruct (Nat.ltb_spec (4 + (4 + (4 + (4 + length extra)))) 16); [lia|].
  rewrite (slice_next 4 8), (slice_next 4 4), (slice_next 4 0), (slice_head 4) by apply le_enc_length.
  rewrite (le_dec_enc_small 4 kind) by (change (256 ^ Z.of_nat 4) with 4294967296; lia).
  destruct (Z.leb_spec 12 kind); [lia|].
  rewrite (slice_head 4) by apply le_enc_length.
  rewrite (slice_next 4 0), (slice_head 4) by apply le_enc_length.
  rewrite (slice_next 4 4), (slice_next 4 0), (slice_head 4) by apply le_enc_length.
  now rewrite !le_dec_enc_small.
Qed.

(** * Tables *)
Lemma table_rec be h d off len rec l : table_at be h d off len rec l -> rec_size be h d off len = Ok rec.
Proof.
  intros (Ho & Hl & Hh & Hw & Hs & Hb & Ht). unfold rec_size, zslice.
  destruct (Z.leb_spec (eh_hdr_len h + off + len) (Z.of_nat (length d))); [|lia].
  destruct (Z.eqb_spec len 0) as [E|E]; [now destruct Ht as [-> _]|].
  destruct Ht as [Hr ->]. unfold enc_table. rewrite app_length, wr32_length.
  destruct (Nat.ltb_spec (4 + length (enc_secs be l)) 4); [lia|].
  rewrite (firstn_app_exact 4) by (now rewrite wr32_length). rewrite rd32_wr32 by lia. reflexivity.
Qed.

Lemma table_data be h d off len rec l : table_at be h d off len rec l ->
  info_data h d off len = Ok (enc_secs be l).
Proof.
  intros (Ho & Hl & Hh & Hw & Hs & Hb & Ht). unfold info_data, zslice.
  unfold u32, wrap. rewrite Z.mod_small by lia.
  destruct (Z.leb_spec (eh_hdr_len h + off + len) (Z.of_nat (length d))); [|lia].
  destruct (Z.eqb_spec len 0) as [E|E].
  - destruct Ht as [_ ->]. subst len. cbn [Z.ltb]. unfold slice. change (Z.to_nat 0) with 0%nat. reflexivity.
  - destruct Ht as [Hr ->]. destruct (Z.ltb_spec 0 len); [|lia]. unfold enc_table. rewrite app_length, wr32_length.
    destruct (Nat.ltb_spec (4 + length (enc_secs be l)) 4); [lia|].
    rewrite (skipn_app_exact 4) by (now rewrite wr32_length). reflexivity.
Qed.

Lemma table_secs be h d off len rec l : table_at be h d off len rec l ->
  all_secs be rec (enc_secs be l) = map sec_of (filter non_empty l) /\
  Forall (fun s => 0 < rec /\ Forall (fun r => Z.of_nat (length r) = rec) (snd s)) (filter non_empty l).
Proof.
  intros (Ho & Hl & Hh & Hw & Hs & Hb & Ht). unfold all_secs.
  destruct (Z.eqb_spec len 0) as [E|E]; [destruct Ht as [-> ->]; split; [reflexivity|constructor]|].
  destruct Ht as [Hr _]. split; [apply sec_iter_enc; [lia|exact Hs|lia]|].
  rewrite Forall_forall in *. intros s Hi. apply filter_In in Hi. destruct Hi as [Hi _]. destruct (Hs s Hi) as (_ & _ & X). split; [lia|exact X].
Qed.

Lemma mapM_intro {A B E} (f : A -> res E B) l r : Forall2 (fun x y => f x = Ok y) l r -> mapM f l = Ok r.
Proof. induction 1 as [|x y l r H _ IH]; cbn [mapM]; [reflexivity|]. now rewrite H, IH. Qed.

Definition infos_of {A} (parse : list Z -> res berr A) (b : btf) (s : Z * list (list Z)) (r : list Z * (Z * list A)) : Prop :=
  string_at b (fst s) = Ok (fst r) /\ fst (snd r) = Z.of_nat (length (snd s)) /\
  Forall2 (fun c x => parse c = Ok x) (snd s) (snd (snd r)).
Definition relos_of (s : Z * list (list Z)) (r : Z * list relo) : Prop :=
  fst r = fst s /\
  Forall2 (fun p x => parse_relo (fst p) (snd p) = Ok x) (combine (seq 0 (length (snd s))) (snd s)) (snd r).

Lemma infos_mapM {A} (parse : list Z -> res berr A) b rec l r :
  Forall (fun s => 0 < rec /\ Forall (fun r => Z.of_nat (length r) = rec) (snd s)) l ->
  Forall2 (infos_of parse b) l r -> mapM (sec_infos parse b rec) (map sec_of l) = Ok r.
Proof.
  intros Hl H. induction H as [|s x l r (H1 & H2 & H3) _ IH]; [reflexivity|].
  inversion Hl as [|? ? [Hr Hs] Hl']; subst. cbn [map mapM]. rewrite (IH Hl').
  unfold sec_infos at 1. cbn [sec_of sc_name sc_data sc_num]. rewrite H1, records_concat by assumption. cbn [bind].
  rewrite (mapM_intro _ _ _ H3). cbn [bind]. rewrite <- H2. destruct x as [n [k y]]. reflexivity.
Qed.

Lemma relos_mapM rec l r :
  Forall (fun s => 0 < rec /\ Forall (fun r => Z.of_nat (length r) = rec) (snd s)) l ->
  Forall2 relos_of l r -> mapM (sec_relos rec) (map sec_of l) = Ok r.
Proof.
  intros Hl H. induction H as [|s x l r (H1 & H2) _ IH]; [reflexivity|].
  inversion Hl as [|? ? [Hr Hs] Hl']; subst. cbn [map mapM]. rewrite (IH Hl').
  unfold sec_relos at 1. cbn [sec_of sc_name sc_data sc_num]. rewrite records_concat by assumption. cbn [bind].
  rewrite (mapM_intro _ _ _ H2). cbn [bind]. rewrite <- H1. destruct x. reflexivity.
Qed.

Theorem ext_parse_tables b be d h fr fl lr ll rr rl fs ls rs :
  read_ehdr d = Ok h ->
  table_at be h d (eh_func_off h) (eh_func_len h) fr fl ->
  table_at be h d (eh_line_off h) (eh_line_len h) lr ll ->
  table_at be h d (eh_relo_off h) (eh_relo_len h) rr rl ->
  Forall2 (infos_of (parse_finfo be) b) (filter non_empty fl) fs ->
  Forall2 (infos_of (parse_linfo be) b) (filter non_empty ll) ls ->
  Forall2 relos_of (filter non_empty rl) rs ->
  ext_parse b be d = Ok {| x_func_rec := fr; x_line_rec := lr; x_relo_rec := rr; x_funcs := fs; x_lines := ls; x_relos := rs |}.
Proof.
  intros Hh Hf Hl Hr Ff Fl Fr. unfold ext_parse. rewrite Hh. cbn [bind].
  rewrite (table_rec _ _ _ _ _ _ _ Hf), (table_rec _ _ _ _ _ _ _ Hl), (table_rec _ _ _ _ _ _ _ Hr). cbn [bind].
  rewrite (table_data _ _ _ _ _ _ _ Hf), (table_data _ _ _ _ _ _ _ Hl), (table_data _ _ _ _ _ _ _ Hr). cbn [bind].
  destruct (table_secs _ _ _ _ _ _ _ Hf) as [-> Gf]. destruct (table_secs _ _ _ _ _ _ _ Hl) as [-> Gl].
  destruct (table_secs _ _ _ _ _ _ _ Hr) as [-> Gr].
  rewrite (infos_mapM _ _ _ _ _ Gf Ff). cbn [bind]. rewrite (infos_mapM _ _ _ _ _ Gl Fl). cbn [bind].
  rewrite (relos_mapM _ _ _ Gr Fr). reflexivity.
Qed.

(** * Aborts *)
Lemma slice_len_z off len (d : list Z) : 0 <= off -> 0 <= len -> off + len <= Z.of_nat (length d) ->
  Z.of_nat (length (slice (Z.to_nat off) (Z.to_nat len) d)) = len.
Proof. intros H1 H2 H3. rewrite slice_length by lia. lia. Qed.

Lemma read_ehdr_bounds d h : bytes_ok d = true -> read_ehdr d = Ok h ->
  0 <= eh_hdr_len h /\ 0 <= eh_func_off h /\ 0 <= eh_func_len h /\ 0 <= eh_line_off h /\ 0 <= eh_line_len h /\
  0 <= eh_relo_off h /\ 0 <= eh_relo_len h.
Proof.
  intros Hb H. unfold read_ehdr in H. destruct (_ <? 8)%nat; [discriminate|]. destruct (_ <? _); [discriminate|].
  apply ok_inj in H. subst h. cbn [eh_hdr_len eh_func_off eh_func_len eh_line_off eh_line_len eh_relo_off eh_relo_len].
  set (raw := firstn _ d ++ repeat 0 32).
  assert (bytes_ok raw = true) as Hraw by (unfold raw; rewrite bytes_ok_app, bytes_ok_firstn by exact Hb; reflexivity).
  assert (forall i, 0 <= le_dec (slice (4 * i) 4 raw)) as Hw by (intros i; apply le_dec_bound; now apply bytes_ok_slice).
  repeat (split; [apply Hw|]). apply Hw.
Qed.

Lemma rec_info be h d off len rec : 0 <= eh_hdr_len h -> 0 <= off -> 0 <= len -> Z.of_nat (length d) < 2 ^ 32 ->
  bytes_ok d = true -> rec_size be h d off len = Ok rec -> exists s, info_data h d off len = Ok s /\ 0 <= rec.
Proof.
  intros Hh Ho Hl Hd Hb H. unfold rec_size, info_data in *.
  destruct (zslice (eh_hdr_len h + off) len d) as [s|] eqn:E; [|discriminate].
  assert (zslice (u32 (eh_hdr_len h + off)) len d = Some s) as ->.
  { unfold zslice in E. destruct (Z.leb_spec (eh_hdr_len h + off + len) (Z.of_nat (length d))); [|discriminate].
    unfold u32, wrap. rewrite Z.mod_small by lia. unfold zslice.
    destruct (Z.leb_spec (eh_hdr_len h + off + len) (Z.of_nat (length d))); [exact E|lia]. }
  assert (bytes_ok s = true) as Hs.
  { unfold zslice in E. destruct (_ <=? _) in E; [|discriminate]. injection E as <-. now apply bytes_ok_slice. }
  destruct (Z.eqb_spec len 0) as [Ez|Ez].
  - destruct (Z.ltb_spec 0 len); [lia|]. apply ok_inj in H. exists s. split; [reflexivity|lia].
  - destruct (Nat.ltb_spec (length s) 4); [discriminate|]. apply ok_inj in H. destruct (Z.ltb_spec 0 len); [|lia].
    eexists. split; [reflexivity|]. rewrite <- H. apply rd32_bound; [now apply bytes_ok_firstn|]. rewrite firstn_length. lia.
Qed.

Lemma chunks_lengths fuel : forall n m d, length d = (n * m)%nat -> (0 < n)%nat -> Forall (fun c => length c = n) (chunks fuel n d).
Proof.
  induction fuel as [|fuel IH]; intros n m d H Hn; [constructor|].
  destruct d as [|x d]; [constructor|]. cbn [chunks]. destruct m as [|m]; [cbn in H; lia|].
  constructor; [rewrite firstn_length; nia|]. apply (IH n m); [|exact Hn]. rewrite skipn_length. nia.
Qed.

Lemma sec_iter_shape fuel be rec : forall d s, bytes_ok d = true -> 0 <= rec -> In s (sec_iter fuel be rec d) ->
  0 < rec /\ exists m, length (sc_data s) = (Z.to_nat rec * m)%nat.
Proof.
  induction fuel as [|fuel IH]; intros d s Hb Hr Hi; cbn [sec_iter] in Hi; [contradiction|].
  destruct (Nat.ltb_spec (length d) 8) as [H8|H8]; [contradiction|].
  set (num := rd32 be (slice 4 4 d)) in *.
  assert (0 <= num) as Hn by (apply rd32_bound; [now apply bytes_ok_slice|apply slice_length; lia]).
  destruct (Z.ltb_spec (Z.of_nat (length d) - 8) (rec * num)) as [Hx|Hx]; [contradiction|].
  assert (0 <= rec * num) as Hp by nia.
  destruct (Z.eqb_spec (rec * num) 0) as [Hz|Hz]; [|destruct Hi as [<-|Hi]].
  - eapply IH; [|exact Hr|exact Hi]. now apply bytes_ok_skipn.
  - cbn [sc_data]. split; [nia|]. exists (Z.to_nat num). rewrite slice_length by lia. nia.
  - eapply IH; [|exact Hr|exact Hi]. now apply bytes_ok_skipn.
Qed.

Lemma sec_infos_panic {A} (parse : list Z -> res berr A) b rec s min m :
  0 < rec -> length (sc_data s) = (Z.to_nat rec * m)%nat ->
  (forall c, (min <= length c)%nat -> exists x, parse c = Ok x) ->
  sec_infos parse b rec s = Err BPanic ->
  rec < Z.of_nat min \/ exists e, string_at b (sc_name s) = Err e.
Proof.
  intros Hr Hm Hp H. unfold sec_infos in H. destruct (string_at b (sc_name s)) as [name|e]; [|eauto].
  unfold records in H. destruct (Z.eqb_spec rec 0); [lia|]. cbn [bind] in H.
  destruct (mapM parse _) as [l|e] eqn:Em; cbn [bind] in H; [discriminate|].
  destruct (mapM_err _ _ _ Em) as (c & Hc & Ec).
  pose proof (chunks_lengths (length (sc_data s)) (Z.to_nat rec) m (sc_data s) Hm ltac:(lia)) as F.
  rewrite Forall_forall in F. specialize (F c Hc).
  destruct (Z.lt_ge_cases rec (Z.of_nat min)) as [|Hge]; [now left|].
  destruct (Hp c ltac:(lia)) as (x & Hx). congruence.
Qed.

Lemma sec_relos_no_panic rec s m : 0 < rec -> length (sc_data s) = (Z.to_nat rec * m)%nat -> sec_relos rec s <> Err BPanic.
Proof.
  intros Hr Hm H. unfold sec_relos, records in H. destruct (Z.eqb_spec rec 0); [lia|]. cbn [bind] in H.
  destruct (mapM _ _) as [l|e] eqn:Em; cbn [bind] in H; [discriminate|].
  destruct (mapM_err _ _ _ Em) as (c & Hc & Ec). assert (e = BPanic) as -> by congruence.
  unfold parse_relo in Ec. destruct (_ <? 16)%nat; [discriminate|]. destruct (12 <=? _); discriminate.
Qed.

(** When the loader aborts, a record size is below the minimum or a section
    name does not resolve. *)
Theorem ext_abort_causes b be d :
  bytes_ok d = true -> Z.of_nat (length d) < 2 ^ 32 -> ext_parse b be d = Err BPanic ->
  exists h, read_ehdr d = Ok h /\
    ((exists rec, rec_size be h d (eh_func_off h) (eh_func_len h) = Ok rec /\ 0 < rec < 8) \/
     (exists rec, rec_size be h d (eh_line_off h) (eh_line_len h) = Ok rec /\ 0 < rec < 16) \/
     exists rec data s e,
       (info_data h d (eh_func_off h) (eh_func_len h) = Ok data \/ info_data h d (eh_line_off h) (eh_line_len h) = Ok data) /\
       In s (all_secs be rec data) /\ string_at b (sc_name s) = Err e).
Proof.
  intros Hb Hd H. unfold ext_parse in H.
  destruct (read_ehdr d) as [h|e] eqn:Eh; cbn [bind] in H.
  2:{ exfalso. unfold read_ehdr in Eh. destruct (_ <? 8)%nat; [congruence|]. destruct (_ <? _); congruence. }
  exists h. split; [reflexivity|].
  destruct (read_ehdr_bounds d h Hb Eh) as (B0 & B1 & B2 & B3 & B4 & B5 & B6).
  assert (forall off len, rec_size be h d off len <> Err BPanic) as Hrec.
  { intros off len E. unfold rec_size in E. destruct (zslice _ _ _); [|discriminate].
    destruct (len =? 0); [discriminate|]. destruct (_ <? 4)%nat; discriminate. }
  destruct (rec_size be h d (eh_func_off h) (eh_func_len h)) as [fr|e] eqn:Efr; cbn [bind] in H; [|exfalso; apply (Hrec (eh_func_off h) (eh_func_len h)); congruence].
  destruct (rec_size be h d (eh_line_off h) (eh_line_len h)) as [lr|e] eqn:Elr; cbn [bind] in H; [|exfalso; apply (Hrec (eh_line_off h) (eh_line_len h)); congruence].
  destruct (rec_size be h d (eh_relo_off h) (eh_relo_len h)) as [rr|e] eqn:Err'; cbn [bind] in H; [|exfalso; apply (Hrec (eh_relo_off h) (eh_relo_len h)); congruence].
  assert (forall off len s, info_data h d off len = Ok s -> bytes_ok s = true) as Hinfo.
  { intros off len s E. unfold info_data, zslice in E. destruct (_ <=? _) in E; [|discriminate].
    destruct (0 <? len); [destruct (_ <? 4)%nat in E; [discriminate|]|]; apply ok_inj in E; subst s;
      [apply bytes_ok_skipn|]; now apply bytes_ok_slice. }
  destruct (rec_info be h d _ _ _ B0 B1 B2 Hd Hb Efr) as (fd & Efd & Rf).
  destruct (rec_info be h d _ _ _ B0 B3 B4 Hd Hb Elr) as (ld & Eld & Rl).
  destruct (rec_info be h d _ _ _ B0 B5 B6 Hd Hb Err') as (rd & Erd & Rr).
  rewrite Efd in H. cbn [bind] in H.
  destruct (mapM (sec_infos (parse_finfo be) b fr) (all_secs be fr fd)) as [fs|e] eqn:Efs; cbn [bind] in H.
  - rewrite Eld in H. cbn [bind] in H.
    destruct (mapM (sec_infos (parse_linfo be) b lr) (all_secs be lr ld)) as [ls|e] eqn:Els; cbn [bind] in H.
    + rewrite Erd in H. cbn [bind] in H. destruct (mapM (sec_relos rr) _) as [rs|e] eqn:Ers; cbn [bind] in H; [discriminate|].
      exfalso. assert (e = BPanic) as -> by congruence. destruct (mapM_err _ _ _ Ers) as (s & Hs & Es).
      destruct (sec_iter_shape _ _ _ _ _ (Hinfo _ _ _ Erd) Rr Hs) as (P & m & Hm). exact (sec_relos_no_panic rr s m P Hm Es).
    + assert (e = BPanic) as -> by congruence. destruct (mapM_err _ _ _ Els) as (s & Hs & Es).
      destruct (sec_iter_shape _ _ _ _ _ (Hinfo _ _ _ Eld) Rl Hs) as (P & m & Hm).
      assert (forall c, (16 <= length c)%nat -> exists x, parse_linfo be c = Ok x) as Hc
        by (intros c Hc; unfold parse_linfo; destruct (Nat.ltb_spec (length c) 16); [lia|eauto]).
      destruct (sec_infos_panic (parse_linfo be) b _ s 16 m P Hm Hc Es) as [X|(e & X)].
      * right. left. exists lr. split; [reflexivity|]. lia.
      * right. right. exists lr, ld, s, e. auto.
  - assert (e = BPanic) as -> by congruence. destruct (mapM_err _ _ _ Efs) as (s & Hs & Es).
    destruct (sec_iter_shape _ _ _ _ _ (Hinfo _ _ _ Efd) Rf Hs) as (P & m & Hm).
    assert (forall c, (8 <= length c)%nat -> exists x, parse_finfo be c = Ok x) as Hc
        by (intros c Hc; unfold parse_finfo; destruct (Nat.ltb_spec (length c) 8); [lia|eauto]).
      destruct (sec_infos_panic (parse_finfo be) b _ s 8 m P Hm Hc Es) as [X|(e & X)].
    + left. exists fr. split; [reflexivity|]. lia.
    + right. right. exists fr, fd, s, e. auto.
Qed.

Lemma read_ehdr_enc magic hl fo fl lo ll ro rl rest :
  32 <= hl < 2 ^ 32 -> hl <= 32 + Z.of_nat (length rest) ->
  0 <= fo < 2 ^ 32 -> 0 <= fl < 2 ^ 32 -> 0 <= lo < 2 ^ 32 -> 0 <= ll < 2 ^ 32 -> 0 <= ro < 2 ^ 32 -> 0 <= rl < 2 ^ 32 ->
  read_ehdr (enc_ehdr magic hl fo fl lo ll ro rl ++ rest) =
  Ok {| eh_hdr_len := hl; eh_func_off := fo; eh_func_len := fl; eh_line_off := lo; eh_line_len := ll;
        eh_relo_off := ro; eh_relo_len := rl |}.
Proof.
  intros Hh Hr H1 H2 H3 H4 H5 H6. set (e := enc_ehdr magic hl fo fl lo ll ro rl).
  assert (length e = 32)%nat as Le by (unfold e, enc_ehdr; rewrite !app_length, !le_enc_length; reflexivity).
  assert (forall a m b s, length a = 4%nat -> slice 4 4 (a ++ le_enc 4 m ++ b ++ s) = le_enc 4 m) as S4.
  { intros a m b s La. apply slice_app_exact'; [now rewrite La|now rewrite le_enc_length]. }
  assert (forall x, 0 <= x < 2 ^ 32 -> le_dec (le_enc 4 x) = x) as D by (intros; apply le_dec_enc_small; cbn; lia).
  assert (forall tl, slice 4 4 (e ++ tl) = le_enc 4 hl) as E1.
  { intros tl. unfold e, enc_ehdr. rewrite <- !app_assoc. apply slice_app_exact'; rewrite ?le_enc_length; reflexivity. }
  unfold read_ehdr. rewrite app_length, Le. destruct (Nat.ltb_spec (32 + length rest) 8); [lia|].
  cbv zeta. rewrite E1, D by lia. destruct (Z.ltb_spec (Z.of_nat (32 + length rest)) hl); [lia|].
  replace (Z.to_nat (Z.min hl 32)) with 32%nat by lia. rewrite firstn_app_exact by (symmetry; exact Le).
  assert (forall k p x s, e ++ repeat 0 32 = p ++ le_enc 4 x ++ s -> length p = (4 * k)%nat -> 0 <= x < 2 ^ 32 ->
            le_dec (slice (4 * k) 4 (e ++ repeat 0 32)) = x) as W.
  { intros k p x s E Lp Hx. rewrite E. rewrite slice_app_exact' by (rewrite ?le_enc_length; auto). apply D. exact Hx. }
  f_equal. f_equal.
  - eapply (W 1%nat (le_enc 4 magic)); [unfold e, enc_ehdr; rewrite <- !app_assoc; reflexivity|now rewrite le_enc_length|lia].
  - eapply (W 2%nat (le_enc 4 magic ++ le_enc 4 hl)); [unfold e, enc_ehdr; rewrite <- !app_assoc; reflexivity|rewrite !app_length, !le_enc_length; reflexivity|lia].
  - eapply (W 3%nat (le_enc 4 magic ++ le_enc 4 hl ++ le_enc 4 fo)); [unfold e, enc_ehdr; rewrite <- !app_assoc; reflexivity|rewrite !app_length, !le_enc_length; reflexivity|lia].
  - eapply (W 4%nat (le_enc 4 magic ++ le_enc 4 hl ++ le_enc 4 fo ++ le_enc 4 fl)); [unfold e, enc_ehdr; rewrite <- !app_assoc; reflexivity|rewrite !app_length, !le_enc_length; reflexivity|lia].
  - eapply (W 5%nat (le_enc 4 magic ++ le_enc 4 hl ++ le_enc 4 fo ++ le_enc 4 fl ++ le_enc 4 lo)); [unfold e, enc_ehdr; rewrite <- !app_assoc; reflexivity|rewrite !app_length, !le_enc_length; reflexivity|lia].
  - eapply (W 6%nat (le_enc 4 magic ++ le_enc 4 hl ++ le_enc 4 fo ++ le_enc 4 fl ++ le_enc 4 lo ++ le_enc 4 ll)); [unfold e, enc_ehdr; rewrite <- !app_assoc; reflexivity|rewrite !app_length, !le_enc_length; reflexivity|lia].
  - eapply (W 7%nat (le_enc 4 magic ++ le_enc 4 hl ++ le_enc 4 fo ++ le_enc 4 fl ++ le_enc 4 lo ++ le_enc 4 ll ++ le_enc 4 ro)); [unfold e, enc_ehdr; rewrite <- !app_assoc; reflexivity|rewrite !app_length, !le_enc_length; reflexivity|lia].
Qed.
