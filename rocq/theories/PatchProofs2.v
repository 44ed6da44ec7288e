From Verif Require Import Base Insn PatchModel PatchSpec PatchProofs.
Local Open Scope Z_scope.

Lemma by_symbol_named maps sym sec m : by_symbol maps sym = Some m -> names_map maps sym sec m.
Proof.
  unfold by_symbol. intros H. apply find_some in H. destruct H as [HI HE]. apply in_rev in HI.
  split; [exact HI|left]. destruct (m_symbol m) as [s|]; [|discriminate]. apply Nat.eqb_eq in HE. congruence.
Qed.

Lemma by_symbol_none maps sym : by_symbol maps sym = None -> forall m, In m maps -> m_symbol m <> Some sym.
Proof.
  unfold by_symbol. intros H m Hm E. apply in_rev in Hm.
  pose proof (find_none _ _ H m Hm) as X. cbn in X. rewrite E, Nat.eqb_refl in X. discriminate.
Qed.

Lemma lookup_named maps r sec m : lookup_map maps r sec = Some m -> names_map maps (r_sym r) sec m.
Proof.
  unfold lookup_map. destruct (by_symbol maps (r_sym r)) as [m'|] eqn:E.
  - intros H; inversion H; subst. now apply by_symbol_named.
  - unfold by_section. intros H. apply find_some in H. destruct H as [HI HE]. apply in_rev in HI.
    apply Nat.eqb_eq in HE. split; [exact HI|right]. split; [|exact HE]. now apply by_symbol_none.
Qed.

Lemma nodup_pairs {A} (f : A -> Z) rs : NoDup (map f rs) -> ForallOrdPairs (fun a b => f a <> f b) rs.
Proof.
  induction rs as [|a rs IH]; cbn [map]; intros H; constructor; inversion H; subst; auto.
  apply Forall_forall. intros b Hb E. apply H2. rewrite E. now apply in_map.
Qed.

Lemma ford_impl_in {A} (P Q : A -> A -> Prop) rs :
  (forall a b, In a rs -> In b rs -> P a b -> Q a b) -> ForallOrdPairs P rs -> ForallOrdPairs Q rs.
Proof.
  intros H HP. induction HP as [|a l Ha HP IH]; constructor.
  - rewrite Forall_forall in *. intros b Hb. apply H; [now left|now right|auto].
  - apply IH. intros x y Hx Hy. apply H; now right.
Qed.

Lemma agree_all {R} touch l0 (rs : list R) : Forall (fun r => agree touch l0 r l0) rs.
Proof. apply Forall_forall. intros r _. split; auto. Qed.

Section M.
Variables (secoff : Z) (maps : list mapinfo) (syms : symtab) (text : nat -> bool).

Lemma map_disjoint n rs : map_table_ok maps syms text rs ->
  ForallOrdPairs (disjoint (map_touch secoff maps syms text n)) rs.
Proof.
  intros [ND HS]. eapply ford_impl_in; [|apply nodup_pairs; exact ND].
  cbv beta. intros a b Ha Hb Hne j. unfold map_touch.
  assert (Hw : forall p q, In p rs -> In q rs -> wide maps syms text p = true -> r_offset q <> r_offset p + 8).
  { intros p q Hp Hq Hw. unfold wide in Hw. destruct (syms (r_sym p)) as [sym|] eqn:Es; [|discriminate].
    destruct (s_section sym) as [sec|] eqn:Esec; [|discriminate].
    apply andb_true_iff in Hw. destruct Hw as [Ht Hm]. destruct (lookup_map maps p sec) as [m|] eqn:El; [|discriminate].
    apply negb_true_iff in Ht, Hm. eapply HS; eauto. now apply lookup_named. }
  destruct (locate secoff n a) as [| |i] eqn:Ea; try discriminate.
  destruct (locate secoff n b) as [| |i'] eqn:Eb; try discriminate.
  apply locate_at in Ea, Eb. destruct Ea as [_ Ea], Eb as [_ Eb].
  rewrite !orb_true_iff, !andb_true_iff, !Nat.eqb_eq.
  intros [->|[Wa ->]] [E|[Wb E]].
  - lia.
  - specialize (Hw b a Hb Ha Wb). lia.
  - specialize (Hw a b Ha Hb Wa). lia.
  - lia.
Qed.

Lemma map_run rs ins ins' : map_table_ok maps syms text rs ->
  relocate_maps secoff maps syms text rs ins = Ok ins' ->
  length ins' = length ins /\
  (forall j, (forall r, In r rs -> map_touch secoff maps syms text (length ins) r j = false) -> nth_error ins' j = nth_error ins j) /\
  (forall r, In r rs -> exists lr, map_reloc_step secoff maps syms text r ins = Ok lr /\
     forall j, map_touch secoff maps syms text (length ins) r j = true -> nth_error ins' j = nth_error lr j).
Proof.
  intros HT H. eapply run_spec with (l0 := ins).
  - intros r l HA. apply map_local. exact HA.
  - now apply map_disjoint.
  - apply agree_all.
  - reflexivity.
  - exact H.
Qed.

(** Every reference is patched as specified. *)
Lemma map_patched rs ins ins' r i x sym sec : map_table_ok maps syms text rs ->
  relocate_maps secoff maps syms text rs ins = Ok ins' ->
  In r rs -> sits_on secoff (length ins) r i -> nth_error ins i = Some x ->
  map_reference syms text r x sym sec ->
  exists m, names_map maps (r_sym r) sec m /\
    nth_error ins' i = Some {| code := code x; dst := dst x; off := off x; imm := m_fd m;
                               src := if m_data_empty m then BPF_PSEUDO_MAP_FD else BPF_PSEUDO_MAP_VALUE |} /\
    (m_data_empty m = false -> exists y, nth_error ins (S i) = Some y /\
       nth_error ins' (S i) = Some (set_imm (i32 (imm x + i32 (s_address sym))) y)).
Proof.
  intros HT H Hr Hs Hx (R1 & R2 & R3 & R4).
  destruct (map_run rs ins ins' HT H) as (L & _ & HP). destruct (HP r Hr) as (lr & E & Ej).
  assert (Hl : locate secoff (length ins) r = At i) by now apply locate_at.
  assert (Hi : (i < length ins)%nat) by apply Hs.
  unfold map_reloc_step in E. unfold map_touch in Ej. unfold wide in Ej.
  rewrite Hl, R1, R2 in E, Ej. rewrite Hx, R4, R3 in E. cbn [orb] in E. rewrite R3 in Ej. cbn [negb andb] in Ej.
  fold (lookup_map maps r sec) in E. destruct (lookup_map maps r sec) as [m|] eqn:El; [|discriminate].
  exists m. split; [now apply lookup_named|].
  destruct (m_data_empty m) eqn:Ed; cbn [negb andb] in Ej.
  - inversion E; subst lr. split; [|discriminate].
    rewrite Ej by (rewrite Nat.eqb_refl; reflexivity). rewrite nth_error_upd_eq by exact Hi. reflexivity.
  - destruct (nth_error ins (S i)) as [y|] eqn:Ey; [|discriminate]. inversion E; subst lr. split.
    + rewrite Ej by (rewrite Nat.eqb_refl; reflexivity). rewrite nth_error_upd_eq by (rewrite upd_length; exact Hi). reflexivity.
    + intros _. exists y. split; [reflexivity|].
      assert (S i < length ins)%nat by (apply nth_error_Some; congruence).
      rewrite Ej by (rewrite Nat.eqb_refl, orb_true_r; reflexivity).
      rewrite (nth_error_upd_ne i (S i)) by lia. now rewrite nth_error_upd_eq.
Qed.

(** Everything else is untouched. *)
Lemma map_untouched rs ins ins' j : map_table_ok maps syms text rs ->
  relocate_maps secoff maps syms text rs ins = Ok ins' ->
  (forall r x sym sec, In r rs -> sits_on secoff (length ins) r j -> nth_error ins j = Some x ->
     ~ map_reference syms text r x sym sec) ->
  (forall r i x sym sec m, In r rs -> j = S i -> sits_on secoff (length ins) r i -> nth_error ins i = Some x ->
     map_reference syms text r x sym sec -> names_map maps (r_sym r) sec m -> m_data_empty m = true) ->
  nth_error ins' j = nth_error ins j.
Proof.
  intros HT H H1 H2. destruct (map_run rs ins ins' HT H) as (L & HF & HP).
  destruct (existsb (fun r => map_touch secoff maps syms text (length ins) r j) rs) eqn:Ex.
  2:{ apply HF. intros r Hr. destruct (map_touch secoff maps syms text (length ins) r j) eqn:Et; [|reflexivity].
      rewrite <- Ex. symmetry. apply existsb_exists. eauto. }
  apply existsb_exists in Ex. destruct Ex as (r & Hr & Ht). destruct (HP r Hr) as (lr & E & Ej).
  rewrite (Ej j Ht). clear Ej HF HP.
  unfold map_touch in Ht. unfold map_reloc_step in E.
  destruct (locate secoff (length ins) r) as [| |i] eqn:Hl; try discriminate.
  apply locate_at in Hl. unfold wide in Ht.
  destruct (syms (r_sym r)) as [sym|] eqn:Es; [|discriminate].
  destruct (s_section sym) as [sec|] eqn:Esec; [|now inversion E].
  destruct (nth_error ins i) as [x|] eqn:Ex; [|discriminate].
  destruct (insn_is_call x || text sec) eqn:Ect; [now inversion E|].
  apply orb_false_iff in Ect. destruct Ect as [Ec Et]. rewrite Et in Ht. cbn [negb andb] in Ht.
  assert (HR : map_reference syms text r x sym sec) by (repeat split; auto).
  apply orb_true_iff in Ht. rewrite andb_true_iff, !Nat.eqb_eq in Ht. destruct Ht as [->|[Hw ->]].
  - exfalso. exact (H1 r x sym sec Hr Hl Ex HR).
  - fold (lookup_map maps r sec) in E, Hw. destruct (lookup_map maps r sec) as [m|] eqn:El; [|discriminate].
    rewrite (H2 r i x sym sec m Hr eq_refl Hl Ex HR (lookup_named _ _ _ _ El)) in Hw. discriminate.
Qed.

(** Broken tables are refused. *)
Lemma map_refused rs ins ins' r : map_table_ok maps syms text rs ->
  relocate_maps secoff maps syms text rs ins = Ok ins' ->
  In r rs -> secoff <= r_offset r < secoff + 8 * Z.of_nat (length ins) ->
  (exists i, sits_on secoff (length ins) r i) /\ syms (r_sym r) <> None.
Proof.
  intros HT H Hr Ho. destruct (map_run rs ins ins' HT H) as (L & HF & HP). destruct (HP r Hr) as (lr & E & _).
  unfold map_reloc_step in E. destruct (locate secoff (length ins) r) as [| |i] eqn:Hl.
  - exfalso. unfold locate, INS_SIZE in Hl.
    destruct ((r_offset r <? secoff) || (secoff + Z.of_nat (length ins) * 8 <=? r_offset r)) eqn:E1; [lia|].
    destruct (_ =? 0); discriminate.
  - discriminate.
  - apply locate_at in Hl. split; [now exists i|]. destruct (syms (r_sym r)); [discriminate|discriminate].
Qed.

Lemma map_order rs rs' ins ins' : map_table_ok maps syms text rs -> Permutation rs rs' ->
  relocate_maps secoff maps syms text rs ins = Ok ins' -> relocate_maps secoff maps syms text rs' ins = Ok ins'.
Proof.
  intros HT HP H. unfold relocate_maps in *. revert H. apply run_perm with (touch := map_touch secoff maps syms text (length ins)).
  - intros r l HA. apply map_local. exact HA.
  - exact HP.
  - now apply map_disjoint.
Qed.
End M.

Section X.
Variables (secoff : Z) (externs : name -> option extern) (syms : symtab).

Lemma ext_bad_code ins r lr i y : extern_step secoff externs syms r ins = Ok lr ->
  locate secoff (length ins) r = At i -> nth_error ins i = Some y -> ext_sym syms r = true ->
  code y = CALL_CODE \/ code y = LDDW_CODE.
Proof.
  unfold extern_step, ext_sym. intros H Hl Hy Hx. rewrite Hl in H. destruct (syms (r_sym r)) as [sym|]; [|discriminate].
  rewrite Hx in H. cbn [negb] in H. destruct (s_name sym) as [nm|]; [|discriminate]. destruct (externs nm); [|discriminate].
  rewrite Hy in H. destruct (code y =? CALL_CODE) eqn:E1; [left; lia|].
  destruct (code y =? LDDW_CODE) eqn:E2; [right; lia|discriminate].
Qed.

(** Disjointness holds when every extern relocation is on a call or a 64-bit
    load (anything else is refused anyway). *)
Lemma ext_disjoint ins rs : extern_table_ok secoff syms ins rs ->
  (forall r i y, In r rs -> locate secoff (length ins) r = At i -> nth_error ins i = Some y -> ext_sym syms r = true ->
     code y = CALL_CODE \/ code y = LDDW_CODE) ->
  ForallOrdPairs (disjoint (ext_touch secoff syms ins)) rs.
Proof.
  intros [ND HS] HC. eapply ford_impl_in; [|apply nodup_pairs; exact ND].
  cbv beta. intros a b Ha Hb Hne j. unfold ext_touch.
  assert (Hw : forall p q i, In p rs -> In q rs -> locate secoff (length ins) p = At i ->
     ext_sym syms p && match nth_error ins i with Some y => negb (code y =? CALL_CODE) | None => false end = true ->
     r_offset q <> r_offset p + 8).
  { intros p q i Hp Hq Hl Hw. apply andb_true_iff in Hw. destruct Hw as [Hx Hw].
    destruct (nth_error ins i) as [y|] eqn:Ey; [|discriminate].
    destruct (HC p i y Hp Hl Ey Hx) as [E|E]; [lia|]. apply locate_at in Hl.
    eapply HS; eauto. unfold ext_sym in Hx. destruct (syms (r_sym p)) as [sym|]; [eauto|discriminate]. }
  destruct (locate secoff (length ins) a) as [| |i] eqn:Ea; try discriminate.
  destruct (locate secoff (length ins) b) as [| |i'] eqn:Eb; try discriminate.
  pose proof Ea as Ea'. pose proof Eb as Eb'.
  apply locate_at in Ea, Eb. destruct Ea as [_ Ea], Eb as [_ Eb].
  rewrite !orb_true_iff.
  intros [H1|H1] [H2|H2]; try (apply andb_true_iff in H1; destruct H1 as [W1 H1]); try (apply andb_true_iff in H2; destruct H2 as [W2 H2]);
    apply Nat.eqb_eq in H1, H2; subst.
  - lia.
  - specialize (Hw b a i' Hb Ha Eb' W2). lia.
  - specialize (Hw a b i Ha Hb Ea' W1). lia.
  - lia.
Qed.

(** A successful run has visited only calls and 64-bit loads. *)
Lemma ext_codes ins : forall rs l l', NoDup (map r_offset rs) -> length l = length ins ->
  (forall r i, In r rs -> locate secoff (length ins) r = At i -> option_map code (nth_error l i) = option_map code (nth_error ins i)) ->
  run_relocs (extern_step secoff externs syms) rs l = Ok l' ->
  forall r i y, In r rs -> locate secoff (length ins) r = At i -> nth_error ins i = Some y -> ext_sym syms r = true ->
     code y = CALL_CODE \/ code y = LDDW_CODE.
Proof.
  induction rs as [|q rs IH]; intros l l' ND HL HA H r i y Hr Hl Hy Hx; [contradiction|].
  cbn [run_relocs] in H. destruct (extern_step secoff externs syms q l) as [l1|] eqn:E; [|discriminate].
  cbn [map] in ND. inversion ND as [|? ? N1 N2]; subst.
  destruct Hr as [->|Hr].
  - pose proof (HA r i (or_introl eq_refl) Hl) as Hc. rewrite Hy in Hc. cbn in Hc.
    destruct (nth_error l i) as [y'|] eqn:Ey'; [|discriminate]. cbn in Hc. inversion Hc as [Hc'].
    rewrite <- HL in Hl. pose proof (ext_bad_code l r l1 i y' E Hl Ey' Hx). congruence.
  - eapply (IH l1 l' N2); eauto.
    + unfold extern_step in E. repeat (match type of E with
        | match ?q with _ => _ end = _ => destruct q; try discriminate
        end); inversion E; rewrite ?upd_length; congruence.
    + intros p k Hp Hk. rewrite <- (HA p k (or_intror Hp) Hk).
      assert (HKE : forall i0 v w, nth_error l i0 = Some w -> code v = code w -> option_map code (nth_error (upd i0 v l) k) = option_map code (nth_error l k)).
      { intros i0 v w Hw Hv. rewrite nth_error_upd. destruct (Nat.eqb_spec i0 k) as [->|]; [|reflexivity].
        destruct (k <? length l)%nat eqn:Ek.
        - rewrite Hw. cbn. congruence.
        - rewrite Hw. assert (k < length l)%nat by (apply nth_error_Some; congruence). lia. }
      unfold extern_step in E. rewrite HL in E.
      destruct (locate secoff (length ins) q) as [| |i0] eqn:Elq; [now inversion E|discriminate|].
      destruct (syms (r_sym q)) as [sym|]; [|discriminate]. destruct (negb (is_extern sym)); [now inversion E|].
      destruct (s_name sym) as [nm|]; [|discriminate]. destruct (externs nm) as [x|]; [|discriminate].
      destruct (nth_error l i0) as [w|] eqn:Ew; [|discriminate].
      destruct (code w =? CALL_CODE) eqn:Ec.
      * destruct (x_resolved x).
        -- destruct (x_btf_id x); inversion E; subst. eapply HKE; eauto.
        -- destruct (x_weak x); inversion E; subst. eapply HKE; eauto. cbn. lia.
      * destruct (code w =? LDDW_CODE); cbn [negb] in E; [|discriminate].
        destruct (match x_btf_id x with Some id => _ | None => _ end) as [[w' ni]|] eqn:Em; [|discriminate].
        destruct (nth_error l (S i0)) as [z|] eqn:Ez; [|discriminate]. inversion E; subst.
        assert (code w' = code w) as Hw'.
        { destruct (x_btf_id x); [inversion Em; reflexivity|]. destruct (x_addr x); [inversion Em; reflexivity|].
          destruct (x_weak x); inversion Em; reflexivity. }
        rewrite nth_error_upd, upd_length. destruct (Nat.eqb_spec (S i0) k) as [<-|].
        -- assert (S i0 < length l)%nat by (apply nth_error_Some; congruence).
           destruct (Nat.ltb_spec (S i0) (length l)); [|lia]. rewrite Ez. reflexivity.
        -- eapply HKE; eauto.
Qed.

Lemma ext_run rs ins ins' : extern_table_ok secoff syms ins rs ->
  patch_externs secoff externs syms rs ins = Ok ins' ->
  length ins' = length ins /\
  (forall j, (forall r, In r rs -> ext_touch secoff syms ins r j = false) -> nth_error ins' j = nth_error ins j) /\
  (forall r, In r rs -> exists lr, extern_step secoff externs syms r ins = Ok lr /\
     forall j, ext_touch secoff syms ins r j = true -> nth_error ins' j = nth_error lr j).
Proof.
  intros HT H. eapply run_spec with (l0 := ins).
  - intros r l HA. apply ext_local. exact HA.
  - apply ext_disjoint; [exact HT|]. eapply ext_codes; [apply HT|reflexivity|reflexivity|exact H].
  - apply agree_all.
  - reflexivity.
  - exact H.
Qed.

Lemma u32_i32 x : u32 (i32 x) = u32 x.
Proof. unfold u32, i32, wrap, swrap. destruct (_ <? _); lia. Qed.

Lemma split64 a : 0 <= a < 2 ^ 64 ->
  u32 (i32 (Z.land a (2 ^ 32 - 1))) + 2 ^ 32 * u32 (i32 (Z.shiftr a 32)) = a.
Proof.
  intros H. rewrite !u32_i32. replace (2 ^ 32 - 1) with (Z.ones 32) by reflexivity.
  rewrite Z.land_ones by lia. rewrite Z.shiftr_div_pow2 by lia. unfold u32, wrap. lia.
Qed.

Lemma ext_call rs ins ins' r i y x : extern_table_ok secoff syms ins rs ->
  patch_externs secoff externs syms rs ins = Ok ins' ->
  In r rs -> sits_on secoff (length ins) r i -> nth_error ins i = Some y ->
  extern_reference syms externs r x -> code y = CALL_CODE ->
  (x_resolved x = true /\ exists id, x_btf_id x = Some id /\
     nth_error ins' i = Some {| code := CALL_CODE; dst := dst y; src := BPF_PSEUDO_KFUNC_CALL; off := 0; imm := i32 id |})
  \/ (x_resolved x = false /\ x_weak x = true /\ nth_error ins' i = Some (poison_kfunc_call (r_sym r))).
Proof.
  intros HT H Hr Hs Hy (sym & nm & E1 & E2 & E3 & E4) Hc.
  destruct (ext_run rs ins ins' HT H) as (L & _ & HP). destruct (HP r Hr) as (lr & E & Ej).
  assert (Hi : (i < length ins)%nat) by apply Hs.
  apply locate_at in Hs.
  assert (Ht : ext_touch secoff syms ins r i = true).
  { unfold ext_touch. rewrite Hs, Nat.eqb_refl. reflexivity. }
  rewrite (Ej i Ht). unfold extern_step in E.
  rewrite Hs, E1, E2, E3, E4, Hy in E. cbn [negb] in E. rewrite Hc, Z.eqb_refl in E.
  destruct (x_resolved x).
  - left. split; [reflexivity|]. destruct (x_btf_id x) as [id|]; [|discriminate]. exists id. split; [reflexivity|].
    inversion E; subst. rewrite nth_error_upd_eq by exact Hi. unfold set_off, set_imm, set_src; cbn. now rewrite Hc.
  - right. destruct (x_weak x); [|discriminate]. inversion E; subst. rewrite nth_error_upd_eq by exact Hi. auto.
Qed.

Lemma ext_load rs ins ins' r i y x : extern_table_ok secoff syms ins rs ->
  patch_externs secoff externs syms rs ins = Ok ins' ->
  In r rs -> sits_on secoff (length ins) r i -> nth_error ins i = Some y ->
  extern_reference syms externs r x -> code y <> CALL_CODE ->
  code y = LDDW_CODE /\
  exists z lo hi, nth_error ins (S i) = Some z /\ nth_error ins' i = Some lo /\ nth_error ins' (S i) = Some hi /\
    hi = set_imm (imm hi) z /\ lo = set_src (src lo) (set_imm (imm lo) y) /\
    ((exists id, x_btf_id x = Some id /\ src lo = BPF_PSEUDO_BTF_ID /\ imm lo = i32 id /\ imm hi = 0)
     \/ (exists a, x_btf_id x = None /\ x_addr x = Some a /\ src lo = 0 /\ (0 <= a < 2 ^ 64 -> lddw_value lo hi = a))
     \/ (x_btf_id x = None /\ x_addr x = None /\ x_weak x = true /\ src lo = 0 /\ lddw_value lo hi = 0)).
Proof.
  intros HT H Hr Hs Hy (sym & nm & E1 & E2 & E3 & E4) Hc.
  destruct (ext_run rs ins ins' HT H) as (L & _ & HP). destruct (HP r Hr) as (lr & E & Ej).
  assert (Hi : (i < length ins)%nat) by apply Hs.
  apply locate_at in Hs. apply Z.eqb_neq in Hc.
  assert (Ht : ext_touch secoff syms ins r i = true).
  { unfold ext_touch. rewrite Hs, Nat.eqb_refl. reflexivity. }
  assert (Ht1 : ext_touch secoff syms ins r (S i) = true).
  { unfold ext_touch, ext_sym. rewrite Hs, E1, E2, Hy, Hc, Nat.eqb_refl. cbn [negb andb]. apply orb_true_r. }
  rewrite (Ej i Ht), (Ej (S i) Ht1). unfold extern_step in E.
  rewrite Hs, E1, E2, E3, E4, Hy in E. cbn [negb] in E. rewrite Hc in E.
  destruct (code y =? LDDW_CODE) eqn:El; cbn [negb] in E; [|discriminate]. apply Z.eqb_eq in El.
  split; [exact El|].
  destruct (nth_error ins (S i)) as [z|] eqn:Ez.
  2:{ destruct (match x_btf_id x with Some id => _ | None => _ end) as [[w' ni]|]; discriminate. }
  assert (S i < length ins)%nat by (apply nth_error_Some; congruence).
  destruct (x_btf_id x) as [id|].
  - inversion E; subst lr. exists z. eexists _, _. split; [reflexivity|].
    rewrite (nth_error_upd_ne (S i) i) by lia. rewrite !nth_error_upd_eq by (rewrite ?upd_length; lia).
    split; [reflexivity|split; [reflexivity|]]. split; [reflexivity|split; [reflexivity|]]. left. exists id. auto.
  - destruct (x_addr x) as [a|].
    + inversion E; subst lr. exists z. eexists _, _. split; [reflexivity|].
      rewrite (nth_error_upd_ne (S i) i) by lia. rewrite !nth_error_upd_eq by (rewrite ?upd_length; lia).
      split; [reflexivity|split; [reflexivity|]]. split; [reflexivity|split; [reflexivity|]]. right; left.
      exists a. repeat split; auto. intros Ha. unfold lddw_value. cbn [imm set_imm set_src]. now apply split64.
    + destruct (x_weak x); [|discriminate]. inversion E; subst lr. exists z. eexists _, _. split; [reflexivity|].
      rewrite (nth_error_upd_ne (S i) i) by lia. rewrite !nth_error_upd_eq by (rewrite ?upd_length; lia).
      split; [reflexivity|split; [reflexivity|]]. split; [reflexivity|split; [reflexivity|]]. right; right. auto.
Qed.

Lemma ext_untouched rs ins ins' j : extern_table_ok secoff syms ins rs ->
  patch_externs secoff externs syms rs ins = Ok ins' ->
  (forall r x, In r rs -> sits_on secoff (length ins) r j -> ~ extern_reference syms externs r x) ->
  (forall r i y x, In r rs -> j = S i -> sits_on secoff (length ins) r i -> nth_error ins i = Some y ->
     extern_reference syms externs r x -> code y = CALL_CODE) ->
  nth_error ins' j = nth_error ins j.
Proof.
  intros HT H H1 H2. destruct (ext_run rs ins ins' HT H) as (L & HF & HP).
  destruct (existsb (fun r => ext_touch secoff syms ins r j) rs) eqn:Ex.
  2:{ apply HF. intros r Hr. destruct (ext_touch secoff syms ins r j) eqn:Et; [|reflexivity].
      rewrite <- Ex. symmetry. apply existsb_exists. eauto. }
  apply existsb_exists in Ex. destruct Ex as (r & Hr & Ht). destruct (HP r Hr) as (lr & E & Ej).
  rewrite (Ej j Ht). clear Ej HF HP. unfold ext_touch, ext_sym in Ht. unfold extern_step in E.
  destruct (locate secoff (length ins) r) as [| |i] eqn:Hl; try discriminate. apply locate_at in Hl.
  destruct (syms (r_sym r)) as [sym|] eqn:Es; [|discriminate].
  destruct (is_extern sym) eqn:Eext; cbn [negb andb] in E, Ht; [|now inversion E].
  destruct (s_name sym) as [nm|] eqn:En; [|discriminate]. destruct (externs nm) as [x|] eqn:Exx; [|discriminate].
  assert (HR : extern_reference syms externs r x) by (exists sym, nm; auto).
  apply orb_true_iff in Ht. destruct Ht as [Ht|Ht].
  - apply Nat.eqb_eq in Ht. subst j. exfalso. exact (H1 r x Hr Hl HR).
  - apply andb_true_iff in Ht. destruct Ht as [Hc Ht]. apply Nat.eqb_eq in Ht. subst j.
    destruct (nth_error ins i) as [y|] eqn:Ey; [|discriminate].
    rewrite (H2 r i y x Hr eq_refl Hl Ey HR), Z.eqb_refl in Hc. discriminate.
Qed.

Lemma ext_order rs rs' ins ins' : extern_table_ok secoff syms ins rs -> Permutation rs rs' ->
  patch_externs secoff externs syms rs ins = Ok ins' -> patch_externs secoff externs syms rs' ins = Ok ins'.
Proof.
  intros HT HP H. unfold patch_externs in *.
  refine (run_perm _ (ext_touch secoff syms ins) ins _ rs rs' ins' HP _ H).
  - intros r l HA. apply ext_local. exact HA.
  - apply ext_disjoint; [exact HT|]. eapply ext_codes; [apply HT|reflexivity|reflexivity|exact H].
Qed.

(** Strong unresolved symbols make the load fail. *)
Lemma ext_strong rs ins r i y x : extern_table_ok secoff syms ins rs ->
  In r rs -> sits_on secoff (length ins) r i -> nth_error ins i = Some y ->
  extern_reference syms externs r x -> x_weak x = false ->
  (code y = CALL_CODE /\ x_resolved x = false \/ code y = LDDW_CODE /\ x_btf_id x = None /\ x_addr x = None) ->
  exists e, patch_externs secoff externs syms rs ins = Err e.
Proof.
  intros HT Hr Hs Hy HR Hw Hcase.
  destruct (patch_externs secoff externs syms rs ins) as [ins'|e] eqn:H; [exfalso|eauto].
  destruct Hcase as [[Hc Hu]|(Hc & Hu & Ha)].
  - destruct (ext_call rs ins ins' r i y x HT H Hr Hs Hy HR Hc) as [[X _]|(_ & X & _)]; congruence.
  - destruct (ext_load rs ins ins' r i y x HT H Hr Hs Hy HR) as (_ & z & lo & hi & _ & _ & _ & _ & _ & [X|[X|X]]).
    + unfold CALL_CODE, LDDW_CODE in *. lia.
    + destruct X as (id & X & _). congruence.
    + destruct X as (a & _ & X & _). congruence.
    + destruct X as (_ & _ & X & _). congruence.
Qed.
End X.

Lemma poison_imm idx : Z.of_nat idx < 145483648 -> imm (poison_kfunc_call idx) = 2002000000 + Z.of_nat idx.
Proof.
  intros H. unfold poison_kfunc_call; cbn [imm]. unfold i32, swrap.
  assert (E : Z.of_nat idx mod 2 ^ 32 = Z.of_nat idx) by (apply Z.mod_small; lia). rewrite E.
  change (2 ^ (32 - 1)) with 2147483648. change (2 ^ 32) with 4294967296.
  destruct (Z.ltb_spec (Z.of_nat idx) 2147483648); [|lia].
  rewrite Z.mod_small by lia. destruct (Z.ltb_spec (2002000000 + Z.of_nat idx) 2147483648); lia.
Qed.
