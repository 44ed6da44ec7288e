(** Maps, BTF and kernel symbols of a parsed file. *)
From Coq Require Import String Permutation.
From Verif Require Import Base Text Insn LinkModel BtfTypes BtfModel BtfExt BtfSanitize ExternModel ObjModel ObjSpec ObjProofs ObjProofs2 ObjProofs3 ObjProofs4 LoaderModel ParseModel ParseSpec ParseProofs ParseProofs2 ParseProofs3.
Local Open Scope Z_scope.

(** * Names of the symbols of a section *)
Definition named_sym (x : nat * symbol) : list (name * nat) := match s_name (snd x) with Some n => [(n, fst x)] | None => [] end.
Lemma assoc_app {V} n (l l' : list (list Z * V)) : assoc str_eqb n (l ++ l') = match assoc str_eqb n l with Some v => Some v | None => assoc str_eqb n l' end.
Proof. induction l as [|[k v] l IH]; cbn [assoc app]; [reflexivity|]. destruct (str_eqb n k); auto. Qed.
Fixpoint rising (l : list (nat * symbol)) : Prop := match l with [] => True | x :: l => Forall (fun y => (fst x < fst y)%nat) l /\ rising l end.
Lemma last_named n l : rising l -> forall i, assoc str_eqb n (rev (flat_map named_sym l)) = Some i <->
  exists s, In (i, s) l /\ s_name s = Some n /\ forall j s', In (j, s') l -> s_name s' = Some n -> (j <= i)%nat.
Proof.
  induction l as [|[k s] l IH]; cbn [rising flat_map rev]; intros RS i.
  - cbn. split; [discriminate|intros (s & [] & _)].
  - destruct RS as [R1 R2]. rewrite Forall_forall in R1. rewrite rev_app_distr, assoc_app. specialize (IH R2). destruct (assoc str_eqb n (rev (flat_map named_sym l))) as [v|] eqn:A.
    + pose proof (proj1 (IH v) eq_refl) as (sv & V1 & V2 & V3). split.
      * intros H. apply some_inj in H. subst v. exists sv. split; [now right|]. split; [exact V2|]. intros j s' [X|X] N; [|exact (V3 j s' X N)].
        injection X as <- <-. pose proof (R1 _ V1). cbn [fst] in *. lia.
      * intros (s0 & I & N & MX). f_equal. pose proof (MX v sv (or_intror V1) V2) as L1. destruct I as [I|I].
        -- injection I as <- <-. pose proof (R1 _ V1). cbn [fst] in *. lia.
        -- pose proof (V3 i s0 I N). lia.
    + assert (forall j s', In (j, s') l -> s_name s' <> Some n) as NO.
      { assert (forall m : list (list Z * nat), assoc str_eqb n (rev m) = None -> ~ In n (map fst m)) as G.
        { intros m H X. apply (assoc_none str_eqb str_eqb_eq) in H. apply H. rewrite map_rev. now apply in_rev in X. }
        intros j s' I N. apply (G _ A). apply in_map_iff. exists (n, j). split; [reflexivity|]. apply in_flat_map. exists (j, s'). split; [exact I|]. unfold named_sym. cbn [fst snd]. rewrite N. now left. }
      unfold named_sym at 1. cbn [fst snd]. destruct (s_name s) as [m|] eqn:N.
      * cbn [rev app assoc]. destruct (str_eqb n m) eqn:Q.
        -- apply str_eqb_eq in Q. subst m. split.
           ++ intros H. apply some_inj in H. subst k. exists s. split; [now left|]. split; [exact N|]. intros j s' [X|X] N'; [injection X as <- <-; lia|]. exfalso. exact (NO j s' X N').
           ++ intros (s0 & [I|I] & N' & _); [injection I as <- <-; reflexivity|]. exfalso. exact (NO _ _ I N').
        -- split; [discriminate|]. intros (s0 & [I|I] & N' & _).
           ++ injection I as <- <-. rewrite N in N'. injection N' as ->. rewrite (proj2 (str_eqb_eq _ _) eq_refl) in Q. discriminate Q.
           ++ exfalso. exact (NO _ _ I N').
      * cbn [rev app assoc]. split; [discriminate|]. intros (s0 & [I|I] & N' & _); [injection I as <- <-; congruence|]. exfalso. exact (NO _ _ I N').
Qed.
Lemma rising_filter p l : rising l -> rising (filter p l).
Proof.
  induction l as [|x l IH]; cbn [rising filter]; [auto|]. intros [H1 H2]. destruct (p x); [|auto]. cbn [rising]. split; [|auto].
  rewrite Forall_forall in *. intros y Y. apply filter_In in Y as [Y _]. auto.
Qed.
Lemma rising_here e i : rising (by_section e i).
Proof.
  apply rising_filter. unfold numbered. generalize (syms e). intros l. generalize 0%nat. induction l as [|x l IH]; intros n; cbn [length seq combine rising]; [auto|].
  split; [|apply IH]. apply Forall_forall. intros [j s] X. apply in_combine_l, in_seq in X. cbn [fst]. lia.
Qed.

(** * Maps *)
Section Maps.
Variables (e : elf) (t : types).
Hypothesis R : regular e.
Definition btf_map (sec : osec) (i : nat) (d : mstate) : omap :=
  {| om_btf := true; om_kind := KBtfMaps; om_section := os_index sec; om_symbol := Some i; om_def := fst d; om_inner := snd d; om_data := [] |}.
Lemma entries_ok b sec sy es r : btf_entries b sec sy es = Ok r ->
  Forall2 (fun x nm => exists d i, btf_map_def b x = Ok (fst nm, d) /\ assoc str_eqb (fst nm) sy = Some i /\ snd nm = btf_map sec i d) es r.
Proof.
  revert r. induction es as [|x es IH]; intros r; cbn [btf_entries].
  - intros H. apply ok_inj in H. subst r. constructor.
  - intros H. apply bind_ok in H as ([n d] & D & H). cbn [fst snd] in H. destruct (assoc str_eqb n sy) as [i|] eqn:A; [|discriminate H].
    apply bind_ok in H as (r' & H' & H). apply ok_inj in H. subst r. constructor; [|now apply IH]. exists d, i. cbn [fst snd]. auto.
Qed.
Lemma secs_ok b sec sy ts : forall r, btf_secs b sec sy ts = Ok r -> forall n m, In (n, m) r <->
  exists h es x d i, In (TDataSec h es) ts /\ string_at b (h_name h) = Ok (os_name sec) /\ In x es /\ btf_map_def b x = Ok (n, d) /\ assoc str_eqb n sy = Some i /\ m = btf_map sec i d.
Proof.
  induction ts as [|ty ts IH]; intros r H n m.
  - apply ok_inj in H. subst r. split; [intros []|intros (h & es & x & d & i & [] & _)].
  - assert ((exists h es, ty = TDataSec h es) \/ btf_secs b sec sy (ty :: ts) = btf_secs b sec sy ts /\ (forall h es, ty <> TDataSec h es)) as [(h & es & ->)|[Q N]].
    { destruct ty; try (right; split; [reflexivity|intros ? ? X; discriminate X]). left. eauto. }
    + cbn [btf_secs] in H. apply bind_ok in H as (nm & NM & H). apply bind_ok in H as (l & L & H). apply bind_ok in H as (r' & R' & H). apply ok_inj in H. subst r.
      rewrite in_app_iff, (IH r' R' n m). 
      assert (string_at b (h_name h) = Ok nm) as NM' by (destruct (string_at b (h_name h)); [now apply ok_inj in NM; subst|discriminate NM]).
      assert (In (n, m) l <-> exists x d i, string_at b (h_name h) = Ok (os_name sec) /\ In x es /\ btf_map_def b x = Ok (n, d) /\ assoc str_eqb n sy = Some i /\ m = btf_map sec i d) as G.
      { destruct (str_eqb nm (os_name sec)) eqn:SE.
        - apply str_eqb_eq in SE. subst nm. pose proof (entries_ok _ _ _ _ _ L) as F. split.
          + intros X. destruct (forall2_right _ _ _ _ F X) as (x & X1 & d & i & D & A & M). cbn [fst snd] in *. exists x, d, i. auto.
          + intros (x & d & i & _ & X & D & A & M). destruct (forall2_left _ _ _ _ F X) as ([n' m'] & X1 & d' & i' & D' & A' & M'). cbn [fst snd] in *.
            rewrite D in D'. apply ok_inj in D'. injection D' as <- <-. rewrite A in A'. injection A' as <-. now rewrite M, <- M'.
        - apply ok_inj in L. subst l. split; [intros []|]. intros (x & d & i & S & _). rewrite NM' in S. apply ok_inj in S. subst nm. rewrite (proj2 (str_eqb_eq _ _) eq_refl) in SE. discriminate SE. }
      rewrite G. split.
      * intros [(x & d & i & X)|(h' & es' & x & d & i & I & X)]; [exists h, es, x, d, i; split; [now left|exact X]|exists h', es', x, d, i; split; [now right|exact X]].
      * intros (h' & es' & x & d & i & [I|I] & X); [injection I as <- <-; left; exists x, d, i; exact X|right; exists h', es', x, d, i; auto].
    + rewrite Q in H. rewrite (IH r H n m). split; intros (h & es & x & d & i & I & X); exists h, es, x, d, i; (split; [|exact X]); [now right|]. destruct I as [I|I]; [exfalso; exact (N h es I)|exact I].
Qed.

Lemma section_maps sec l : of_object e sec -> parse_section e t sec = Ok l -> forall n m, In (n, m) (pt_maps l) <-> defines e (ty_btf t) sec n m.
Proof.
  intros O H n m.
  assert (forall k, kind_is sec k -> k <> KDataS -> k <> KRodata -> k <> KBss -> k <> KMaps -> k <> KBtfMaps -> pt_maps l = [] -> In (n, m) (pt_maps l) <-> defines e (ty_btf t) sec n m) as NONE.
  { intros k K N1 N2 N3 N4 N5 Q. rewrite Q. split; [intros []|]. intros D. destruct D as [k' K' KK _ _|i s d K' _|tt h es x i s d K' _]; unfold kind_is in *.
    - destruct KK as [-> | [-> | ->]]; congruence.
    - congruence.
    - congruence. }
  assert (forall k, kind_is sec k -> k = KDataS \/ k = KRodata \/ k = KBss -> In (n, m) (pt_maps l) <-> defines e (ty_btf t) sec n m) as DATA.
  { intros k K KK. assert (exists m0, data_map sec k = Ok m0 /\ pt_maps l = [(os_name sec, m0)]) as (m0 & D & Q).
    { unfold parse_section in H. rewrite K in H. destruct KK as [-> | [-> | ->]]; apply bind_ok in H as (m0 & D & H); apply ok_inj in H; subst l; exists m0; split; auto. }
    rewrite Q. split.
    - intros [X|[]]. injection X as <- <-. exact (def_data _ _ _ _ _ k K KK D eq_refl).
    - intros X. destruct X as [k' K' KK' D' ->|i s d K' _|tt h es x i s d K' _]; unfold kind_is in *.
      + assert (k' = k) as -> by congruence. rewrite D in D'. apply ok_inj in D'. subst m0. now left.
      + destruct KK as [-> | [-> | ->]]; congruence.
      + destruct KK as [-> | [-> | ->]]; congruence. }
  destruct (section_kind (os_name sec) (os_exec sec) (os_size sec)) eqn:K.
  - apply (NONE KUndefined K); try discriminate. unfold parse_section in H. rewrite K in H. apply ok_inj in H. now subst l.
  - (* maps *)
    clear NONE DATA. unfold parse_section in H. rewrite K in H. apply bind_ok in H as (r & P & H). apply ok_inj in H. subst l. cbn [only_maps pt_maps].
    assert (Forall (fun x => sym_ok (snd x)) (by_section e (os_index sec))) as W.
    { apply Forall_forall. intros [i s] X. apply here_in in X as [X _]. exact (symbol_words e i s R X). }
    destruct (maps_parsed sec KMaps _ r W P) as [_ F]. split.
    + intros X. destruct (forall2_right _ _ _ _ F X) as ([i s] & I & M1 & M2 & M3 & M4 & M5 & M6 & M7 & M8 & M9). cbn [fst snd] in *. apply here_in in I.
      eapply (def_legacy _ _ _ _ _ i s (om_def m) K I M1); [destruct (symbol_words e i s R (proj1 I)); lia|exact M8|exact M9|]. destruct m. cbn in *. congruence.
    + intros D. destruct D as [k' K' KK _ _|i s d K' I N A1 A2 D ->|tt h es x i s d K' _]; unfold kind_is in *; [destruct KK as [-> | [-> | ->]]; congruence| |congruence].
      apply here_in in I. destruct (forall2_left _ _ _ _ F I) as ([n' m'] & X & M1 & M2 & M3 & M4 & M5 & M6 & M7 & M8 & M9). cbn [fst snd] in *.
      rewrite D in M9. apply ok_inj in M9. rewrite N in M1. injection M1 as <-. destruct m'. cbn in *. subst. exact X.
  - (* .maps *)
    clear NONE DATA. unfold parse_section in H. rewrite K in H. destruct (ty_btf t) as [b|] eqn:B; [|discriminate H].
    assert (exists r, btf_secs b sec (rev (flat_map named_sym (by_section e (os_index sec)))) (b_types b) = Ok r /\ l = only_maps r) as (r & P & ->).
    { destruct (by_section e (os_index sec)); [discriminate H|]. apply bind_ok in H as (r & P & H). apply ok_inj in H. exists r. split; [exact P|now symmetry]. }
    cbn [only_maps pt_maps]. rewrite (secs_ok _ _ _ _ _ P). clear H P. split.
    + intros (h & es & x & d & i & I & N & X & D & A & ->). apply (last_named n _ (rising_here e (os_index sec))) in A as (s & S1 & S2 & S3). apply here_in in S1.
      apply (def_btf _ _ _ _ _ b h es x i s d K eq_refl I N X D S1 S2); [|reflexivity]. intros j s' J NJ. apply (S3 j s'); [now apply here_in|exact NJ].
    + intros D. destruct D as [k' K' KK _ _|i s d K' _|tt h es x i s d K' Q I N X D S1 S2 S3 ->]; unfold kind_is in *; [destruct KK as [-> | [-> | ->]]; congruence|congruence|].
      injection Q as <-. exists h, es, x, d, i. repeat (split; [assumption|]). split; [|reflexivity]. apply (last_named n _ (rising_here e (os_index sec))).
      exists s. split; [now apply here_in|]. split; [exact S2|]. intros j s' J NJ. apply (S3 j s'); [now apply here_in|exact NJ].
  - apply (NONE KProgram K); try discriminate. exact (match program_part e t R sec l O K H with ex_intro _ k (ex_intro _ r (conj _ (conj _ (conj _ (conj _ (conj _ (conj X _))))))) => X end).
  - apply (DATA KDataS K). auto.
  - apply (DATA KRodata K). auto.
  - apply (DATA KBss K). auto.
  - apply (NONE KTextS K); try discriminate. exact (match text_part e t R sec l O K H with ex_intro _ r (conj _ (conj _ (conj _ (conj _ (conj X _))))) => X end).
  - apply (NONE KBtf K); try discriminate. unfold parse_section in H. rewrite K in H. apply ok_inj in H. now subst l.
  - apply (NONE KBtfExt K); try discriminate. unfold parse_section in H. rewrite K in H. apply ok_inj in H. now subst l.
  - apply (NONE KLicense K); try discriminate. unfold parse_section in H. rewrite K in H. apply ok_inj in H. now subst l.
  - apply (NONE KVersion K); try discriminate. unfold parse_section in H. rewrite K in H. apply ok_inj in H. now subst l.
Qed.

Lemma maps_are ls : mapM (parse_section e t) (others e) = Ok ls ->
  NoDup (map fst (p_maps (assemble e t ls))) /\
  (forall n m, In (n, m) (p_maps (assemble e t ls)) -> exists sec, of_object e sec /\ defines e (ty_btf t) sec n m) /\
  (forall sec n m, of_object e sec -> defines e (ty_btf t) sec n m -> exists m', In (n, m') (p_maps (assemble e t ls))) /\
  (maps_distinct e (ty_btf t) -> forall sec n m, of_object e sec -> defines e (ty_btf t) sec n m -> In (n, m) (p_maps (assemble e t ls))).
Proof.
  intros M. cbn [assemble p_maps]. 
  assert (forall n m, In (n, m) (flat_map pt_maps ls) <-> exists sec, of_object e sec /\ defines e (ty_btf t) sec n m) as G.
  { intros n m. rewrite (parts_in e t ls M pt_maps). split.
    - intros (sec & l & [O P] & X). exists sec. split; [exact O|]. now apply (section_maps sec l O P).
    - intros (sec & O & D). destruct (section_parsed e t ls M sec O) as (l & L). exists sec, l. split; [exact L|]. now apply (section_maps sec l O (proj2 L)). }
  split; [exact (table_nodup str_eqb str_eqb_eq _)|]. split; [|split].
  - intros n m X. apply (table_in str_eqb str_eqb_eq) in X. now apply last_in, G in X.
  - intros sec n m O D. destruct (last_some name_dec (flat_map pt_maps ls) n) as (m' & X).
    + apply in_map_iff. exists (n, m). split; [reflexivity|]. apply G. eauto.
    + exists m'. now apply (table_in str_eqb str_eqb_eq).
  - intros MD sec n m O D. apply (table_in str_eqb str_eqb_eq). apply (last_agree name_dec); [|apply G; eauto].
    intros m' X. apply G in X as (sec' & O' & D'). exact (MD sec' n m' sec m O' O D' D).
Qed.
End Maps.

(** * Kernel symbols *)
Lemma find_ksyms_ok b ts : forall i r, find_ksyms b ts i = Ok r ->
  match r with
  | None => forall h es, In (TDataSec h es) ts -> exists n, string_at b (h_name h) = Ok n /\ n <> txt ".ksyms"
  | Some (k, es) => exists j, k = i + Z.of_nat j /\ (exists h, nth_error ts j = Some (TDataSec h es) /\ string_at b (h_name h) = Ok (txt ".ksyms")) /\
      forall j' h es', (j' < j)%nat -> nth_error ts j' = Some (TDataSec h es') -> exists n, string_at b (h_name h) = Ok n /\ n <> txt ".ksyms"
  end.
Proof.
  induction ts as [|ty ts IH]; intros i r H.
  - apply ok_inj in H. subst r. intros h es [].
  - assert ((exists h es, ty = TDataSec h es) \/ find_ksyms b (ty :: ts) i = find_ksyms b ts (i + 1) /\ (forall h es, ty <> TDataSec h es)) as C.
    { destruct ty; try (right; split; [reflexivity|intros ? ? X; discriminate X]). left. eauto. }
    assert (forall r, find_ksyms b ts (i + 1) = Ok r -> (forall h es, ty = TDataSec h es -> exists n, string_at b (h_name h) = Ok n /\ n <> txt ".ksyms") ->
      match r with
      | None => forall h es, In (TDataSec h es) (ty :: ts) -> exists n, string_at b (h_name h) = Ok n /\ n <> txt ".ksyms"
      | Some (k, es) => exists j, k = i + Z.of_nat j /\ (exists h, nth_error (ty :: ts) j = Some (TDataSec h es) /\ string_at b (h_name h) = Ok (txt ".ksyms")) /\
          forall j' h es', (j' < j)%nat -> nth_error (ty :: ts) j' = Some (TDataSec h es') -> exists n, string_at b (h_name h) = Ok n /\ n <> txt ".ksyms"
      end) as G.
    { clear H r. intros r H F. pose proof (IH _ _ H) as X. destruct r as [[k es]|].
      - destruct X as (j & -> & X1 & X2). exists (S j). split; [lia|]. split; [exact X1|]. intros j' h es' L N. destruct j' as [|j']; [injection N as ->; eauto|]. apply (X2 j' h es'); [lia|exact N].
      - intros h es [I|I]; eauto. }
    destruct C as [(h & es & ->)|[Q N]].
    + cbn [find_ksyms] in H. apply bind_ok in H as (n & S & H). destruct (str_eqb n (txt ".ksyms")) eqn:Q.
      * apply str_eqb_eq in Q. subst n. apply ok_inj in H. subst r. exists 0%nat. split; [lia|]. split; [exists h; auto|]. intros; lia.
      * apply (G r H). intros h' es' X. injection X as <- <-. exists n. split; [exact S|]. intros ->. rewrite (proj2 (str_eqb_eq _ _) eq_refl) in Q. discriminate Q.
    + rewrite Q in H. apply (G r H). intros h es X. exfalso. exact (N h es X).
Qed.
Lemma has_functions_ok b es f : has_functions b es = Ok f -> (f = true <-> functions_in b es).
Proof.
  revert f. induction es as [|x es IH]; intros f; cbn [has_functions].
  - intros H. apply ok_inj in H. subst f. split; [discriminate|intros (x & h & [] & _)].
  - intros H. apply bind_ok in H as (ty & T & H). assert ((exists h, ty = TFunc h) \/ (has_functions b es = Ok f /\ forall h, ty <> TFunc h)) as [(h & ->)|[H' N]].
    { destruct ty; try (right; split; [exact H|intros ? X; discriminate X]). left. eauto. }
    + apply ok_inj in H. subst f. split; [|reflexivity]. intros _. exists x, h. split; [now left|exact T].
    + rewrite (IH f H'). split; intros (y & h & I & Y).
      * exists y, h. split; [now right|exact Y].
      * destruct I as [<-|I]; [rewrite T in Y; apply ok_inj in Y; exfalso; exact (N h Y)|]. exists y, h. auto.
Qed.
Lemma weak_found e n w : weak_of e n = Some w -> exists s, symbol_called e n s /\ s_weak s = w.
Proof.
  unfold weak_of. destruct (find _ (syms e)) as [s|] eqn:F; [|discriminate]. cbn [option_map]. intros H. apply some_inj in H. exists s. split; [|exact H].
  apply find_some in F as [I Q]. destruct (s_name s) as [m|] eqn:N; [|discriminate Q]. apply str_eqb_eq in Q. subst m.
  apply In_nth_error in I as (i & I). exists i. split; [|exact N]. unfold syms in I. rewrite nth_error_map in I. unfold symbol_is. destruct (nth_error (el_syms e) i) as [x|]; [|discriminate I].
  cbn [option_map] in I. apply some_inj in I. eauto.
Qed.
Lemma entry_ok e b x n d : process_entry b (weak_of e) (de_type x) = Ok (n, d) -> extern_entry e b x n d.
Proof.
  unfold process_entry. intros H. apply bind_ok in H as (ty & T & H). apply bind_ok in H as ([[n' f] r'] & N & H).
  destruct (weak_of e n') as [w|] eqn:W; [|discriminate H]. apply bind_ok in H as (r & RS & H). apply ok_inj in H. injection H as <- <-. destruct (weak_found _ _ _ W) as (s & S & <-).
  destruct ty; try discriminate N; apply bind_ok in N as (n1 & N & N'); apply ok_inj in N'; injection N' as <- <- <-.
  - exists h, true, s, r. repeat split; auto.
  - exists h, false, s, r. split; [right; eauto|]. repeat split; auto.
Qed.
Lemma find_int4_ok ts : forall i id, 0 <= i -> find_int4 ts i = Some id -> exists h w, nth_error ts (Z.to_nat (id - i)) = Some (TInt h w) /\ h_third h = 4 /\ i <= id.
Proof.
  induction ts as [|ty ts IH]; intros i id P H; [discriminate H|].
  assert (forall id, find_int4 ts (i + 1) = Some id -> exists h w, nth_error (ty :: ts) (Z.to_nat (id - i)) = Some (TInt h w) /\ h_third h = 4 /\ i <= id) as G.
  { clear H id. intros id H. destruct (IH (i + 1) id ltac:(lia) H) as (h & w & H1 & H2 & H3). exists h, w. split; [|split; [exact H2|lia]].
    replace (Z.to_nat (id - i)) with (S (Z.to_nat (id - (i + 1)))) by lia. exact H1. }
  destruct ty; try exact (G id H). cbn [find_int4] in H. destruct (Z.eqb_spec (h_third h) 4) as [EQ|NE]; [|exact (G id H)].
  apply some_inj in H. subst id. eexists h, _. rewrite Z.sub_diag. split; [reflexivity|]. split; [exact EQ|lia].
Qed.
Lemma by_id_nth ts n ty : nth_error ts n = Some ty -> type_by_id ts (Z.of_nat n) = Ok ty.
Proof. intros H. unfold type_by_id. rewrite Nat2Z.id, H. destruct (Z.leb_spec 0 (Z.of_nat n)); [reflexivity|lia]. Qed.
Lemma placeholder_ok b b' id : add_placeholder b = (b', id) -> file_small b -> with_placeholder b b' id.
Proof.
  intros H [S1 S2]. unfold add_placeholder in H.
  assert (forall s, (length s = 22)%nat -> firstn 22 (skipn (length (b_strings b)) (b_strings b ++ s)) = s) as SK.
  { intros s L. rewrite skipn_app_exact by reflexivity. rewrite <- L. apply firstn_all. }
  destruct (find_int4 (b_types b) 0) as [id0|] eqn:F.
  - destruct (find_int4_ok _ _ _ (Z.le_refl 0) F) as (hi & w & F1 & F2 & F3). rewrite Z.sub_0_r in F1.
    unfold add_string, add_type in H. apply pair_equal_spec in H as [<- <-].
    set (s := txt "ksym_func_placeholder" ++ [0]). 
    assert (u32 (Z.of_nat (length (b_types b))) = Z.of_nat (length (b_types b))) as U by (unfold u32, wrap; apply Z.mod_small; lia).
    assert (u32 (Z.of_nat (length (b_strings b))) = Z.of_nat (length (b_strings b))) as U' by (unfold u32, wrap; apply Z.mod_small; lia).
    unfold with_placeholder. cbn [b_strings b_types]. rewrite U, U'. eexists s, _, _, hi, w. split; [reflexivity|]. split; [reflexivity|]. split.
    + apply by_id_nth. rewrite nth_error_app2, Nat.sub_diag by lia. reflexivity.
    + split; [lia|]. cbn [h_name h_third]. split; [rewrite Nat2Z.id; apply SK; reflexivity|]. split; [|exact F2].
      rewrite <- (Z2Nat.id id0) by lia. apply by_id_nth. rewrite nth_error_app1; [exact F1|]. apply nth_error_Some. congruence.
  - unfold add_string, add_type in H. cbn [b_strings b_types] in H. apply pair_equal_spec in H as [<- <-].
    assert (u32 (Z.of_nat (length (b_types b))) = Z.of_nat (length (b_types b))) as U by (unfold u32, wrap; apply Z.mod_small; lia).
    assert (u32 (Z.of_nat (length (b_types b ++ [new_int (u32 (Z.of_nat (length (b_strings b)))) 4 1 0]))) = Z.of_nat (S (length (b_types b)))) as U2.
    { rewrite app_length. cbn [length]. unfold u32, wrap. rewrite Z.mod_small by lia. lia. }
    assert (u32 (Z.of_nat (length (b_strings b ++ txt "int" ++ [0]))) = Z.of_nat (length (b_strings b) + 4)) as U'.
    { rewrite app_length. change (length (txt "int" ++ [0])) with 4%nat. unfold u32, wrap. rewrite Z.mod_small by lia. lia. }
    unfold with_placeholder. cbn [b_strings b_types]. rewrite U, U2, U'. set (n := u32 (Z.of_nat (length (b_strings b)))).
    exists ((txt "int" ++ [0]) ++ txt "ksym_func_placeholder" ++ [0]). do 4 eexists. split; [symmetry; apply app_assoc|]. split; [symmetry; apply app_assoc|].
    rewrite <- !app_assoc. split; [apply by_id_nth; rewrite nth_error_app2 by lia; replace (S (length (b_types b)) - length (b_types b))%nat with 1%nat by lia; reflexivity|].
    split; [lia|]. cbn [h_name h_third new_var]. split.
    + rewrite Nat2Z.id. rewrite app_assoc, app_assoc, <- (app_assoc _ (txt "int") [0]). rewrite skipn_app_exact; [reflexivity|]. rewrite app_length. reflexivity.
    + split; [apply by_id_nth; rewrite nth_error_app2, Nat.sub_diag by lia; reflexivity|reflexivity].
Qed.

Lemma types_spec e t ls : the_types e = Ok t -> types_are e (assemble e t ls).
Proof.
  intros H. pose proof (types_ext e t H) as X. unfold the_types in H. destruct (section_named (txt ".BTF") e) as [s|] eqn:Q.
  - apply bind_ok in H as (b & Hb & H). apply bind_ok in H as (x & Hx & H). apply bind_ok in H as ([[b' xs] ks] & Hk & H). apply ok_inj in H. subst t. cbn [ty_ext] in X.
    assert (btf_read e b x) as RD.
    { split.
      - exists s. split; [now apply named_first|]. destruct (btf_parse (os_data s)); [now apply ok_inj in Hb; subst|discriminate Hb].
      - destruct (section_named (txt ".BTF.ext") e) as [s'|] eqn:Q'.
        + left. apply bind_ok in Hx as (y & Hy & Hx). apply ok_inj in Hx. subst x. exists s', y. split; [now apply named_first|]. split; [|reflexivity].
          destruct (ext_parse b (el_big e) (os_data s')); [now apply ok_inj in Hy; subst|discriminate Hy].
        + right. apply ok_inj in Hx. split; [now apply named_none|now symmetry]. }
    destruct (collect_ksyms e b) as [[[b1 xs1] ks1]|] eqn:CK; [|discriminate Hk]. apply ok_inj in Hk. injection Hk as -> -> ->.
    unfold collect_ksyms in CK. apply bind_ok in CK as (k & FK & CK). pose proof (find_ksyms_ok _ _ _ _ FK) as KS. destruct k as [[ds es]|].
    + destruct KS as (i & -> & K1 & K2). rewrite Z.add_0_l in *. apply bind_ok in CK as (f & HF & CK). pose proof (has_functions_ok _ _ _ HF) as FI.
      destruct (if f then let (b0, id) := add_placeholder b in (b0, Some id) else (b, None)) as [b2 place] eqn:PL. apply bind_ok in CK as (l & ML & CK). apply ok_inj in CK.
      injection CK as -> <- <-. eapply (types_ksyms e _ b x i es b' place l RD (conj K1 K2)); cbn [assemble p_btf p_externs p_ksyms p_relos ty_btf ty_ext ty_externs ty_ksyms]; auto.
      * destruct f.
        -- right. split; [now apply FI|]. destruct (add_placeholder b) as [b3 id] eqn:AP. injection PL as -> <-. exists id. split; [reflexivity|]. exact (placeholder_ok b b' id AP).
        -- left. injection PL as -> <-. split; [intros F; apply FI in F; discriminate F|auto].
      * pose proof (mapM_ok _ _ _ ML) as F. clear -F. induction F as [|y [n d] es l E F IH]; constructor; [exact (entry_ok e b' y n d E)|exact IH].
      * exact (table_nodup str_eqb str_eqb_eq l).
      * intros n d. exact (table_in str_eqb str_eqb_eq l n d).
      * pose proof (mapM_ok _ _ _ ML) as F. destruct F; reflexivity.
    + apply ok_inj in CK. injection CK as <- <- <-. apply (types_plain e _ b x RD KS); reflexivity.
  - apply ok_inj in H. subst t. apply types_none; try reflexivity. now apply named_none.
Qed.

