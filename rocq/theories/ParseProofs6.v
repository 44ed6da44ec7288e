(** The order of the sections does not matter; loading a file. *)
From Coq Require Import String Permutation.
From Verif Require Import Base Text Insn LinkModel BtfTypes BtfModel BtfExt CoreModel CoreProofs2 BtfSanitize ExternModel ExternSpec ObjModel ObjSpec ObjProofs ObjProofs2 ObjProofs3 ObjProofs4 ObjProofs5
  WholeModel WholeSpec LoaderModel LoaderSpec LoaderProofs LoaderProofs2 LoaderProofs3 ParseModel ParseSpec ParseProofs ParseProofs2 ParseProofs3 ParseProofs4 ParseProofs5.
Local Open Scope Z_scope.

(** * Order *)
Lemma named_perm (l l' : list osec) n : Permutation l l' -> NoDup (map os_name l) -> find (fun s => str_eqb (os_name s) n) l = find (fun s => str_eqb (os_name s) n) l'.
Proof.
  intros P N. destruct (find (fun s => str_eqb (os_name s) n) l) as [a|] eqn:A, (find (fun s => str_eqb (os_name s) n) l') as [b|] eqn:B; auto.
  - apply find_some in A as [A1 A2], B as [B1 B2]. apply str_eqb_eq in A2, B2. f_equal. apply (nodup_map_inv os_name l a b N A1); [|congruence].
    exact (Permutation_in _ (Permutation_sym P) B1).
  - exfalso. apply find_some in A as [A1 A2]. pose proof (find_none _ _ B a (Permutation_in _ P A1)). cbn in *. congruence.
  - exfalso. apply find_some in B as [A1 A2]. pose proof (find_none _ _ A b (Permutation_in _ (Permutation_sym P) A1)). cbn in *. congruence.
Qed.
Section Order.
Variables (e e' : elf).
Hypothesis R : regular e.
Hypothesis O : reordered e e'.
Hypothesis N : NoDup (map os_name (el_secs e)).
Lemma order_named n : section_named n e' = section_named n e.
Proof. destruct O as (_ & _ & P). symmetry. exact (named_perm _ _ n P N). Qed.
Lemma order_syms : syms e' = syms e.
Proof. destruct O as (_ & S & _). unfold syms. now rewrite S. Qed.
Lemma order_collect b : collect_ksyms e' b = collect_ksyms e b.
Proof. unfold collect_ksyms, weak_of. now rewrite order_syms. Qed.
Lemma order_types : the_types e' = the_types e.
Proof.
  pose proof O as (B & _ & _). unfold the_types. rewrite !order_named, B. destruct (section_named (txt ".BTF") e); [|reflexivity].
  destruct (liftb (btf_parse (os_data o))) as [b|]; [|reflexivity]. cbn [bind]. destruct (match section_named (txt ".BTF.ext") e with Some s => _ | None => _ end); [|reflexivity].
  cbn [bind]. now rewrite order_collect.
Qed.
Lemma order_part t sec : parse_section e' t sec = parse_section e t sec.
Proof. unfold parse_section, by_section, numbered. now rewrite order_syms. Qed.
Lemma order_object sec : of_object e sec <-> of_object e' sec.
Proof. destruct O as (_ & _ & P). unfold of_object. split; intros [I H]; (split; [|exact H]); [exact (Permutation_in _ P I)|exact (Permutation_in _ (Permutation_sym P) I)]. Qed.
Lemma order_lies sec i s : lies_in e sec i s <-> lies_in e' sec i s.
Proof. destruct O as (_ & S & _). unfold lies_in, symbol_is. now rewrite S. Qed.
Lemma order_program sec k i s : program_symbol e sec k i s <-> program_symbol e' sec k i s.
Proof. unfold program_symbol. now rewrite (order_object sec), (order_lies sec i s). Qed.
Lemma order_regular : regular e'.
Proof.
  pose proof O as (_ & S & P). destruct R as [R1 R2 R3 R4 R5 R6]. constructor.
  - exact (Permutation_NoDup (Permutation_map os_index P) R1).
  - intros sec I. apply R2. exact (Permutation_in _ (Permutation_sym P) I).
  - rewrite S. exact R3.
  - intros sec I. apply R4. exact (Permutation_in _ (Permutation_sym P) I).
  - intros sec p i s sec' p' j s' A B. apply order_program in A, B. exact (R5 _ _ _ _ _ _ _ _ A B).
  - intros sec p i s j s' A B. apply order_program in A, B. exact (R6 _ _ _ _ _ _ A B).
Qed.
Lemma order_others : Permutation (others e) (others e').
Proof.
  destruct O as (_ & _ & P). unfold others. clear N. induction P as [|x l l' P IH|x y l|l l' l'' P1 IH1 P2 IH2]; cbn [filter].
  - constructor.
  - destruct (negb _); [now apply perm_skip|exact IH].
  - destruct (negb _), (negb _); try reflexivity. apply perm_swap.
  - now transitivity (filter (fun s => negb (is_btf_name (os_name s))) l').
Qed.
Lemma order_infos i : In i (infos e) <-> In i (infos e').
Proof.
  assert (forall f f' : elf, NoDup (map os_name (el_secs f)) -> NoDup (map os_name (el_secs f')) -> (forall s, In s (el_secs f) <-> In s (el_secs f')) ->
     (forall n, section_named n f' = section_named n f) -> forall i, In i (infos f) -> In i (infos f')) as G.
  { clear. intros f f' N N' S NM [n [i z]] H. destruct (infos_in f n i z H) as (s & I & <- & <- & <-).
    destruct (in_dec name_dec (os_name s) (map fst (infos f'))) as [D|D].
    - apply in_map_iff in D as ([m [j w]] & Q & D). cbn [fst] in Q. subst m. destruct (infos_in f' _ _ _ D) as (s' & I' & Q & <- & <-).
      rewrite (nodup_map_inv os_name _ s' s N' I' (proj1 (S s) I) Q) in D. exact D.
    - exfalso. apply D. unfold infos in *. rewrite !NM in *. apply (table_in str_eqb str_eqb_eq), last_in in H.
      assert (forall (l : list (list Z * (nat * Z))) x, In x l -> In (fst x) (map fst (puts str_eqb l []))) as K.
      { intros l x X. destruct (last_some name_dec l (fst x)) as (v & L); [apply in_map_iff; eauto|]. apply in_map_iff. exists (fst x, v). split; [reflexivity|]. now apply (table_in str_eqb str_eqb_eq). }
      apply (K _ (os_name s, (os_index s, os_size s))). apply in_app_iff in H as [H|H]; apply in_app_iff; [now left|right].
      apply in_map_iff in H as (s' & Q & H). apply in_map_iff. exists s'. split; [exact Q|]. apply others_in in H as [H1 H2]. apply others_in. split; [now apply S|exact H2]. }
  pose proof O as (_ & _ & P). pose proof (Permutation_NoDup (Permutation_map os_name P) N) as N'.
  assert (forall s, In s (el_secs e) <-> In s (el_secs e')) as S.
  { intros s. split; intros I; [exact (Permutation_in _ P I)|exact (Permutation_in _ (Permutation_sym P) I)]. }
  split; apply G; auto; intros; [apply order_named|now symmetry|now rewrite order_named].
Qed.
Lemma order_defines b sec n m : defines e b sec n m <-> defines e' b sec n m.
Proof.
  split; intros [k K KK D Q|i s d K L X1 X2 X3 X4 X5|t h es x i s d K B I S X D L X1 X2 X3].
  - exact (def_data _ _ _ _ _ k K KK D Q).
  - apply (def_legacy _ _ _ _ _ i s d); auto. now apply order_lies.
  - apply (def_btf _ _ _ _ _ t h es x i s d); auto; [now apply order_lies|]. intros j s' L'. apply order_lies in L'. exact (X2 j s' L').
  - exact (def_data _ _ _ _ _ k K KK D Q).
  - apply (def_legacy _ _ _ _ _ i s d); auto. now apply order_lies.
  - apply (def_btf _ _ _ _ _ t h es x i s d); auto; [now apply order_lies|]. intros j s' L'. apply order_lies in L'. exact (X2 j s' L').
Qed.
Lemma parse_order q : parse e = Ok q -> (forall b, p_btf (q_obj q) = b -> maps_distinct e b) ->
  exists q', parse e' = Ok q' /\ q_license q' = q_license q /\ q_version q' = q_version q /\ same_object (q_obj q) (q_obj q').
Proof.
  intros H MD. apply parse_steps in H as (t & l & H1 & H2 & H3 & H4 & H5 & H6). destruct (mapM_perm _ _ _ _ order_others H5) as (l' & M & PL).
  pose proof O as (OB & OS & _). pose proof order_regular as R'.
  assert (mapM (parse_section e' t) (others e') = Ok l') as M'.
  { rewrite <- M. clear - O. generalize (others e'). intros sx. induction sx as [|x r IH]; [reflexivity|]. cbn [mapM]. now rewrite order_part, IH. }
  exists {| q_license := q_license q; q_version := q_version q; q_obj := assemble e' t l' |}. cbn [q_license q_version q_obj]. split; [|split; [reflexivity|split; [reflexivity|]]].
  - apply parse_steps. exists t, l'. cbn [q_license q_version q_obj]. unfold the_license, the_version, all_named in *. rewrite order_named, order_syms, order_types, order_named, OB. auto 10.
  - rewrite H6 in MD |- *. specialize (MD (ty_btf t) eq_refl).
    assert (forall sec l0, of_object e sec -> parse_section e t sec = Ok l0 <-> from e' t sec l0) as FR.
    { intros sec l0 Os. unfold from. rewrite order_part. split; [intros X; split; [now apply order_object|exact X]|tauto]. }
    assert (forall {A} (g : part -> list A) x, In x (flat_map g l) <-> In x (flat_map g l')) as FM.
    { intros A g x. rewrite (parts_in e t l H5 g), (parts_in e' t l' M' g). split; intros (sec & l0 & [F1 F2] & X); exists sec, l0; (split; [|exact X]).
      - now apply FR.
      - apply order_object in F1. split; [exact F1|]. rewrite order_part in F2. exact F2. }
    constructor; cbn [assemble p_big p_btf p_relos p_externs p_ksyms p_syms p_offsets]; auto.
    + intros p. rewrite (programs_are e t l R H5 p), (programs_are e' t l' R' M' p). split; intros (sec & k & i & s & n & S & X); exists sec, k, i, s, n; (split; [now apply order_program|exact X]).
    + intros f. rewrite (fun_in e t l R H5 f), (fun_in e' t l' R' M' f). split; intros (key & X); exists key; now apply FM.
    + assert (forall a b : list part, (forall x, In x (flat_map pt_maps a) <-> In x (flat_map pt_maps b)) ->
          (forall n m m', In (n, m) (flat_map pt_maps a) -> In (n, m') (flat_map pt_maps a) -> m = m') ->
          forall x, In x (puts str_eqb (flat_map pt_maps a) []) -> In x (puts str_eqb (flat_map pt_maps b) [])) as G.
      { clear. intros a b E U [n m] X. apply (table_in str_eqb str_eqb_eq) in X. apply last_in in X. apply (table_in str_eqb str_eqb_eq). apply (last_agree name_dec); [|now apply E].
        intros m' X'. apply E in X'. symmetry. exact (U n m m' X X'). }
      assert (forall n m m', In (n, m) (flat_map pt_maps l) -> In (n, m') (flat_map pt_maps l) -> m = m') as U.
      { intros n m m' X X'. apply (parts_in e t l H5 pt_maps) in X as (sec & l0 & [F1 F2] & X), X' as (sec' & l1 & [F1' F2'] & X').
        apply (section_maps e t R sec l0 F1 F2) in X. apply (section_maps e t R sec' l1 F1' F2') in X'. exact (MD sec n m sec' m' F1 F1' X X'). }
      intros x. cbn [assemble p_maps]. split; [apply (G l l' (FM _ pt_maps) U)|]. apply (G l' l); [intros y; symmetry; apply FM|].
      intros n m m' X X'. apply FM in X, X'. exact (U n m m' X X').
    + intros i. cbn [assemble p_relocs].
      assert (forall n v v', In (n, v) (flat_map pt_relocs l) -> In (n, v') (flat_map pt_relocs l) -> v = v') as U.
      { assert (forall n v, In (n, v) (flat_map pt_relocs l) -> exists sec, of_object e sec /\ In (n, v) (relocs_of sec)) as RO.
        { intros n v X. apply (parts_in e t l H5 pt_relocs) in X as (sec & l0 & L & X). exists sec. split; [exact (proj1 L)|]. destruct L as [F1 F2]. destruct (kind_cases sec) as [K'|[K'|(k & K' & N1 & N2)]].
          - destruct (program_part e t R sec l0 F1 K' F2) as (k & r & _ & _ & _ & _ & _ & _ & E1). now rewrite <- E1.
          - destruct (text_part e t R sec l0 F1 K' F2) as (r & _ & _ & _ & _ & _ & E1). now rewrite <- E1.
          - destruct (other_part e t sec l0 k K' N1 N2 F2) as (_ & _ & E1). rewrite E1 in X. destruct X. }
        intros n v v' X X'. destruct (RO n v X) as (sec & S & Y), (RO n v' X') as (sec' & S' & Y').
        assert (forall s w, In (n, w) (relocs_of s) -> os_index s = n) as IX.
        { intros s w W. unfold relocs_of in W. destruct (os_relocs s); [destruct W|]. destruct W as [W|[]]. congruence. }
        assert (sec = sec') as <-.
        { apply (same_section e R); auto. rewrite (IX sec v Y), (IX sec' v' Y'). reflexivity. }
        unfold relocs_of in Y, Y'. destruct (os_relocs sec); [destruct Y|]. destruct Y as [Y|[]], Y' as [Y'|[]]. congruence. }
      destruct (assoc Nat.eqb i (puts Nat.eqb (flat_map pt_relocs l) [])) as [v|] eqn:A.
      * apply (table_some Nat.eqb Nat.eqb_eq) in A. pose proof (last_in _ _ _ A) as X.
        assert (assoc Nat.eqb i (puts Nat.eqb (flat_map pt_relocs l') []) = Some v) as ->; [|reflexivity].
        apply (table_some Nat.eqb Nat.eqb_eq). apply (last_agree Nat.eq_dec); [|now apply FM]. intros v' X'. apply FM in X'. exact (U i v' v X' X).
      * apply (table_none Nat.eqb Nat.eqb_eq) in A. assert (assoc Nat.eqb i (puts Nat.eqb (flat_map pt_relocs l') []) = None) as ->; [|reflexivity].
        apply (table_none Nat.eqb Nat.eqb_eq). intros X. apply A. apply in_map_iff in X as ([j v] & <- & X). apply in_map_iff. exists (j, v). split; [reflexivity|now apply FM].
    + now rewrite order_syms.
    + exact order_infos.
    + unfold offsets. now rewrite OS.
Qed.
End Order.
