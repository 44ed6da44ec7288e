(** Programs and functions of a parsed file. *)
From Coq Require Import String Permutation.
From Verif Require Import Base Text Insn LinkModel BtfTypes BtfModel BtfExt BtfSanitize ExternModel ObjModel ObjSpec ObjProofs ObjProofs2 ObjProofs3 ObjProofs4 LoaderModel ParseModel ParseSpec ParseProofs.
Local Open Scope Z_scope.

(** * Records *)
Lemma records_get {A} n (l : list (list Z * (Z * list A))) : snd (info_get n l) = records_for l n.
Proof.
  unfold info_get, records_for. induction (rev l) as [|[k v] r IH]; cbn [assoc find fst snd]; [reflexivity|].
  assert (str_eqb n k = str_eqb k n) as Q.
  { destruct (str_eqb k n) eqn:H; [apply str_eqb_eq in H; subst; now apply str_eqb_eq|]. apply not_true_iff_false. intros X. apply str_eqb_eq in X. subst. rewrite (proj2 (str_eqb_eq _ _) eq_refl) in H. discriminate H. }
  rewrite Q. destruct (str_eqb k n); [reflexivity|exact IH].
Qed.
Lemma tables_func x n : tb_func (tables_of x) n = func_records x n.
Proof. destruct x as [x|]; [|reflexivity]. cbn [tables_of tb_func func_records]. now rewrite records_get. Qed.
Lemma tables_line x n : tb_line (tables_of x) n = line_records x n.
Proof. destruct x as [x|]; [|reflexivity]. cbn [tables_of tb_line line_records]. now rewrite records_get. Qed.

(** The records belong to the file. *)
Lemma types_ext e t : the_types e = Ok t -> ext_is e (ty_ext t).
Proof.
  unfold the_types, ext_is. destruct (section_named (txt ".BTF") e) as [s|] eqn:Q.
  - intros H. right. apply bind_ok in H as (b & Hb & H). apply bind_ok in H as (x & Hx & H). apply bind_ok in H as ([[b' xs] k] & Hk & H).
    apply ok_inj in H. subst t. cbn [ty_ext]. exists b. split.
    + exists s. split; [now apply named_first|]. destruct (btf_parse (os_data s)); [now apply ok_inj in Hb; subst|discriminate Hb].
    + destruct (section_named (txt ".BTF.ext") e) as [s'|] eqn:Q'.
      * left. apply bind_ok in Hx as (y & Hy & Hx). apply ok_inj in Hx. subst x. exists s', y. split; [now apply named_first|]. split; [|reflexivity].
        destruct (ext_parse b (el_big e) (os_data s')); [now apply ok_inj in Hy; subst|discriminate Hy].
      * right. apply ok_inj in Hx. split; [now apply named_none|now symmetry].
  - intros H. apply ok_inj in H. subst t. left. split; [now apply named_none|reflexivity].
Qed.

(** * Program sections *)
Lemma forall2_left {A B} (R : A -> B -> Prop) l r x : Forall2 R l r -> In x l -> exists y, In y r /\ R x y.
Proof. induction 1; cbn [In]; [intros []|]. intros [<-|H']; [eexists; split; [now left|assumption]|]. destruct (IHForall2 H') as (z & Z1 & Z2). eauto. Qed.
Lemma forall2_right {A B} (R : A -> B -> Prop) l r y : Forall2 R l r -> In y r -> exists x, In x l /\ R x y.
Proof. induction 1; cbn [In]; [intros []|]. intros [<-|H']; [eexists; split; [now left|assumption]|]. destruct (IHForall2 H') as (z & Z1 & Z2). eauto. Qed.

Section File.
Variables (e : elf) (t : types).
Hypothesis R : regular e.

Lemma here_words sec : Forall sym_ok (map snd (by_section e (os_index sec))).
Proof.
  apply Forall_forall. intros s I. apply in_map_iff in I as ([i s'] & <- & I). apply here_in in I as [I _]. exact (symbol_words e i s' R I).
Qed.
Lemma program_part sec l : of_object e sec -> kind_is sec KProgram -> parse_section e t sec = Ok l ->
  exists k r, parse_psec (os_name sec) = Ok k /\ (exists i s, lies_in e sec i s) /\
    Forall2 (prog_of (tables_of (ty_ext t)) sec k) (filter is_prog_sym (map snd (by_section e (os_index sec)))) r /\
    pt_progs l = map (fun x => (pg_name (fst x), fst x)) r /\ pt_funs l = map (fun x => (pg_index (fst x), pg_addr (fst x), snd x)) r /\
    pt_maps l = [] /\ pt_relocs l = relocs_of sec.
Proof.
  intros O K H. unfold parse_section in H. rewrite K in H.
  destruct (by_section e (os_index sec)) as [|[i s] h] eqn:B.
  - unfold parse_programs in H. destruct (parse_psec (os_name sec)); discriminate H.
  - rewrite <- B in H. rewrite <- B. apply bind_ok in H as (r & Hr & H). apply ok_inj in H. subst l.
    pose proof (programs_spec (tables_of (ty_ext t)) sec _ (here_words sec) (rg_size e R sec (proj1 O))) as [P _]. 
    destruct (P r) as (k & K1 & K2); [rewrite B in Hr |- *; exact Hr|]. exists k, r. split; [exact K1|]. split; [exists i, s; apply here_in; rewrite B; now left|].
    split; [exact K2|]. cbn [pt_progs pt_funs pt_maps pt_relocs]. auto.
Qed.

Lemma prog_sym_in sec s : In s (filter is_prog_sym (map snd (by_section e (os_index sec)))) <-> exists i, lies_in e sec i s /\ is_prog_sym s = true.
Proof.
  rewrite filter_In, in_map_iff. split.
  - intros (([i s'] & <- & I) & P). exists i. apply here_in in I. auto.
  - intros (i & I & P). split; [|exact P]. exists (i, s). split; [reflexivity|now apply here_in].
Qed.

Lemma prog_of_function sec k s p f : of_object e sec -> sym_ok s -> prog_of (tables_of (ty_ext t)) sec k s (p, f) -> prog_fits sec s -> 
  function_of (ty_ext t) sec s true f.
Proof.
  intros O W (H1 & H2 & H3 & H4 & H5 & H6 & H7 & H8 & H9 & H10) [F1 F2]. cbn [fst snd] in *. destruct W as [W1 W2].
  rewrite (rg_zero e R sec (proj1 O)), Z.sub_0_r in H9, H10.
  assert (u64 (s_address s) = s_address s) as U by (unfold u64, wrap; apply Z.mod_small; lia).
  rewrite U, tables_func in H9. rewrite U, tables_line in H10.
  pose proof (copy_length _ _ H8) as L. rewrite slice_length in L by lia.
  split; [|auto]. unfold code_at. repeat split; auto; lia.
Qed.
Lemma program_fits sec l : of_object e sec -> kind_is sec KProgram -> parse_section e t sec = Ok l ->
  forall i s, lies_in e sec i s -> is_prog_sym s = true -> prog_fits sec s.
Proof.
  intros O K H i s I P. unfold parse_section in H. rewrite K in H.
  pose proof (programs_spec (tables_of (ty_ext t)) sec _ (here_words sec) (rg_size e R sec (proj1 O))) as [_ Q].
  destruct (by_section e (os_index sec)) as [|x h] eqn:B; [apply here_in in I; rewrite B in I; destruct I|].
  rewrite <- B in *. apply bind_ok in H as (r & Hr & _).
  assert (exists r, parse_programs (tables_of (ty_ext t)) (Some (map snd (by_section e (os_index sec)))) sec = Ok r) as X by (exists r; rewrite B in Hr |- *; exact Hr).
  apply Q in X as [_ X]. rewrite Forall_forall in X. apply X, prog_sym_in. eauto.
Qed.

Lemma section_progs sec l : of_object e sec -> kind_is sec KProgram -> parse_section e t sec = Ok l ->
  forall n p, In (n, p) (pt_progs l) <-> exists k i s, program_symbol e sec k i s /\ s_name s = Some n /\ p = the_program sec k s n.
Proof.
  intros O K H n p. destruct (program_part sec l O K H) as (k & r & P & _ & F & E1 & _). rewrite E1, in_map_iff. split.
  - intros ([p' f] & X & I). cbn [fst] in X. injection X as <- <-. destruct (forall2_right _ _ _ _ F I) as (s & S1 & S2). apply prog_sym_in in S1 as (i & S1 & S3).
    exists k, i, s. split; [split; [exact O|split; [exact K|split; [exact P|split; [exact S1|exact S3]]]]|].
    destruct S2 as (N & N2 & N3 & N4 & _). cbn [fst] in *. split; [exact N|]. destruct p'. unfold the_program. cbn in *. now subst.
  - intros (k' & i & s & (_ & _ & P' & S1 & S3) & N & ->). rewrite P in P'. apply ok_inj in P'. subst k'.
    destruct (forall2_left _ _ _ s F) as ([p' f] & I & S2); [apply prog_sym_in; eauto|]. exists (p', f). split; [|exact I].
    destruct S2 as (N1 & N2 & N3 & N4 & _). cbn [fst] in *. rewrite N in N1. injection N1 as ->. f_equal. destruct p'. unfold the_program. cbn in *. now subst.
Qed.

Lemma section_funs sec l : of_object e sec -> kind_is sec KProgram -> parse_section e t sec = Ok l ->
  (forall key f, In (key, f) (pt_funs l) -> exists k i s, program_symbol e sec k i s /\ key = (os_index sec, s_address s) /\ function_of (ty_ext t) sec s true f) /\
  (forall k i s, program_symbol e sec k i s -> exists f, In (os_index sec, s_address s, f) (pt_funs l) /\ function_of (ty_ext t) sec s true f).
Proof.
  intros O K H. destruct (program_part sec l O K H) as (k & r & P & _ & F & _ & E1 & _). pose proof (program_fits sec l O K H) as FT. rewrite E1. split.
  - intros key f X. apply in_map_iff in X as ([p f'] & X & I). cbn [fst snd] in X. injection X as <- <-. destruct (forall2_right _ _ _ _ F I) as (s & S1 & S2).
    apply prog_sym_in in S1 as (i & S1 & S3). exists k, i, s. split; [split; [exact O|split; [exact K|split; [exact P|split; [exact S1|exact S3]]]]|].
    split; [|exact (prog_of_function sec k s p f' O (symbol_words e i s R (proj1 S1)) S2 (FT i s S1 S3))].
    destruct S2 as (_ & _ & N3 & N4 & _). cbn [fst] in *. now rewrite N3, N4.
  - intros k' i s (_ & _ & P' & S1 & S3). rewrite P in P'. apply ok_inj in P'. subst k'.
    destruct (forall2_left _ _ _ s F) as ([p' f] & I & S2); [apply prog_sym_in; eauto|]. exists f.
    split; [|exact (prog_of_function sec k s p' f O (symbol_words e i s R (proj1 S1)) S2 (FT i s S1 S3))].
    apply in_map_iff. exists (p', f). split; [|exact I]. destruct S2 as (_ & _ & N3 & N4 & _). cbn [fst snd] in *. now rewrite N3, N4.
Qed.

(** * Text sections *)
Lemma fun_sym_in sec s : In s (fun_syms (os_index sec) (numbered e)) <-> exists i, lies_in e sec i s /\ s_def s = true /\ s_kind s = KText.
Proof.
  unfold fun_syms. rewrite filter_In, in_map_iff. unfold fun_sym. split.
  - intros (([i s'] & <- & I) & P). cbn [snd] in P. apply numbered_in in I. cbn [snd] in *. exists i. unfold lies_in. destruct (s_def s'); [|discriminate P].
    destruct (s_kind s'); try discriminate P. destruct (s_section s') as [j|]; [|discriminate P]. apply Nat.eqb_eq in P. subst j. auto.
  - intros (i & [I S] & D & K). rewrite D, K, S, Nat.eqb_refl. split; [|reflexivity]. exists (i, s). split; [reflexivity|now apply numbered_in].
Qed.
Lemma text_sizes sec : sizes_ok (fun_syms (os_index sec) (numbered e)).
Proof. apply Forall_forall. intros s I. apply fun_sym_in in I as (i & [I _] & _). destruct (symbol_words e i s R I). lia. Qed.
Lemma tiles_place sec o r : tiles sec o r -> forall n f, In (n, f) r -> o <= f_secoff f /\ f_secoff f + 8 * Z.of_nat (length (f_ins f)) <= Z.of_nat (length (os_data sec)) /\ f_sec f = os_index sec /\
  f_addr f = u64 (os_address sec + f_secoff f) /\ copy_instructions (slice (Z.to_nat (f_secoff f)) (8 * length (f_ins f)) (os_data sec)) = Ok (f_ins f).
Proof.
  induction 1 as [|o n f l ins H1 H2 H3 H4 H5 H6 H7 T IH]; intros m g I; [destruct I|]. destruct I as [I|I].
  - injection I as <- <-. subst ins o. repeat split; auto; lia.
  - destruct (IH m g I) as (A & B). split; [lia|exact B].
Qed.
Lemma tiles_apart sec o r : tiles sec o r -> forall n f m g, In (n, f) r -> In (m, g) r -> f_secoff f = f_secoff g -> (n, f) = (m, g).
Proof.
  induction 1 as [|o n f l ins H1 H2 H3 H4 H5 H6 H7 T IH]; intros a p b q I J Q; [destruct I|].
  assert (forall m g, In (m, g) l -> o < f_secoff g) as X.
  { intros m g L. destruct (tiles_place _ _ _ T m g L) as (A & _). destruct ins as [|y ins]; [contradiction|]. cbn [length] in A. lia. }
  destruct I as [I|I], J as [J|J].
  - congruence.
  - injection I as <- <-. pose proof (X b q J). lia.
  - injection J as <- <-. pose proof (X a p I). lia.
  - exact (IH _ _ _ _ I J Q).
Qed.
Lemma text_part sec l : of_object e sec -> kind_is sec KTextS -> parse_section e t sec = Ok l ->
  exists r, tiles sec 0 r /\ Forall (from_sym (tables_of (ty_ext t)) sec (fun_syms (os_index sec) (numbered e))) r /\
    pt_progs l = [] /\ pt_funs l = map (fun x => (f_sec (snd x), f_addr (snd x), snd x)) r /\ pt_maps l = [] /\ pt_relocs l = relocs_of sec.
Proof.
  intros O K H. unfold parse_section in H. rewrite K in H. apply bind_ok in H as (r & Hr & H). apply ok_inj in H. subst l.
  destruct (text_parsed _ _ _ _ (text_sizes sec) Hr) as (_ & T & F & _). exists r. cbn [pt_progs pt_funs pt_maps pt_relocs]. unfold key_of. auto 10.
Qed.
Lemma text_function sec l : of_object e sec -> kind_is sec KTextS -> parse_section e t sec = Ok l ->
  forall key f, In (key, f) (pt_funs l) -> exists i s, text_symbol e sec i s /\ key = (os_index sec, s_address s) /\ function_of (ty_ext t) sec s false f.
Proof.
  intros O K H key f X. destruct (text_part sec l O K H) as (r & T & F & _ & E1 & _). rewrite E1 in X. apply in_map_iff in X as ([n f'] & X & I).
  cbn [snd] in X. injection X as <- <-. rewrite Forall_forall in F. destruct (F _ I) as (s & S1 & S2 & S3 & S4 & S5 & S6). cbn [fst snd] in *.
  apply fun_sym_in in S1 as (i & S1 & D & SK). exists i, s. split; [split; [exact O|split; [exact K|auto]]|].
  destruct (tiles_place _ _ _ T _ _ I) as (P1 & P2 & P3 & P4 & P5). rewrite (rg_zero e R sec (proj1 O)), Z.add_0_l in P4.
  pose proof (rg_size e R sec (proj1 O)) as SZ.
  assert (f_addr f' = f_secoff f') as A by (rewrite P4; unfold u64, wrap; apply Z.mod_small; lia).
  split; [now rewrite P3, S2|]. unfold function_of. rewrite <- tables_func, <- tables_line, S2, A. split; [|auto].
  unfold code_at. rewrite S4. replace (Z.to_nat (8 * Z.of_nat (length (f_ins f')))) with (8 * length (f_ins f'))%nat by lia. repeat split; auto.
Qed.

(** * Other sections *)
Lemma other_part sec l k : kind_is sec k -> k <> KTextS -> k <> KProgram -> parse_section e t sec = Ok l -> pt_progs l = [] /\ pt_funs l = [] /\ pt_relocs l = [].
Proof.
  intros K N1 N2 H. unfold parse_section in H. rewrite K in H. 
  destruct k; try contradiction; try (apply ok_inj in H; subst l; auto);
    try (apply bind_ok in H as (m & _ & H); apply ok_inj in H; subst l; auto).
  destruct (ty_btf t); [|discriminate H]. destruct (by_section e (os_index sec)); [discriminate H|]. apply bind_ok in H as (m & _ & H). apply ok_inj in H. subst l. auto.
Qed.
End File.
