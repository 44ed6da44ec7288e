(** Proofs about finding kernel modules: from the alias to the module. *)
From Coq Require Import String.
From Verif Require Import Base Text TextParse TextSplit LogModel LogFmtProofs KmodModel KmodSpec KmodProofs.
Local Open Scope Z_scope.

(** * Lines *)

Definition line_text (x : str * str) : str := txt "alias " ++ fst x ++ txt " " ++ snd x.

Lemma buf_lines_one t : forall cur s, ~ In 10 t -> buf_lines cur (t ++ 10 :: s) = rev (strip_cr (rev t ++ cur)) :: buf_lines [] s.
Proof.
  induction t as [|c t IH]; intros cur s N; cbn [app buf_lines rev]; [reflexivity|].
  destruct (Z.eqb_spec c 10) as [-> | _]; [destruct N; now left|]. rewrite IH by (intros I; apply N; now right).
  rewrite <- app_assoc. reflexivity.
Qed.
Lemma strip_cr_none t : (forall p, t <> p ++ [13]) -> strip_cr (rev t) = rev t.
Proof.
  intros N. destruct (rev t) as [|c r] eqn:E; [reflexivity|]. cbn [strip_cr]. destruct (Z.eqb_spec c 13) as [-> | _]; [|reflexivity].
  apply rev_last in E. destruct (N _ E).
Qed.
Lemma line_ends x : plain x -> ~ In 10 (line_text x) /\ forall p, line_text x <> p ++ [13].
Proof.
  intros ((Na & La) & Nm & Lm & _ & Cm). unfold line_text. split.
  - rewrite !in_app_iff. intros [I | [I | [I | I]]]; [cbn in I; lia|exact (La I)|cbn in I; lia|exact (Lm I)].
  - intros p E. destruct (exists_last Nm) as (q & c & Eq). rewrite Eq in E. rewrite !app_assoc in E. apply app_inj_tail in E as [_ ->]. exact (Cm q Eq).
Qed.
Lemma alias_lines l : Forall plain l -> buf_lines [] (flat_map alias_line l) = map line_text l.
Proof.
  induction l as [|x l IH]; intros F; [reflexivity|]. cbn [flat_map map].
  replace (alias_line x ++ flat_map alias_line l) with (line_text x ++ 10 :: flat_map alias_line l)
    by (unfold alias_line, line_text; rewrite <- !app_assoc; reflexivity).
  destruct (line_ends x (Forall_inv F)) as [N C]. rewrite buf_lines_one by exact N.
  rewrite app_nil_r, strip_cr_none by exact C. rewrite rev_involutive, IH by exact (Forall_inv_tail F). reflexivity.
Qed.
Lemma parse_line x : plain x -> parse_alias_line (line_text x) = Ok (Some x).
Proof.
  destruct x as [a m]. intros ((Na & La) & Nm & Lm & Bm & Cm). cbn [fst snd] in *. unfold parse_alias_line, line_text. cbn [fst snd].
  rewrite (proj2 (strip_prefix_iff (txt "alias ") _ (a ++ txt " " ++ m)) eq_refl).
  replace (ronce 32 (a ++ txt " " ++ m)) with (Some (a, m)) by (symmetry; apply ronce_some; split; [reflexivity|exact Bm]).
  destruct a as [|x a]; [destruct (Na eq_refl)|]. destruct m as [|y m]; [destruct (Nm eq_refl)|]. reflexivity.
Qed.

Definition texty (x : str * str) : Prop := utf8 (fst x) = true /\ utf8 (snd x) = true.
Lemma line_utf8 x : texty x -> utf8 (line_text x) = true.
Proof. intros [A M]. unfold line_text. apply utf8_app; [reflexivity|]. apply utf8_app; [exact A|]. apply utf8_app; [reflexivity|exact M]. Qed.

Lemma resolve_found l a m : Forall plain l -> Forall texty l -> first_with a l m -> resolve_lines (map line_text l) a = Ok m.
Proof.
  intros P T H. induction H as [m l|b n l m Ne H IH]; cbn [map resolve_lines].
  - rewrite line_utf8 by exact (Forall_inv T). cbn [negb]. rewrite parse_line by exact (Forall_inv P). rewrite str_eqb_refl. reflexivity.
  - rewrite line_utf8 by exact (Forall_inv T). cbn [negb]. rewrite parse_line by exact (Forall_inv P).
    destruct (str_eqb b a) eqn:E; [apply str_eqb_eq in E; contradiction|]. exact (IH (Forall_inv_tail P) (Forall_inv_tail T)).
Qed.
Lemma resolve_missing l a : Forall plain l -> Forall texty l -> (forall m, ~ first_with a l m) -> resolve_lines (map line_text l) a = Err EAliasNotFound.
Proof.
  intros P T. induction l as [|[b n] l IH]; intros N; cbn [map resolve_lines]; [reflexivity|].
  rewrite line_utf8 by exact (Forall_inv T). cbn [negb]. rewrite parse_line by exact (Forall_inv P).
  destruct (str_eqb b a) eqn:E; [apply str_eqb_eq in E; subst b; destruct (N n); constructor|].
  apply (IH (Forall_inv_tail P) (Forall_inv_tail T)). intros m H. apply (N m). apply first_later; [|exact H].
  intros ->. rewrite str_eqb_refl in E. discriminate E.
Qed.
Lemma first_or_not a l : (exists m, first_with a l m) \/ (forall m, ~ first_with a l m).
Proof.
  induction l as [|[b n] l IH]; [right; intros m H; inversion H|]. destruct (list_eq_dec Z.eq_dec b a) as [-> | Ne]; [left; exists n; constructor|].
  destruct IH as [[m H] | N]; [left; exists m; now constructor|]. right. intros m H. inversion H; subst; [contradiction|]. eapply N. eassumption.
Qed.
Lemma first_one a l m : first_with a l m -> forall n, first_with a l n -> n = m.
Proof. intros H. induction H as [m l|b n l m Ne H IH]; intros k K; inversion K; subst; try contradiction; auto. Qed.

(** Everything depmod lists is text. *)
Lemma file_name_utf8 m c : utf8 (file_name_of m c) = true -> utf8 m = true.
Proof.
  unfold file_name_of. intros U. destruct (utf8_split (length m) m (txt ".ko" ++ match c with CNone => [] | CXz => txt ".xz" | CZstd => txt ".zst" end) (le_n _) U) as [Um _]; [|exact Um].
  right. exists 46. eexists. split; [reflexivity|lia].
Qed.
Lemma aliases_utf8 l al : aliases_are l al -> Forall (fun p => utf8 p = true) l -> Forall (fun a => utf8 a = true) al.
Proof.
  intros H. induction H as [|a p l H IH|x p l N H IH]; intros F; [constructor| |exact (IH (Forall_inv_tail F))].
  constructor; [exact (Forall_inv F)|exact (IH (Forall_inv_tail F))].
Qed.
Lemma listed_texty V tree l : listed V tree l -> Forall texty l.
Proof.
  intros H. induction H as [|e t l F H IH|e t l F No N H IH|e m c al t l (F & dirs & P) (dirs' & n & P' & U) (contents & secs & d & C & S & M & Uf & A) H IH];
    [constructor|exact IH|exact IH|].
  rewrite P in P'. apply app_inj_tail in P' as [_ <-]. apply Forall_app. split; [|exact IH].
  apply Forall_forall. intros x I. apply in_map_iff in I as (a & <- & I). split; cbn [fst snd]; [|exact (file_name_utf8 _ _ U)].
  exact (proj1 (Forall_forall _ _) (aliases_utf8 _ _ A Uf) a I).
Qed.

(** * The module that is loaded *)

Lemma compression_of_name m c : compression_of (file_name_of m c) = c.
Proof.
  unfold compression_of, file_name_of. destruct c.
  - rewrite app_nil_r. replace (ronce 46 (m ++ txt ".ko")) with (Some (m, txt "ko")); [destruct m; reflexivity|].
    symmetry. apply ronce_some. split; [reflexivity|]. cbn. lia.
  - replace (ronce 46 (m ++ txt ".ko" ++ txt ".xz")) with (Some (m ++ txt ".ko", txt "xz")); [destruct m; reflexivity|].
    symmetry. apply ronce_some. split; [rewrite <- app_assoc; reflexivity|]. cbn. lia.
  - replace (ronce 46 (m ++ txt ".ko" ++ txt ".zst")) with (Some (m ++ txt ".ko", txt "zst")); [destruct m; reflexivity|].
    symmetry. apply ronce_some. split; [rewrite <- app_assoc; reflexivity|]. cbn. lia.
Qed.
Lemma matches_iff m e : matches m e = true <-> below_kernel e m.
Proof.
  unfold matches, below_kernel. split.
  - destruct (e_path e) as [|k rest] eqn:P; [discriminate|]. intros H. apply andb_prop in H as [K H]. apply str_eqb_eq in K. subst k.
    destruct (rev rest) as [|n r] eqn:R; [discriminate|]. apply rev_last in R. apply starts_with_iff in H as (x & ->). subst rest.
    exists (rev r), x. rewrite <- app_assoc. reflexivity.
  - intros (dirs & r & ->). rewrite str_eqb_refl, rev_app_distr. cbn [rev app andb]. rewrite app_assoc, starts_with_app. reflexivity.
Qed.
Lemma elf_iff d : starts_with [127; 69; 76; 70] d = true <-> is_elf d.
Proof. apply starts_with_iff. Qed.

Section Loading.
  Variables (V : env) (im : str -> Z) (tree sorted : list entry) (l : list (str * str)).
  Hypothesis Hl : listed V tree l.
  Hypothesis Hp : Forall plain l.
  Notation file := (Some (fst (depmod V tree))).

  Lemma resolved a : resolve_alias file a = resolve_lines (map line_text l) a.
  Proof. cbn [resolve_alias]. rewrite (depmod_complete V tree l Hl). cbn [fst]. rewrite alias_lines by exact Hp. reflexivity. Qed.

  Lemma not_an_alias a : (forall m, ~ first_with a l m) -> try_main V im file sorted a = Err EAliasNotFound.
  Proof. intros N. unfold try_main. rewrite resolved, (resolve_missing _ _ Hp (listed_texty _ _ _ Hl) N). reflexivity. Qed.

  Lemma loads a m e c d : first_with a l m -> In e sorted -> module_file e m c -> below_kernel e m ->
    (forall e', In e' sorted -> below_kernel e' m -> e' = e) -> contents_of V e c d -> is_elf d ->
    try_main V im file sorted a = if im d =? 0 then Ok d else if im d =? 17 then Err (EExists d) else Err (ELoad d (im d)).
  Proof.
    intros H I (F & dirs & P) B U C E. unfold try_main. rewrite resolved, (resolve_found _ _ _ Hp (listed_texty _ _ _ Hl) H). cbn [bind].
    destruct (find (matches m) sorted) as [e'|] eqn:Fi.
    - apply find_some in Fi as [I' M']. apply matches_iff in M'. rewrite (U e' I' M'). rewrite F, P, last_last, compression_of_name.
      unfold contents_of in C. rewrite C. apply elf_iff in E. rewrite E. reflexivity.
    - apply matches_iff in B. rewrite (find_none _ _ Fi e I) in B. discriminate B.
  Qed.

  Lemma loads_only a d : try_main V im file sorted a = Ok d ->
    exists m e, first_with a l m /\ In e sorted /\ e_file e = true /\ below_kernel e m /\ is_elf d /\ im d = 0 /\
      (forall c, module_file e m c -> contents_of V e c d).
  Proof.
    unfold try_main. rewrite resolved. destruct (first_or_not a l) as [[m H] | N].
    2: { rewrite (resolve_missing _ _ Hp (listed_texty _ _ _ Hl) N). discriminate. }
    rewrite (resolve_found _ _ _ Hp (listed_texty _ _ _ Hl) H). cbn [bind].
    destruct (find (matches m) sorted) as [e|] eqn:Fi; [|discriminate]. apply find_some in Fi as [I M]. apply matches_iff in M.
    destruct (e_file e) eqn:F; [|discriminate]. destruct (v_unpack V _ (e_data e)) as [x|] eqn:U; [|discriminate].
    destruct (starts_with [127; 69; 76; 70] x) eqn:E; [|discriminate]. cbn [negb]. cbv zeta.
    destruct (Z.eqb_spec (im x) 0) as [Z0 | _]; [|destruct (im x =? 17); discriminate]. intros Q. apply ok_inj in Q. subst x.
    exists m, e. apply elf_iff in E. repeat (split; [assumption|]). intros c (_ & dirs & P). rewrite P, last_last, compression_of_name in U. exact U.
  Qed.
End Loading.

(** * The directory *)

Lemma dir_is_first stat r d : sane_stat stat -> resolve_modules_dir stat r = Ok d -> d = [txt "lib"; txt "modules"] /\ stat d = Some true.
Proof.
  intros S. unfold resolve_modules_dir. cbv zeta. destruct (stat [txt "lib"; txt "modules"]) as [[]|] eqn:E; [|destruct r as [r|]; [|discriminate]|discriminate].
  - intros H. apply ok_inj in H. subst d. auto.
  - intros H. destruct (stat ([txt "lib"; txt "modules"] ++ [r])) eqn:X; [|discriminate H].
    assert (stat ([txt "lib"; txt "modules"] ++ [r]) <> None) as Nn by (rewrite X; discriminate). apply S in Nn. rewrite E in Nn. discriminate Nn.
Qed.

(** The line feed of the last line may be missing. *)
Lemma buf_lines_end t : forall cur, ~ In 10 t -> buf_lines cur t = match rev t ++ cur with [] => [] | _ => [rev (rev t ++ cur)] end.
Proof.
  induction t as [|c t IH]; intros cur N; [reflexivity|]. cbn [buf_lines rev].
  destruct (Z.eqb_spec c 10) as [-> | _]; [destruct N; now left|]. rewrite IH by (intros I; apply N; now right). rewrite <- app_assoc. reflexivity.
Qed.
Lemma buf_lines_app l s : Forall plain l -> buf_lines [] (flat_map alias_line l ++ s) = map line_text l ++ buf_lines [] s.
Proof.
  induction l as [|x l IH]; intros F; [reflexivity|]. cbn [flat_map map app].
  replace ((alias_line x ++ flat_map alias_line l) ++ s) with (line_text x ++ 10 :: flat_map alias_line l ++ s)
    by (unfold alias_line, line_text; rewrite <- !app_assoc; reflexivity).
  destruct (line_ends x (Forall_inv F)) as [N C]. rewrite buf_lines_one by exact N.
  rewrite app_nil_r, strip_cr_none by exact C. rewrite rev_involutive, IH by exact (Forall_inv_tail F). reflexivity.
Qed.
Lemma last_line l x a : Forall plain l -> plain x ->
  resolve_alias (Some (flat_map alias_line l ++ txt "alias " ++ fst x ++ txt " " ++ snd x)) a = resolve_alias (Some (flat_map alias_line (l ++ [x]))) a.
Proof.
  intros F P. unfold resolve_alias. rewrite buf_lines_app by exact F. rewrite alias_lines by (apply Forall_app; split; [exact F|apply Forall_cons; [exact P|apply Forall_nil]]).
  rewrite map_app. f_equal. f_equal. change (txt "alias " ++ fst x ++ txt " " ++ snd x) with (line_text x). rewrite buf_lines_end by exact (proj1 (line_ends x P)).
  rewrite app_nil_r, rev_involutive. destruct (rev (line_text x)) as [|c r] eqn:E; [|reflexivity].
  apply (f_equal (@List.length Z)) in E. rewrite rev_length in E. unfold line_text in E. rewrite app_length in E. cbn in E. lia.
Qed.

(** Lines that are not about aliases. *)
Lemma resolve_skip y l' name : utf8 y = true -> parse_alias_line y = Ok None -> forall l, resolve_lines (l ++ y :: l') name = resolve_lines (l ++ l') name.
Proof.
  intros U P. induction l as [|x l IH]; cbn [app resolve_lines]; [rewrite U, P; reflexivity|].
  destruct (utf8 x); [|reflexivity]. cbn [negb]. destruct (parse_alias_line x) as [[[b m]|]|e]; [|exact IH|reflexivity]. destruct (str_eqb b name); [reflexivity|exact IH].
Qed.
Lemma other_line l x rest a : Forall plain l -> other_text x -> resolve_alias (Some (flat_map alias_line l ++ x ++ [10] ++ rest)) a = resolve_alias (Some (flat_map alias_line l ++ rest)) a.
Proof.
  intros F (U & N & C & O). unfold resolve_alias. rewrite !buf_lines_app by exact F. cbn [app]. rewrite buf_lines_one by exact N. rewrite app_nil_r, strip_cr_none by exact C.
  rewrite rev_involutive. apply resolve_skip; [exact U|]. unfold parse_alias_line. rewrite (proj2 (strip_prefix_none (txt "alias ") x) O). reflexivity.
Qed.
