(** Names of a parsed file, which files are accepted, the order of sections. *)
From Coq Require Import String Permutation.
From Verif Require Import Base Text Insn LinkModel BtfTypes BtfModel BtfExt BtfSanitize ExternModel ExternSpec ObjModel ObjSpec ObjProofs ObjProofs2 ObjProofs3 ObjProofs4 ObjProofs5 LoaderModel ParseModel ParseSpec ParseProofs ParseProofs2 ParseProofs3 ParseProofs4.
Local Open Scope Z_scope.

(** * Kernel symbols are fresh *)
Lemma externs_fresh e o : types_are e o -> NoDup (map fst (p_externs o)) /\ Forall fresh (p_externs o).
Proof.
  intros [_ _ -> _ _|b x _ _ _ -> _ _|b x i es b' place l _ _ _ F _ N L _ _]; [split; constructor|split; constructor|]. split; [exact N|].
  apply Forall_forall. intros [n d] I. apply L in I. apply last_in in I. destruct (forall2_right _ _ _ _ F I) as (y & _ & h & f & s & r & _ & _ & _ & _ & E).
  cbn [fst snd] in E. unfold fresh. cbn [fst snd]. rewrite E. eauto.
Qed.

(** * Sizes of sections and offsets of variables *)
Lemma infos_in e n i z : In (n, (i, z)) (infos e) ->
  exists s, In s (el_secs e) /\ os_name s = n /\ os_index s = i /\ os_size s = z.
Proof.
  unfold infos. intros H. apply (table_in str_eqb str_eqb_eq) in H. apply last_in in H. apply in_app_iff in H as [H|H].
  - destruct (section_named (txt ".BTF") e) as [s|] eqn:Q; [|destruct H]. assert (forall m x, section_named m e = Some x -> In x (el_secs e)) as G.
    { intros m x X. unfold section_named in X. apply find_some in X. tauto. }
    destruct H as [H|H]; [injection H as <- <- <-; exists s; eauto|].
    destruct (section_named (txt ".BTF.ext") e) as [x|] eqn:Q'; [|destruct H]. destruct H as [H|[]]. injection H as <- <- <-. exists x. eauto.
  - apply in_map_iff in H as (s & H & I). injection H as <- <- <-. apply others_in in I. exists s. split; [exact (proj1 I)|auto].
Qed.
Lemma infos_all e s : NoDup (map os_name (el_secs e)) -> of_object e s -> In (os_name s, (os_index s, os_size s)) (infos e).
Proof.
  intros N O. destruct (last_some name_dec ((match section_named (txt ".BTF") e with
     | None => []
     | Some s => (os_name s, (os_index s, os_size s)) :: match section_named (txt ".BTF.ext") e with Some x => [(os_name x, (os_index x, os_size x))] | None => [] end
     end) ++ map (fun s => (os_name s, (os_index s, os_size s))) (others e)) (os_name s)) as ([i z] & L).
  - rewrite map_app, in_app_iff. right. rewrite map_map. apply in_map_iff. exists s. split; [reflexivity|now apply others_in].
  - apply (table_in str_eqb str_eqb_eq) in L. destruct (infos_in e _ _ _ L) as (s' & I & Q & <- & <-).
    rewrite (nodup_map_inv os_name _ s' s N I (proj1 O) Q) in L. exact L.
Qed.
Lemma infos_nodup e : NoDup (map fst (infos e)).
Proof. exact (table_nodup str_eqb str_eqb_eq _). Qed.
Lemma offsets_in e n a : In (n, a) (offsets e) <-> last_of (flat_map (fun s => match s_name (es_sym s) with
   | Some n => if es_global s || symkind_eqb (s_kind (es_sym s)) KData then [(n, s_address (es_sym s))] else []
   | None => [] end) (el_syms e)) n a.
Proof. exact (table_in str_eqb str_eqb_eq _ n a). Qed.
Lemma offset_entry e n a : In (n, a) (flat_map (fun s => match s_name (es_sym s) with
   | Some n => if es_global s || symkind_eqb (s_kind (es_sym s)) KData then [(n, s_address (es_sym s))] else []
   | None => [] end) (el_syms e)) <-> exists s, In s (el_syms e) /\ s_name (es_sym s) = Some n /\ (es_global s = true \/ s_kind (es_sym s) = KData) /\ a = s_address (es_sym s).
Proof.
  rewrite in_flat_map. split.
  - intros (s & I & H). exists s. split; [exact I|]. destruct (s_name (es_sym s)) as [m|]; [|destruct H]. destruct (es_global s || _) eqn:B; [|destruct H]. destruct H as [H|[]].
    injection H as <- <-. split; [reflexivity|]. split; [|reflexivity]. apply orb_prop in B as [B|B]; [now left|right]. destruct (s_kind (es_sym s)); try discriminate B; reflexivity.
  - intros (s & I & N & K & ->). exists s. split; [exact I|]. rewrite N. replace (es_global s || symkind_eqb (s_kind (es_sym s)) KData) with true; [now left|].
    destruct K as [-> | ->]; [reflexivity|]. now rewrite orb_true_r.
Qed.
Lemma offsets_are e : NoDup (map fst (offsets e)) /\ (forall n a, In (n, a) (offsets e) -> variable_at e n a) /\
  (forall n a, variable_at e n a -> exists a', In (n, a') (offsets e)) /\
  (forall n a, variable_at e n a -> (forall a', variable_at e n a' -> a' = a) -> In (n, a) (offsets e)).
Proof.
  split; [exact (table_nodup str_eqb str_eqb_eq _)|]. split; [|split].
  - intros n a H. apply offsets_in in H. apply last_in in H. now apply offset_entry.
  - intros n a V. destruct (last_some name_dec (flat_map (fun s => match s_name (es_sym s) with
      | Some n => if es_global s || symkind_eqb (s_kind (es_sym s)) KData then [(n, s_address (es_sym s))] else []
      | None => [] end) (el_syms e)) n) as (a' & L).
    + apply in_map_iff. exists (n, a). split; [reflexivity|]. now apply offset_entry.
    + exists a'. now apply offsets_in.
  - intros n a V U. apply offsets_in. apply (last_agree name_dec); [|now apply offset_entry]. intros a' X. apply U. now apply offset_entry.
Qed.

(** * Which sections are accepted *)
Lemma chain_members sec l l' o z : (forall s, In s l -> In s l') -> chain sec l o z -> chain sec l' o z.
Proof. intros H. induction 1 as [o|o s n z H1 H2 H3 H4 H5 H6 H7 H8 IH]; [constructor|]. exact (chain_sym sec l' o s n z H1 (H s H2) H3 H4 H5 H6 H7 IH). Qed.
Lemma nodup_addresses (p : symbol -> bool) (l : list (nat * symbol)) : NoDup (map fst l) ->
  (NoDup (map s_address (filter p (map snd l))) <->
   forall i s j s', In (i, s) l -> In (j, s') l -> p s = true -> p s' = true -> s_address s = s_address s' -> i = j).
Proof.
  intros N. induction l as [|[i s] l IH]; cbn [map filter].
  - split; [intros _ i s j s' []|constructor].
  - inversion N as [|? ? N1 N2]. subst. specialize (IH N2). cbn [fst snd] in *.
    assert (forall j, In j (map fst l) -> j <> i) as NI by (intros j J ->; contradiction).
    destruct (p s) eqn:P.
    + cbn [map]. split.
      * intros H. inversion H as [|? ? H1 H2]. subst. pose proof (proj1 IH H2) as G. intros a x b y [A|A] [B|B] Px Py Q.
        -- congruence.
        -- injection A as <- <-. exfalso. apply H1. apply in_map_iff. exists y. split; [now symmetry|]. apply filter_In. split; [|exact Py]. apply in_map_iff. exists (b, y). auto.
        -- injection B as <- <-. exfalso. apply H1. apply in_map_iff. exists x. split; [exact Q|]. apply filter_In. split; [|exact Px]. apply in_map_iff. exists (a, x). auto.
        -- exact (G a x b y A B Px Py Q).
      * intros H. constructor; [|apply IH; intros a x b y A B; apply H; now right].
        intros X. apply in_map_iff in X as (y & Q & Y). apply filter_In in Y as [Y Py]. apply in_map_iff in Y as ([b y'] & E & Y). cbn [snd] in E. subst y'.
        apply (NI b); [apply in_map_iff; exists (b, y); auto|]. apply (H b y i s); [now right|now left|exact Py|exact P|exact Q].
    + rewrite IH. split.
      * intros H a x b y [A|A] [B|B] Px Py Q; try (injection A as <- <-; congruence); try (injection B as <- <-; congruence). exact (H a x b y A B Px Py Q).
      * intros H a x b y A B. apply H; now right.
Qed.
Section Accepts.
Variables (e : elf) (t : types).
Hypothesis R : regular e.
Lemma text_members sec : of_object e sec -> kind_is sec KTextS -> forall s, In s (fun_syms (os_index sec) (numbered e)) <-> exists i, text_symbol e sec i s.
Proof.
  intros O K s. rewrite fun_sym_in. unfold text_symbol. split; intros (i & H); exists i; tauto.
Qed.
Lemma text_distinct sec : of_object e sec -> kind_is sec KTextS ->
  (NoDup (map s_address (fun_syms (os_index sec) (numbered e))) <->
   forall i s j s', text_symbol e sec i s -> text_symbol e sec j s' -> s_address s = s_address s' -> i = j).
Proof.
  intros O K. unfold fun_syms. rewrite (nodup_addresses _ _ (numbered_nodup e)).
  assert (forall i s, In (i, s) (numbered e) /\ fun_sym (os_index sec) s = true <-> text_symbol e sec i s) as G.
  { intros i s. rewrite numbered_in. unfold text_symbol, lies_in, fun_sym. split.
    - intros [I F]. destruct (s_def s); [|discriminate F]. destruct (s_kind s); try discriminate F. destruct (s_section s) as [j|]; [|discriminate F]. apply Nat.eqb_eq in F. subst j. auto 10.
    - intros (_ & _ & [I S] & D & SK). rewrite D, SK, S, Nat.eqb_refl. auto. }
  split.
  - intros H i s j s' A B Q. apply G in A as [A1 A2], B as [B1 B2]. exact (H i s j s' A1 B1 A2 B2 Q).
  - intros H i s j s' A1 B1 A2 B2 Q. exact (H i s j s' (proj1 (G i s) (conj A1 A2)) (proj1 (G j s') (conj B1 B2)) Q).
Qed.
Lemma any_here sec : any_symbol e sec <-> by_section e (os_index sec) <> [].
Proof.
  split.
  - intros (i & s & H) Q. apply here_in in H. rewrite Q in H. destruct H.
  - intros H. destruct (by_section e (os_index sec)) as [|[i s] l] eqn:Q; [contradiction|]. exists i, s. apply here_in. rewrite Q. now left.
Qed.
Lemma maps_loop_accepts sec k l : Forall (fun x => sym_ok (snd x)) l -> Z.of_nat (length (os_data sec)) < 2 ^ 64 ->
  ((exists r, maps_loop sec k l = Ok r) <->
   Forall (fun x => s_name (snd x) <> None /\ s_address (snd x) + s_size (snd x) <= Z.of_nat (length (os_data sec)) /\
     exists d, parse_map_def (slice (Z.to_nat (s_address (snd x))) (Z.to_nat (s_size (snd x))) (os_data sec)) = Ok d) l).
Proof.
  intros W SZ. induction l as [|[i s] l IH]; cbn [maps_loop]; [split; [constructor|intros _; eauto]|].
  inversion W as [|? ? [W1 W2] W']. subst. specialize (IH W'). cbn [snd] in *. split.
  - intros (r & H). apply bind_ok in H as (d & C & H). destruct (s_name s) as [n|] eqn:N; [|discriminate H]. apply bind_ok in H as (def & D & H). apply bind_ok in H as (r' & M & _).
    apply cut_ok in C as (_ & C1 & C2); [|lia]. constructor; [|apply IH; eauto]. cbn [snd]. split; [congruence|]. split; [lia|]. exists def. now rewrite <- C2.
  - intros H. inversion H as [|? ? (N & B & d & D) H']. subst. cbn [snd] in *. apply IH in H' as (r & M).
    assert (cut (os_data sec) (s_address s) (s_size s) = Ok (slice (Z.to_nat (s_address s)) (Z.to_nat (s_size s)) (os_data sec))) as ->.
    { unfold cut. destruct (Z.leb_spec 0 (s_address s)); [|lia]. destruct (Z.leb_spec (s_address s + s_size s) (Z.of_nat (length (os_data sec)))); [reflexivity|lia]. }
    cbn [bind]. destruct (s_name s) as [n|]; [|contradiction]. rewrite D. cbn [bind]. rewrite M. cbn [bind]. eauto.
Qed.
Lemma entries_accept b sec sy es : (exists r, btf_entries b sec sy es = Ok r) <->
  forall x, In x es -> exists n d, btf_map_def b x = Ok (n, d) /\ In n (map fst sy).
Proof.
  induction es as [|y es IH]; cbn [btf_entries]; [split; [intros _ x []|intros _; eauto]|]. split.
  - intros (r & H). apply bind_ok in H as ([n d] & D & H). cbn [fst snd] in H. destruct (assoc str_eqb n sy) as [i|] eqn:A; [|discriminate H]. apply bind_ok in H as (r' & M & _).
    intros x [<-|X]; [|apply IH; eauto]. exists n, d. split; [exact D|].
    destruct (in_dec name_dec n (map fst sy)) as [I|I]; [exact I|]. apply (assoc_none str_eqb str_eqb_eq) in I. congruence.
  - intros H. destruct (H y (or_introl eq_refl)) as (n & d & D & I). rewrite D. cbn [bind fst snd]. destruct (assoc str_eqb n sy) as [i|] eqn:A; [|apply (assoc_none str_eqb str_eqb_eq) in A; contradiction].
    destruct (proj2 IH) as (r & M); [intros x X; apply H; now right|]. rewrite M. cbn [bind]. eauto.
Qed.
Lemma secs_accept b sec sy ts : (exists r, btf_secs b sec sy ts = Ok r) <->
  forall h es, In (TDataSec h es) ts -> exists n, string_at b (h_name h) = Ok n /\
    (n = os_name sec -> forall x, In x es -> exists n d, btf_map_def b x = Ok (n, d) /\ In n (map fst sy)).
Proof.
  induction ts as [|ty ts IH]; [split; [intros _ h es []|intros _; cbn; eauto]|].
  assert ((exists h es, ty = TDataSec h es) \/ btf_secs b sec sy (ty :: ts) = btf_secs b sec sy ts /\ (forall h es, ty <> TDataSec h es)) as [(h & es & ->)|[Q N]].
  { destruct ty; try (right; split; [reflexivity|intros ? ? X; discriminate X]). left. eauto. }
  - cbn [btf_secs]. split.
    + intros (r & H). apply bind_ok in H as (n & S & H). apply bind_ok in H as (l & L & H). apply bind_ok in H as (r' & M & _).
      assert (string_at b (h_name h) = Ok n) as S' by (destruct (string_at b (h_name h)); [now apply ok_inj in S; subst|discriminate S]).
      intros h' es' [I|I]; [|apply (proj1 IH); eauto]. injection I as <- <-. exists n. split; [exact S'|]. intros ->.
      rewrite (proj2 (str_eqb_eq _ _) eq_refl) in L. apply (entries_accept b sec sy es). eauto.
    + intros H. destruct (H h es (or_introl eq_refl)) as (n & S & E). rewrite S. cbn [liftb bind].
      assert (exists l, (if str_eqb n (os_name sec) then btf_entries b sec sy es else Ok []) = Ok l) as (l & ->).
      { destruct (str_eqb n (os_name sec)) eqn:Q; [|eauto]. apply str_eqb_eq in Q. apply entries_accept. exact (E Q). }
      cbn [bind]. destruct (proj2 IH) as (r & M); [intros h' es' I; apply H; now right|]. rewrite M. cbn [bind]. eauto.
  - rewrite Q, IH. split; intros H h es I; [|apply H; now right]. destruct I as [I|I]; [exfalso; exact (N h es I)|now apply H].
Qed.
Lemma named_members n l : In n (map fst (rev (flat_map named_sym l))) <-> exists i s, In (i, s) l /\ s_name s = Some n.
Proof.
  rewrite map_rev, <- in_rev, in_map_iff. split.
  - intros ([m i] & <- & H). apply in_flat_map in H as ([j s] & I & H). unfold named_sym in H. cbn [fst snd] in *. destruct (s_name s) as [k|] eqn:N; [|destruct H].
    destruct H as [H|[]]. injection H as <- <-. eauto.
  - intros (i & s & I & N). exists (n, i). split; [reflexivity|]. apply in_flat_map. exists (i, s). split; [exact I|]. unfold named_sym. cbn [fst snd]. rewrite N. now left.
Qed.
Lemma is_program sec k i s : of_object e sec -> kind_is sec KProgram -> parse_psec (os_name sec) = Ok k -> lies_in e sec i s -> is_prog_sym s = true -> program_symbol e sec k i s.
Proof. intros O K P I Q. unfold program_symbol. auto. Qed.
Lemma section_accepted sec : of_object e sec -> (exists l, parse_section e t sec = Ok l) <-> section_ok e (ty_btf t) sec.
Proof.
  intros O. pose proof (rg_size e R sec (proj1 O)) as SZ. split.
  - intros (l & H). destruct (section_kind (os_name sec) (os_exec sec) (os_size sec)) eqn:K.
    1, 9, 10, 11, 12: exact (ok_other _ _ _ _ K ltac:(tauto)).
    + unfold parse_section in H. rewrite K in H. apply bind_ok in H as (r & P & _). unfold parse_maps in P. 
      assert (by_section e (os_index sec) <> []) as NE by (intros Q; rewrite Q in P; discriminate P).
      assert (exists r, maps_loop sec KMaps (by_section e (os_index sec)) = Ok r) as ML by (destruct (by_section e (os_index sec)); [discriminate P|eauto]).
      apply (maps_loop_accepts sec KMaps _) in ML; [|apply Forall_forall; intros [i s] X; apply here_in in X as [X _]; exact (symbol_words e i s R X)|exact SZ].
      rewrite Forall_forall in ML. apply ok_maps; [exact K|now apply any_here|]. intros i s I. apply here_in in I. exact (ML (i, s) I).
    + unfold parse_section in H. rewrite K in H. destruct (ty_btf t) as [b|] eqn:B; [|discriminate H].
      assert (by_section e (os_index sec) <> []) as NE by (intros Q; rewrite Q in H; discriminate H).
      assert (exists r, btf_secs b sec (rev (flat_map named_sym (by_section e (os_index sec)))) (b_types b) = Ok r) as P.
      { destruct (by_section e (os_index sec)); [discriminate H|]. apply bind_ok in H as (r & P & _). exists r. exact P. }
      apply (ok_btf _ _ _ b K eq_refl); [now apply any_here|]. intros h es I. destruct (proj1 (secs_accept _ _ _ _) P h es I) as (n & S & E). exists n. split; [exact S|].
      intros Q x X. destruct (E Q x X) as (m & d & D & M). apply named_members in M as (i & s & M & N). apply here_in in M. exists m, d, i, s. auto.
    + destruct (program_part e t R sec l O K H) as (k & r & P & A & _). apply (ok_program _ _ _ k K P A).
      intros i s (_ & _ & _ & I & S). exact (program_fits e t R sec l O K H i s I S).
    + exact (ok_data _ _ _ _ K ltac:(tauto)).
    + exact (ok_data _ _ _ _ K ltac:(tauto)).
    + exact (ok_data _ _ _ _ K ltac:(tauto)).
    + unfold parse_section in H. rewrite K in H. apply bind_ok in H as (r & P & _).
      destruct (proj1 (text_accepts _ _ _ (text_sizes e R sec)) (ex_intro _ r P)) as [N C].
      apply (ok_text _ _ _ (fun_syms (os_index sec) (numbered e)) K (text_members sec O K)); [now apply text_distinct|exact C].
  - intros [k K KK|k K KK|l K L D C|p K P A F|K A M|b K B A M]; unfold parse_section; rewrite K.
    + destruct KK as [-> | [-> | [-> | [-> | ->]]]]; eauto.
    + destruct KK as [-> | [-> | ->]]; cbn [data_map bind]; eauto.
    + destruct (proj2 (text_accepts (tables_of (ty_ext t)) (numbered e) sec (text_sizes e R sec))) as (r & ->); [|cbn [bind]; eauto].
      split; [now apply text_distinct|]. apply (chain_members sec l); [|exact C]. intros s I. apply (text_members sec O K). now apply L.
    + apply any_here in A. pose proof (programs_spec (tables_of (ty_ext t)) sec _ (here_words e R sec) SZ) as [_ Q].
      assert (exists r, parse_programs (tables_of (ty_ext t)) (Some (map snd (by_section e (os_index sec)))) sec = Ok r) as (r & X).
      { apply Q. split; [eauto|]. apply Forall_forall. intros s S. apply prog_sym_in in S as (i & I & S). exact (F i s (is_program sec p i s O K P I S)). }
      destruct (by_section e (os_index sec)) as [|y h]; [contradiction|]. rewrite X. cbn [bind]. eauto.
    + apply any_here in A. assert (exists r, parse_maps sec KMaps (by_section e (os_index sec)) = Ok r) as (r & ->); [|cbn [bind]; eauto].
      unfold parse_maps. assert (exists r, maps_loop sec KMaps (by_section e (os_index sec)) = Ok r) as X.
      { apply maps_loop_accepts; [apply Forall_forall; intros [i s] X; apply here_in in X as [X _]; exact (symbol_words e i s R X)|exact SZ|].
        apply Forall_forall. intros [i s] X. apply here_in in X. exact (M i s X). }
      destruct (by_section e (os_index sec)); [contradiction|exact X].
    + rewrite B. apply any_here in A.
      assert (exists r, btf_secs b sec (rev (flat_map named_sym (by_section e (os_index sec)))) (b_types b) = Ok r) as (r & X).
      { apply secs_accept. intros h es I. destruct (M h es I) as (n & S & E). exists n. split; [exact S|]. intros Q x X. destruct (E Q x X) as (m & d & i & s & D & L & N).
        exists m, d. split; [exact D|]. apply named_members. exists i, s. split; [now apply here_in|exact N]. }
      destruct (by_section e (os_index sec)); [contradiction|]. change (fun x => match s_name (snd x) with Some n => [(n, fst x)] | None => [] end) with named_sym.
      rewrite X. cbn [bind]. eauto.
Qed.
End Accepts.
Lemma parse_accepts e : regular e -> (exists q, parse e = Ok q) <->
  (exists l, license_is e l) /\ (exists v, version_is e v) /\ symbols_named e /\
  exists t, the_types e = Ok t /\ forall sec, of_object e sec -> section_ok e (ty_btf t) sec.
Proof.
  intros R. split.
  - intros (q & H). apply parse_steps in H as (t & l & H1 & H2 & H3 & H4 & H5 & _). apply license_read in H1. apply version_read in H2. apply all_named_ok in H3.
    split; [eauto|]. split; [eauto|]. split; [exact H3|]. exists t. split; [exact H4|]. intros sec O. apply (section_accepted e t R sec O).
    destruct (section_parsed e t l H5 sec O) as (p & P). exists p. exact (proj2 P).
  - intros ((lic & H1) & (v & H2) & H3 & t & H4 & H5). apply license_read in H1. apply version_read in H2. apply all_named_ok in H3.
    destruct (mapM_forall (parse_section e t) (others e)) as (l & M).
    { intros sec I. apply others_in in I. apply (section_accepted e t R sec I). now apply H5. }
    exists {| q_license := lic; q_version := v; q_obj := assemble e t l |}. apply parse_steps. exists t, l. cbn [q_license q_version q_obj]. auto 10.
Qed.
