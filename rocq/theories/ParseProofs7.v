(** Loading a file. *)
From Coq Require Import String Permutation.
From Verif Require Import Base Text Insn LinkModel BtfTypes BtfModel BtfExt CoreModel CoreProofs2 BtfSanitize ExternModel ExternSpec ObjModel ObjSpec ObjProofs ObjProofs2 ObjProofs3 ObjProofs4 ObjProofs5
  WholeModel WholeSpec LoaderModel LoaderSpec LoaderProofs LoaderProofs2 LoaderProofs3 LoaderProofs4 ParseModel ParseSpec ParseProofs ParseProofs2 ParseProofs3 ParseProofs4 ParseProofs5.
Local Open Scope Z_scope.

Lemma framed_refl f : framed f f.
Proof. unfold framed. auto 10. Qed.
Lemma framed_all_refl l : Forall2 framed l l.
Proof. induction l; constructor; [apply framed_refl|assumption]. Qed.
Lemma framed_trans f g h : framed f g -> framed g h -> framed f h.
Proof. unfold framed. intros (A1 & A2 & A3 & A4 & A5 & A6) (B1 & B2 & B3 & B4 & B5 & B6). repeat split; congruence. Qed.
Lemma framed_all_trans l : forall m r, Forall2 framed l m -> Forall2 framed m r -> Forall2 framed l r.
Proof.
  induction l as [|x l IH]; intros m r A B; inversion A; subst; inversion B; subst; constructor; [eapply framed_trans; eauto|eapply IH; eauto].
Qed.
Lemma framed_upd l : forall i f ins, nth_error l i = Some f -> length ins = length (f_ins f) -> Forall2 framed l (upd i (set_ins f ins) l).
Proof.
  induction l as [|x l IH]; intros i f ins N L; [destruct i; discriminate N|]. destruct i as [|i].
  - injection N as ->. constructor; [|apply framed_all_refl]. unfold framed, set_ins. cbn. auto 10.
  - constructor; [apply framed_refl|]. apply (IH i f ins N L).
Qed.
Lemma funs_framed stack be lb tb sec rs : forall funs last ch funs' ch', relocate_funs stack be lb tb sec rs funs last ch = Ok (funs', ch') -> Forall2 framed funs funs'.
Proof.
  induction rs as [|r rs IH]; intros funs last ch funs' ch' H; cbn [relocate_funs] in H.
  { apply ok_inj in H. apply pair_equal_spec in H as [<- _]. apply framed_all_refl. }
  destruct (pick_fun sec r funs last) as [i|]; [|discriminate H]. destruct (nth_error funs i) as [f|] eqn:N; [|discriminate H]. cbv zeta in H.
  destruct (_ <=? _); [discriminate H|]. apply bind_ok in H as (cc & _ & H). apply bind_ok in H as (ins & A & H).
  apply (framed_all_trans _ (upd i (set_ins f ins) funs)); [|exact (IH _ _ _ _ _ H)]. apply framed_upd; [exact N|]. exact (apply_length _ _ _ _ _ _ A).
Qed.
Lemma secs_framed stack be lb tb sections relos : forall funs ch funs' ch', relocate_secs stack be lb tb sections relos funs ch = Ok (funs', ch') -> Forall2 framed funs funs'.
Proof.
  induction relos as [|[o rs] relos IH]; intros funs ch funs' ch' H; cbn [relocate_secs] in H.
  { apply ok_inj in H. apply pair_equal_spec in H as [<- _]. apply framed_all_refl. }
  apply bind_ok in H as (n & _ & H). destruct (assoc str_eqb n sections) as [sec|]; [|discriminate H]. apply bind_ok in H as ([m c] & A & H). cbn [fst snd] in H.
  apply (framed_all_trans _ m); [exact (funs_framed _ _ _ _ _ _ _ _ _ _ _ A)|exact (IH _ _ _ _ H)].
Qed.
Lemma btf_framed stack be lb tb sections relos funs funs' : relocate_btf stack be lb tb sections relos funs = Ok funs' -> Forall2 framed funs funs'.
Proof. unfold relocate_btf. intros H. apply bind_ok in H as ([m c] & A & H). apply ok_inj in H. cbn [fst] in H. subst m. exact (secs_framed _ _ _ _ _ _ _ _ _ _ A). Qed.
Lemma framed_keys l m : Forall2 framed l m -> map (fun f => (f_sec f, f_addr f)) m = map (fun f => (f_sec f, f_addr f)) l.
Proof. induction 1 as [|f g l m (A1 & A2 & _) F IH]; [reflexivity|]. cbn [map]. now rewrite IH, A1, A2. Qed.

Lemma sent_same k o fd o1 : sent k o fd o1 -> p_funs o1 = p_funs o /\ p_progs o1 = p_progs o /\ p_relocs o1 = p_relocs o /\ p_syms o1 = p_syms o /\ p_relos o1 = p_relos o /\ p_externs o1 = p_externs o /\
  (p_btf o <> None -> p_btf o1 <> None).
Proof. intros [_|b d _ _|b x _ _ _]; cbn [with_btf p_funs p_progs p_relocs p_syms p_relos p_externs p_btf]; repeat split; auto; intros; discriminate. Qed.

Section Loaded.
Variables (e : elf) (t : types) (ls : list part).
Hypotheses (R : regular e) (M : mapM (parse_section e t) (others e) = Ok ls).
Lemma relocs_once i : NoDup (map r_offset (p_relocs (assemble e t ls) i)).
Proof.
  set (P := fun sec => Nat.eqb (os_index sec) i && match section_kind (os_name sec) (os_exec sec) (os_size sec) with KTextS | KProgram => true | _ => false end).
  destruct (find P (others e)) as [sec|] eqn:F.
  - apply find_some in F as [I Q]. apply andb_prop in Q as [Q1 Q2]. apply Nat.eqb_eq in Q1. apply others_in in I. subst i. apply (relocs_at e t ls R M sec I).
    unfold kind_is. destruct (section_kind (os_name sec) (os_exec sec) (os_size sec)); try discriminate Q2; auto.
  - rewrite (relocs_none e t ls R M); [constructor|]. intros sec O K Q. pose proof (find_none _ _ F sec (proj2 (others_in e sec) O)) as X. unfold P in X.
    rewrite Q, Nat.eqb_refl in X. destruct K as [K|K]; rewrite K in X; discriminate X.
Qed.
Lemma funs_place f : In f (p_funs (assemble e t ls)) -> 0 <= f_secoff f /\ f_secoff f + 8 * Z.of_nat (length (f_ins f)) <= 2 ^ 64.
Proof.
  intros I. apply (funs_origin e t ls R M) in I.
  assert (exists sec s b, of_object e sec /\ function_of (ty_ext t) sec s b f) as (sec & s & b & O & (A1 & A2 & A3 & _ & _ & A6) & _).
  { destruct I as [(sec & k & i & s & S & _ & F)|(sec & i & s & S & _ & F)]; exists sec, s; eexists; (split; [exact (proj1 S)|exact F]). }
  pose proof (rg_size e R sec (proj1 O)). rewrite A6, <- A3. split; [exact A1|]. apply Z.lt_le_incl. eapply Z.le_lt_trans; eauto.
Qed.
Lemma parsed_complete k o2 a : p_progs o2 = p_progs (assemble e t ls) -> p_relocs o2 = p_relocs (assemble e t ls) ->
  Forall2 framed (p_funs (assemble e t ls)) (p_funs o2) -> code_complete k o2 a -> programs_complete k o2 a.
Proof.
  intros P1 P2 F CC. unfold programs_complete. cbv zeta. intros C K S. apply CC; auto.
  - destruct C as [C1 C2 C3 C4 C5]. constructor; auto.
    + cbn [code_of_object ob_funs]. rewrite (framed_keys _ _ F). exact (funs_keys e t ls R M).
    + intros sec. unfold is_code, code_section. rewrite existsb_exists. split; intros (f & I & Q); exists f; (split; [exact I|]); [now apply Nat.eqb_eq|now apply Nat.eqb_eq].
    + cbn [code_of_object ob_funs]. intros f I. destruct (forall2_right _ _ _ _ F I) as (g & G & (_ & _ & -> & _ & _ & ->)). exact (funs_place g G).
    + cbn [code_of_object ob_relocs]. intros sec. rewrite P2. apply relocs_once.
  - rewrite P1. exact (programs_keys e t ls R M).
Qed.
End Loaded.

Lemma loaded_elf c k e tg u a tg' u' : regular e -> load_elf c k e tg u = (Ok a, tg', u') ->
  exists q ms fd o1 o2 tb, parse e = Ok q /\ configured c (q_obj q) ms /\ sent k (with_maps ms (q_obj q)) fd o1 /\ suited k tb o1 o2 /\
    (forall b, tb = Some b -> tg' = TParsed b) /\ (tb = None -> uses_target o1 -> unparsed tg /\ exists n, next_answer u = Err n) /\
    maps_of c k ms a (u_kernel u) (u_kernel u') /\ programs_of c k (q_obj q) fd a /\
    Forall2 framed (p_funs (q_obj q)) (p_funs o2) /\ p_relocs o2 = p_relocs (q_obj q) /\ programs_complete k o2 a.
Proof.
  intros R H. unfold load_elf in H. destruct (parse e) as [q|x] eqn:P; [|apply pair_equal_spec in H as [H _]; apply pair_equal_spec in H as [H _]; discriminate H].
  destruct (load c k (q_obj q) tg u) as [[r t1] u1] eqn:L. apply pair_equal_spec in H as [H H3]. apply pair_equal_spec in H as [H H2]. subst t1 u1.
  destruct r as [a'|x]; [|discriminate H]. apply ok_inj in H. subst a'.
  destruct (load_ok _ _ _ _ _ _ _ _ L) as (ms & fd & o1 & o2 & tb & L1 & L2 & L3 & L4 & L5 & L6 & L7 & L8).
  apply parse_steps in P as P'. destruct P' as (t & ls & _ & _ & _ & HT & HM & Q).
  pose proof (types_spec e t ls HT) as TS. rewrite <- Q in TS.
  destruct (sent_same _ _ _ _ L2) as (S1 & S2 & S3 & S4 & S5 & S6 & S7). cbn [with_maps p_funs p_progs p_relocs p_syms p_relos p_externs p_btf] in *.
  assert (Forall2 framed (p_funs (q_obj q)) (p_funs o2)) as F.
  { rewrite <- S1. destruct (p_relos o1) as [|r0 rs] eqn:RE; [rewrite (su_funs _ _ _ _ L3 (or_introl RE)); apply framed_all_refl|].
    assert (p_relos o1 <> []) as NE by (rewrite RE; discriminate). 
    destruct tb as [b|]; [|exfalso; apply (su_needed _ _ _ _ L3); [left; exact NE|reflexivity]].
    assert (p_btf (q_obj q) <> None) as NB.
    { intros NB. assert (p_relos (q_obj q) <> []) as NE' by (rewrite <- S5; discriminate). clear NE. revert NB. destruct TS as [_ _ _ _ E|b0 x _ _ -> _ _ _|b0 x i es b' pl l _ _ _ _ -> _ _ _ _]; [contradiction|intros X; discriminate X|intros X; discriminate X]. }
    apply S7 in NB. destruct (p_btf o1) as [b0|] eqn:B; [|contradiction]. exact (btf_framed _ _ _ _ _ _ _ _ (su_core _ _ _ _ L3 b0 b eq_refl B NE)). }
  assert (p_relocs o2 = p_relocs (q_obj q)) as PR by (rewrite (su_relocs _ _ _ _ L3); exact S3).
  assert (p_progs o2 = p_progs (q_obj q)) as PP by (rewrite (su_progs _ _ _ _ L3); exact S2).
  exists q, ms, fd, o1, o2, tb. split; [reflexivity|]. do 7 (split; [assumption|]). split; [exact F|]. split; [exact PR|].
  rewrite Q in *. exact (parsed_complete e t ls R HM k o2 a PP PR F L8).
Qed.
Lemma loaded_programs c k e tg u a tg' u' : regular e -> load_elf c k e tg u = (Ok a, tg', u') ->
  NoDup (map (fun p => (pg_index p, pg_addr p)) (map ld_prog (e_progs a))) /\
  forall p, In p (map ld_prog (e_progs a)) <-> exists sec kd i s n, program_symbol e sec kd i s /\ s_name s = Some n /\ p = the_program sec kd s n.
Proof.
  intros R H. destruct (loaded_elf _ _ _ _ _ _ _ _ R H) as (q & ms & fd & o1 & o2 & tb & P & _ & _ & _ & _ & _ & _ & PO & _).
  apply parse_steps in P as (t & ls & _ & _ & _ & HT & HM & Q). rewrite (po_all _ _ _ _ _ PO), Q. split; [exact (programs_keys e t ls R HM)|exact (programs_are e t ls R HM)].
Qed.

Lemma elf_works c k e tg u w : (exists a tg' u', load_elf c k e tg u = (Ok a, tg', u') /\ u_kernel u' = w) <->
  exists q ms fd o1 tb o2 l, parse e = Ok q /\ loadable c k (q_obj q) tg u ms fd o1 tb o2 l w.
Proof.
  split.
  - intros (a & tg' & u' & H & K). unfold load_elf in H. destruct (parse e) as [q|x]; [|apply pair_ok in H as (H & _); discriminate H].
    destruct (load c k (q_obj q) tg u) as [[r t1] u1] eqn:L. apply pair_ok in H as (H & E1 & E2). destruct r as [a'|x]; [|discriminate H].
    destruct (proj1 (load_iff c k (q_obj q) tg u w)) as (ms & fd & o1 & tb & o2 & l & D); [exists a', t1, u1; split; [exact L|congruence]|].
    exists q, ms, fd, o1, tb, o2, l. split; [reflexivity|exact D].
  - intros (q & ms & fd & o1 & tb & o2 & l & P & D). destruct (proj2 (load_iff c k (q_obj q) tg u w)) as (a & t' & u' & L & K); [exists ms, fd, o1, tb, o2, l; exact D|].
    exists a, t', u'. split; [|exact K]. unfold load_elf. rewrite P, L. reflexivity.
Qed.
