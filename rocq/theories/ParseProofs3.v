(** The tables of the parsed object. *)
From Coq Require Import String Permutation.
From Verif Require Import Base Text Insn LinkModel BtfTypes BtfModel BtfExt BtfSanitize ExternModel ObjModel ObjSpec ObjProofs ObjProofs2 ObjProofs3 ObjProofs4 LoaderModel ParseModel ParseSpec ParseProofs ParseProofs2.
Local Open Scope Z_scope.

Lemma nodup_map_inj {A B} (f : A -> B) l : NoDup l -> (forall x y, In x l -> In y l -> f x = f y -> x = y) -> NoDup (map f l).
Proof.
  induction 1 as [|x l N D IH]; intros I; cbn [map]; constructor.
  - intros H. apply in_map_iff in H as (y & H & Y). apply N. rewrite (I x y); [exact Y|now left|now right|now symmetry].
  - apply IH. intros y z Y Z. apply I; now right.
Qed.
Lemma nodup_map_inv {A B} (f : A -> B) l x y : NoDup (map f l) -> In x l -> In y l -> f x = f y -> x = y.
Proof.
  induction l as [|z l IH]; cbn [map In]; [tauto|]. intros D X Y Q. apply NoDup_cons_iff in D as [N D]. destruct X as [->|X], Y as [->|Y]; auto.
  - exfalso. apply N. rewrite Q. now apply in_map.
  - exfalso. apply N. rewrite <- Q. now apply in_map.
Qed.
Lemma nodup_of_map {A B} (f : A -> B) l : NoDup (map f l) -> NoDup l.
Proof. apply NoDup_map_inv. Qed.

Section Whole.
Variables (e : elf) (t : types) (ls : list part).
Hypotheses (R : regular e) (M : mapM (parse_section e t) (others e) = Ok ls).

Definition from (sec : osec) (l : part) : Prop := of_object e sec /\ parse_section e t sec = Ok l.
Lemma parts_in {A} (g : part -> list A) x : In x (flat_map g ls) <-> exists sec l, from sec l /\ In x (g l).
Proof.
  pose proof (mapM_ok _ _ _ M) as F. rewrite in_flat_map. split.
  - intros (l & L & X). destruct (forall2_right _ _ _ _ F L) as (sec & S & P). exists sec, l. split; [split; [now apply others_in|exact P]|exact X].
  - intros (sec & l & [O P] & X). apply others_in in O. destruct (forall2_left _ _ _ _ F O) as (l' & L & P'). exists l'. split; [exact L|]. congruence.
Qed.
Lemma section_parsed sec : of_object e sec -> exists l, from sec l.
Proof.
  intros O. pose proof (mapM_ok _ _ _ M) as F. destruct (forall2_left _ _ _ sec F) as (l & _ & P); [now apply others_in|]. exists l. split; auto.
Qed.
Lemma same_section sec sec' : of_object e sec -> of_object e sec' -> os_index sec = os_index sec' -> sec = sec'.
Proof. intros [O _] [O' _] Q. exact (nodup_map_inv os_index _ _ _ (rg_index e R) O O' Q). Qed.
Lemma from_fun sec l l' : from sec l -> from sec l' -> l = l'.
Proof. intros [_ P] [_ P']. congruence. Qed.
Lemma kind_cases sec : kind_is sec KProgram \/ kind_is sec KTextS \/ exists k, kind_is sec k /\ k <> KTextS /\ k <> KProgram.
Proof. unfold kind_is. destruct (section_kind (os_name sec) (os_exec sec) (os_size sec)); auto; right; right; eexists; split; try reflexivity; split; discriminate. Qed.

(** * Programs *)
Lemma program_entry n p : In (n, p) (flat_map pt_progs ls) <-> exists sec k i s, program_symbol e sec k i s /\ s_name s = Some n /\ p = the_program sec k s n.
Proof.
  rewrite (parts_in pt_progs). split.
  - intros (sec & l & [O P] & X). destruct (kind_cases sec) as [K|[K|(k & K & N1 & N2)]].
    + apply (section_progs e t R sec l O K P) in X as (k & i & s & X). exists sec, k, i, s. exact X.
    + destruct (text_part e t R sec l O K P) as (r & _ & _ & E1 & _). rewrite E1 in X. destruct X.
    + destruct (other_part e t sec l k K N1 N2 P) as (E1 & _). rewrite E1 in X. destruct X.
  - intros (sec & k & i & s & S & N & Q). pose proof S as (O & K & _). destruct (section_parsed sec O) as (l & L). exists sec, l. split; [exact L|].
    apply (section_progs e t R sec l O K (proj2 L)). exists k, i, s. auto.
Qed.
Lemma symbol_section sec k i s sec' k' s' : program_symbol e sec k i s -> program_symbol e sec' k' i s' -> sec' = sec /\ k' = k /\ s' = s.
Proof.
  intros (O & K & P & [S1 S2] & _) (O' & K' & P' & [S1' S2'] & _). pose proof (symbol_fun _ _ _ _ S1 S1') as <-. rewrite S2 in S2'. injection S2' as Q.
  pose proof (same_section sec sec' O O' Q) as <-. rewrite P in P'. injection P' as ->. auto.
Qed.
Lemma programs_are p : In p (p_progs (assemble e t ls)) <-> exists sec k i s n, program_symbol e sec k i s /\ s_name s = Some n /\ p = the_program sec k s n.
Proof.
  cbn [assemble p_progs]. rewrite in_map_iff. split.
  - intros ([n p'] & <- & X). apply (table_in str_eqb str_eqb_eq) in X. apply last_in, program_entry in X as (sec & k & i & s & X). exists sec, k, i, s, n. exact X.
  - intros (sec & k & i & s & n & S & N & Q). exists (n, p). split; [reflexivity|]. apply (table_in str_eqb str_eqb_eq). apply (last_agree name_dec).
    + intros p' X. apply program_entry in X as (sec' & k' & i' & s' & S' & N' & ->).
      assert (i = i') as <- by (apply (rg_names e R sec k i s sec' k' i' s' S S'); congruence).
      destruct (symbol_section _ _ _ _ _ _ _ S S') as (-> & -> & ->). now rewrite Q.
    + apply program_entry. exists sec, k, i, s. auto.
Qed.
Lemma programs_keys : NoDup (map (fun p => (pg_index p, pg_addr p)) (p_progs (assemble e t ls))).
Proof.
  cbn [assemble p_progs]. rewrite map_map. apply nodup_map_inj; [exact (nodup_of_map fst _ (table_nodup str_eqb str_eqb_eq _))|].
  intros [n p] [n' p'] X X' Q. cbn [snd] in Q. apply (table_in str_eqb str_eqb_eq) in X, X'. apply last_in, program_entry in X as (sec & k & i & s & S & N & ->).
  apply last_in, program_entry in X' as (sec' & k' & i' & s' & S' & N' & ->). cbn [the_program pg_index pg_addr] in Q. injection Q as Q1 Q2.
  pose proof (same_section sec sec' (proj1 S) (proj1 S') Q1) as <-.
  assert (k' = k) as -> by (destruct S as (_ & _ & P & _), S' as (_ & _ & P' & _); congruence).
  pose proof (rg_addrs e R _ _ _ _ _ _ S S' Q2) as <-. destruct (symbol_section _ _ _ _ _ _ _ S S') as (_ & _ & ->). congruence.
Qed.

(** * Functions *)
Definition origin (key : nat * Z) (f : func) : Prop :=
  (exists sec k i s, program_symbol e sec k i s /\ key = (os_index sec, s_address s) /\ function_of (ty_ext t) sec s true f) \/
  (exists sec i s, text_symbol e sec i s /\ key = (os_index sec, s_address s) /\ function_of (ty_ext t) sec s false f).
Lemma fun_entry key f : In (key, f) (flat_map pt_funs ls) -> origin key f.
Proof.
  rewrite (parts_in pt_funs). intros (sec & l & [O P] & X). destruct (kind_cases sec) as [K|[K|(k & K & N1 & N2)]].
  - left. destruct (proj1 (section_funs e t R sec l O K P) key f X) as (k & i & s & Y). eauto.
  - right. destruct (text_function e t R sec l O K P key f X) as (i & s & Y). eauto.
  - destruct (other_part e t sec l k K N1 N2 P) as (_ & E1 & _). rewrite E1 in X. destruct X.
Qed.
Lemma function_unique x sec s b f f' : function_of x sec s b f -> function_of x sec s b f' -> f = f'.
Proof.
  intros ((A1 & A2 & A3 & A4 & A5 & A6) & A7 & A8 & A9) ((B1 & B2 & B3 & B4 & B5 & B6) & B7 & B8 & B9).
  rewrite A4 in B4. apply ok_inj in B4. destruct f, f'. cbn in *. congruence.
Qed.
Lemma fun_agree key f f' : In (key, f) (flat_map pt_funs ls) -> In (key, f') (flat_map pt_funs ls) -> f = f'.
Proof.
  intros X X'. rewrite (parts_in pt_funs) in X, X'. destruct X as (sec & l & L & X), X' as (sec' & l' & L' & X'). pose proof L as [O P]. pose proof L' as [O' P'].
  assert (sec = sec') as <-.
  { apply same_section; auto.
    assert (forall sc lx, from sc lx -> In (key, f) (pt_funs lx) \/ In (key, f') (pt_funs lx) -> fst key = os_index sc) as G.
    { intros sc lx [Os Ps] I. destruct (kind_cases sc) as [K|[K|(k & K & N1 & N2)]].
      - destruct I as [I|I]; destruct (proj1 (section_funs e t R sc lx Os K Ps) _ _ I) as (? & ? & ? & _ & -> & _); reflexivity.
      - destruct I as [I|I]; destruct (text_function e t R sc lx Os K Ps _ _ I) as (? & ? & _ & -> & _); reflexivity.
      - destruct (other_part e t sc lx k K N1 N2 Ps) as (_ & E1 & _). rewrite E1 in I. destruct I as [[]|[]]. }
    rewrite <- (G sec l L (or_introl X)). exact (G sec' l' L' (or_intror X')). }
  pose proof (from_fun _ _ _ L L') as <-. destruct (kind_cases sec) as [K|[K|(k & K & N1 & N2)]].
  - destruct (proj1 (section_funs e t R sec l O K P) _ _ X) as (k & i & s & S & Q & F). destruct (proj1 (section_funs e t R sec l O K P) _ _ X') as (k' & i' & s' & S' & Q' & F').
    rewrite Q in Q'. injection Q' as Q'. assert (k' = k) as -> by (destruct S as (_ & _ & H & _), S' as (_ & _ & H' & _); congruence).
    pose proof (rg_addrs e R _ _ _ _ _ _ S S' Q') as <-. destruct (symbol_section _ _ _ _ _ _ _ S S') as (_ & _ & ->). exact (function_unique _ _ _ _ _ _ F F').
  - destruct (text_part e t R sec l O K P) as (r & T & _ & _ & E1 & _). 
    destruct (text_function e t R sec l O K P _ _ X) as (i & s & _ & Q & F). destruct (text_function e t R sec l O K P _ _ X') as (i' & s' & _ & Q' & F').
    rewrite E1 in X, X'. apply in_map_iff in X as ([n g] & X & I), X' as ([n' g'] & X' & I'). cbn [snd] in X, X'.
    assert (g = f) as -> by congruence. assert (g' = f') as -> by congruence.
    assert ((n, f) = (n', f')) as H; [|congruence]. apply (tiles_apart _ _ _ T n f n' f' I I').
    destruct F as ((_ & _ & _ & _ & _ & ->) & _), F' as ((_ & _ & _ & _ & _ & ->) & _). congruence.
  - destruct (other_part e t sec l k K N1 N2 P) as (_ & E1 & _). rewrite E1 in X. destruct X.
Qed.
Lemma fun_in f : In f (p_funs (assemble e t ls)) <-> exists key, In (key, f) (flat_map pt_funs ls).
Proof.
  cbn [assemble p_funs]. rewrite in_map_iff. split.
  - intros ([key f'] & <- & X). apply (table_in nat_z_eqb natz_eqb) in X. apply last_in in X. exists key. exact X.
  - intros (key & X). exists (key, f). split; [reflexivity|]. apply (table_in nat_z_eqb natz_eqb). apply (last_agree natz_dec); [|exact X].
    intros f' X'. exact (fun_agree key f' f X' X).
Qed.
Lemma funs_origin f : In f (p_funs (assemble e t ls)) -> origin (f_sec f, f_addr f) f.
Proof.
  intros X. apply fun_in in X as (key & X). pose proof (fun_entry key f X) as O. replace (f_sec f, f_addr f) with key; [exact O|].
  destruct O as [(sec & k & i & s & _ & -> & F)|(sec & i & s & _ & -> & F)]; destruct F as ((_ & _ & _ & _ & -> & _) & -> & _); reflexivity.
Qed.
Lemma program_function sec k i s : program_symbol e sec k i s -> exists f, In f (p_funs (assemble e t ls)) /\ function_of (ty_ext t) sec s true f.
Proof.
  intros S. pose proof S as (O & K & _). destruct (section_parsed sec O) as (l & L). destruct (proj2 (section_funs e t R sec l O K (proj2 L)) k i s S) as (f & I & F).
  exists f. split; [|exact F]. apply fun_in. exists (os_index sec, s_address s). apply (parts_in pt_funs). exists sec, l. auto.
Qed.
Lemma text_tiled sec : of_object e sec -> kind_is sec KTextS -> exists r, tiles sec 0 r /\ forall f, (In f (p_funs (assemble e t ls)) /\ f_sec f = os_index sec) <-> In f (map snd r).
Proof.
  intros O K. destruct (section_parsed sec O) as (l & L). destruct (text_part e t R sec l O K (proj2 L)) as (r & T & _ & _ & E1 & _). exists r. split; [exact T|].
  intros f. split.
  - intros (I & S). apply fun_in in I as (key & X). pose proof X as X0. apply (parts_in pt_funs) in X as (sec' & l' & L' & X).
    assert (sec' = sec) as ->.
    { apply same_section; [exact (proj1 L')|exact O|]. rewrite <- S. destruct (kind_cases sec') as [K'|[K'|(k & K' & N1 & N2)]].
      - destruct (proj1 (section_funs e t R sec' l' (proj1 L') K' (proj2 L')) _ _ X) as (? & ? & ? & _ & _ & F). destruct F as ((_ & _ & _ & _ & F & _) & _). now symmetry.
      - destruct (text_function e t R sec' l' (proj1 L') K' (proj2 L') _ _ X) as (? & ? & _ & _ & F). destruct F as ((_ & _ & _ & _ & F & _) & _). now symmetry.
      - destruct (other_part e t sec' l' k K' N1 N2 (proj2 L')) as (_ & E2 & _). rewrite E2 in X. destruct X. }
    pose proof (from_fun _ _ _ L L') as <-. rewrite E1 in X. apply in_map_iff in X as ([n g] & X & I). apply in_map_iff. exists (n, g). split; [|exact I]. cbn [snd] in *. congruence.
  - intros I. apply in_map_iff in I as ([n g] & <- & I). cbn [snd]. split; [|exact (proj1 (proj2 (proj2 (tiles_place _ _ _ T _ _ I))))].
    apply fun_in. exists (f_sec g, f_addr g). apply (parts_in pt_funs). exists sec, l. split; [exact L|]. rewrite E1. apply in_map_iff. exists (n, g). auto.
Qed.
Lemma funs_keys : NoDup (map (fun f => (f_sec f, f_addr f)) (p_funs (assemble e t ls))).
Proof.
  cbn [assemble p_funs]. rewrite map_map. pose proof (table_nodup nat_z_eqb natz_eqb (flat_map pt_funs ls)) as N.
  erewrite map_ext_in; [exact N|]. intros [key f] X. cbn [fst snd]. apply (table_in nat_z_eqb natz_eqb) in X. apply last_in, fun_entry in X.
  destruct X as [(sec & k & i & s & _ & -> & F)|(sec & i & s & _ & -> & F)]; destruct F as ((_ & _ & _ & _ & -> & _) & -> & _); reflexivity.
Qed.

(** * Relocations *)
Lemma relocs_at sec : of_object e sec -> kind_is sec KTextS \/ kind_is sec KProgram ->
  NoDup (map r_offset (p_relocs (assemble e t ls) (os_index sec))) /\
  forall r, In r (p_relocs (assemble e t ls) (os_index sec)) <-> last_of (map (fun r => (r_offset r, r)) (os_relocs sec)) (r_offset r) r.
Proof.
  intros O K. destruct (section_parsed sec O) as (l & L).
  assert (pt_relocs l = relocs_of sec) as P.
  { destruct K as [K|K]; [destruct (text_part e t R sec l O K (proj2 L)) as (r & _ & _ & _ & _ & _ & E1)|destruct (program_part e t R sec l O K (proj2 L)) as (k & r & _ & _ & _ & _ & _ & _ & E1)]; exact E1. }
  assert (forall v, In (os_index sec, v) (flat_map pt_relocs ls) <-> In (os_index sec, v) (relocs_of sec)) as G.
  { intros v. rewrite (parts_in pt_relocs). split.
    - intros (sec' & l' & L' & X). assert (pt_relocs l' = relocs_of sec' \/ pt_relocs l' = []) as [Q|Q].
      { destruct (kind_cases sec') as [K'|[K'|(k & K' & N1 & N2)]].
        - destruct (program_part e t R sec' l' (proj1 L') K' (proj2 L')) as (k & r & _ & _ & _ & _ & _ & _ & E1). auto.
        - destruct (text_part e t R sec' l' (proj1 L') K' (proj2 L')) as (r & _ & _ & _ & _ & _ & E1). auto.
        - destruct (other_part e t sec' l' k K' N1 N2 (proj2 L')) as (_ & _ & E1). auto. }
      + rewrite Q in X. assert (os_index sec' = os_index sec) as I.
        { unfold relocs_of in X. destruct (os_relocs sec'); [destruct X|]. destruct X as [X|[]]. congruence. }
        rewrite (same_section sec' sec (proj1 L') O I) in X. exact X.
      + rewrite Q in X. destruct X.
    - intros X. exists sec, l. rewrite P. auto. }
  cbn [assemble p_relocs]. set (tab := map snd (puts Z.eqb (map (fun r => (r_offset r, r)) (os_relocs sec)) [])).
  assert (match assoc Nat.eqb (os_index sec) (puts Nat.eqb (flat_map pt_relocs ls) []) with Some r => r | None => [] end = tab) as ->.
  { destruct (assoc Nat.eqb (os_index sec) (puts Nat.eqb (flat_map pt_relocs ls) [])) as [v|] eqn:A.
    - apply (table_some Nat.eqb Nat.eqb_eq) in A. apply last_in, G in A. unfold relocs_of in A. unfold tab. destruct (os_relocs sec) as [|r0 rs]; [destruct A|]. destruct A as [A|[]]. congruence.
    - apply (table_none Nat.eqb Nat.eqb_eq) in A. unfold tab. destruct (os_relocs sec) as [|r0 rs] eqn:Q; [reflexivity|]. exfalso. apply A.
      apply in_map_iff. exists (os_index sec, map snd (puts Z.eqb (map (fun r => (r_offset r, r)) (r0 :: rs)) [])). split; [reflexivity|]. apply G. unfold relocs_of. rewrite Q. now left. }
  assert (forall k r, In (k, r) (puts Z.eqb (map (fun r => (r_offset r, r)) (os_relocs sec)) []) -> k = r_offset r) as KK.
  { intros k r X. apply (table_in Z.eqb Z.eqb_eq) in X. apply last_in in X. apply in_map_iff in X as (r' & X & _). congruence. }
  split.
  - unfold tab. rewrite map_map. pose proof (table_nodup Z.eqb Z.eqb_eq (map (fun r => (r_offset r, r)) (os_relocs sec))) as N. erewrite map_ext_in; [exact N|].
    intros [k r] X. cbn [fst snd]. symmetry. exact (KK k r X).
  - intros r. unfold tab. rewrite in_map_iff, <- (table_in Z.eqb Z.eqb_eq). split.
    + intros ([k r'] & <- & X). cbn [snd]. now rewrite <- (KK k r' X).
    + intros X. exists (r_offset r, r). auto.
Qed.
Lemma relocs_none i : (forall sec, of_object e sec -> kind_is sec KTextS \/ kind_is sec KProgram -> os_index sec <> i) -> p_relocs (assemble e t ls) i = [].
Proof.
  intros N. cbn [assemble p_relocs]. destruct (assoc Nat.eqb i (puts Nat.eqb (flat_map pt_relocs ls) [])) as [v|] eqn:A; [|reflexivity]. exfalso.
  apply (table_some Nat.eqb Nat.eqb_eq) in A. apply last_in, (parts_in pt_relocs) in A as (sec & l & L & X).
  assert (forall l, pt_relocs l = relocs_of sec -> In (i, v) (pt_relocs l) -> os_index sec = i) as G.
  { intros l' Q Y. rewrite Q in Y. unfold relocs_of in Y. destruct (os_relocs sec); [destruct Y|]. destruct Y as [Y|[]]. congruence. }
  destruct (kind_cases sec) as [K'|[K'|(k & K' & N1 & N2)]].
  - destruct (program_part e t R sec l (proj1 L) K' (proj2 L)) as (k & r & _ & _ & _ & _ & _ & _ & E1). exact (N sec (proj1 L) (or_intror K') (G l E1 X)).
  - destruct (text_part e t R sec l (proj1 L) K' (proj2 L)) as (r & _ & _ & _ & _ & _ & E1). exact (N sec (proj1 L) (or_introl K') (G l E1 X)).
  - destruct (other_part e t sec l k K' N1 N2 (proj2 L)) as (_ & _ & E1). rewrite E1 in X. destruct X.
Qed.
End Whole.
