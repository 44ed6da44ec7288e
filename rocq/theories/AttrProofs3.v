(** What attributes mean, from the parsed arguments to the emitted program. *)
From Coq Require Import String Permutation.
From Verif Require Import Base Text TextParse ObjModel MacroModel ObjProofs6 AttrModel AttrSpec AttrProofs AttrProofs2.
Local Open Scope Z_scope.

Lemma index_nth w l : forall i, index w l = Some i -> nth_error l i = Some w.
Proof.
  induction l as [|x l IH]; intros i H; [discriminate H|]. cbn [index] in H. destruct (str_eqb w x) eqn:E.
  - apply some_inj in H. subst. cbn. apply str_eqb_eq in E. now subst.
  - destruct (index w l) as [j|]; [|discriminate H]. apply some_inj in H. subst. exact (IH j eq_refl).
Qed.

Ltac pick := repeat first [left; reflexivity | right].

Lemma attach_word names mk t name r : attach_type names mk t (ItFn name) = Ok r ->
  exists w i, t = [TIdent w] /\ nth_error names i = Some w /\ r = (name, mk (Z.of_nat i)).
Proof.
  unfold attach_type. destruct t as [|x t]; [discriminate|]. cbn [item_fn bind]. unfold one_ident.
  destruct x as [w| | | |]; try discriminate. destruct t; [|discriminate]. cbn [bind].
  destruct (index w names) as [i|] eqn:E; [|discriminate]. intros H. apply ok_inj in H. exists w, i. repeat split; [now apply index_nth|now symmetry].
Qed.

Lemma no_argument_ok m t name r : no_argument m t (ItFn name) = Ok r -> t = [] /\ r = (name, m).
Proof. unfold no_argument. destruct t; [|discriminate]. cbn [item_fn bind]. intros H. apply ok_inj in H. now split. Qed.

Ltac plain_case H := apply no_argument_ok in H as [-> ->]; split; [reflexivity|]; split; [exact I|]; apply m_plain; cbn [plain_attrs In]; pick.

Lemma tail_after o : tail_of o = after (txt "/") o.
Proof. destruct o; reflexivity. Qed.

Lemma only_first_last a b l : only [a; b] [] l -> gives l a None -> only [b] [] l.
Proof. apply only_drop. Qed.

Lemma parse_means a t name x m : parse_program a t (ItFn name) = Ok (x, m) -> x = name /\ macro_ok m /\ means a t (macro_section m) (macro_kind m).
Proof.
  intros H. destruct a; try (cbn [parse_program] in H; discriminate H); try (cbn [parse_program] in H; apply no_argument_ok in H as [-> H]; apply pair_equal_spec in H as [-> ->];
    split; [reflexivity|]; split; [exact I|]; apply m_plain; cbn [plain_attrs In]; pick; fail).
  - apply kprobe_iff in H as (l & f & o & n & R & O & G & GO & N & E). apply pair_equal_spec in E as [-> ->].
    split; [reflexivity|]. split; [exact I|]. cbn [macro_section macro_kind]. destruct f as [f|].
    + replace ((if ret then txt "kretprobe" else txt "kprobe") ++ slash f ++ plus_offset n)
        with ((if ret then txt "kretprobe/" else txt "kprobe/") ++ f ++ after (txt "+") (option_map dec n)).
      * exact (m_kprobe_at ret t l f o n R O G GO N).
      * destruct ret, n; reflexivity.
    + rewrite app_nil_r. exact (m_kprobe ret t l o n R (only_drop _ _ _ _ O G) GO N).
  - apply uprobe_iff in H as (l & p & f & o & n & s & mu & R & O & GP & GF & GO & N & FS & FM & E). destruct p as [p|].
    + destruct f as [f|]; [|contradiction]. apply pair_equal_spec in E as [-> ->]. split; [reflexivity|]. split; [exact I|].
      replace (macro_section (MUProbe ret mu s (Some (p, f)) n))
        with ((if ret then txt "uretprobe" else txt "uprobe") ++ when mu (txt ".multi") ++ when s (txt ".s") ++
              txt "/" ++ strip_slash p ++ txt ":" ++ f ++ after (txt "+") (option_map dec n)) by (destruct ret, n; reflexivity).
      cbn [macro_kind]. refine (m_uprobe_at ret t l p (strip_slash p) f o n s mu R O GP _ GF GO N FS FM).
      destruct p as [|c p]; [right; split; [reflexivity|discriminate]|]. destruct (Z.eq_dec c 47) as [->|NE]; [left; reflexivity|].
      right. split; [|intros q E; apply NE; now inversion E]. cbn [strip_slash]. 
      destruct c as [|c|c]; try reflexivity. repeat (destruct c as [c|c|]; try reflexivity). now exfalso.
    + assert (E' : (x, m) = (name, MUProbe ret mu s None n)) by (destruct f; exact E). clear E. apply pair_equal_spec in E' as [-> ->].
      split; [reflexivity|]. split; [exact I|].
      replace (macro_section (MUProbe ret mu s None n)) with ((if ret then txt "uretprobe" else txt "uprobe") ++ when mu (txt ".multi") ++ when s (txt ".s"))
        by (cbn [macro_section]; now rewrite app_nil_r).
      cbn [macro_kind]. exact (m_uprobe ret t l o n s mu R (only_drop _ _ _ _ O GP) GO N FS FM).
  - apply tracepoint_iff in H as (l & n & c & R & O & G & C & E). destruct n as [n|], c as [c|]; try contradiction; apply pair_equal_spec in E as [-> ->];
      (split; [reflexivity|]; split; [exact I|]); cbn [macro_section macro_kind].
    + exact (m_tracepoint_name t l n c R O G C).
    + apply (m_tracepoint t l R). apply only_nil. exact (only_drop _ _ _ _ (only_drop _ _ _ _ O G) C).
  - apply one_string_iff in H as (l & v & R & O & G & E). apply pair_equal_spec in E as [-> ->]. split; [reflexivity|]. split; [exact I|].
    cbn [macro_section macro_kind]. rewrite tail_after. refine (m_string _ t l _ _ _ v _ R O G). cbn [string_attrs In]. pick.
  - apply one_string_iff in H as (l & v & R & O & G & E). apply pair_equal_spec in E as [-> ->]. split; [reflexivity|]. split; [exact I|].
    cbn [macro_section macro_kind]. rewrite tail_after. refine (m_string _ t l _ _ _ v _ R O G). cbn [string_attrs In]. pick.
  - apply string_sleepable_iff in H as (l & v & b & R & O & G & F & E). apply pair_equal_spec in E as [-> ->]. split; [reflexivity|]. split; [exact I|].
    cbn [macro_section macro_kind]. rewrite tail_after. replace (if b then txt "fentry.s" else txt "fentry") with (txt "fentry" ++ when b (txt ".s")) by (destruct b; reflexivity).
    rewrite <- app_assoc. refine (m_sleepable _ t l _ _ PFEntry v b _ R O G F). cbn [sleepable_attrs In]. pick.
  - apply string_sleepable_iff in H as (l & v & b & R & O & G & F & E). apply pair_equal_spec in E as [-> ->]. split; [reflexivity|]. split; [exact I|].
    cbn [macro_section macro_kind]. rewrite tail_after. replace (if b then txt "fexit.s" else txt "fexit") with (txt "fexit" ++ when b (txt ".s")) by (destruct b; reflexivity).
    rewrite <- app_assoc. refine (m_sleepable _ t l _ _ PFExit v b _ R O G F). cbn [sleepable_attrs In]. pick.
  - apply string_sleepable_iff in H as (l & v & b & R & O & G & F & E). apply pair_equal_spec in E as [-> ->]. split; [reflexivity|]. split; [exact I|].
    cbn [macro_section macro_kind]. rewrite tail_after. replace (if b then txt "lsm.s" else txt "lsm") with (txt "lsm" ++ when b (txt ".s")) by (destruct b; reflexivity).
    rewrite <- app_assoc. refine (m_sleepable _ t l _ _ PLsm v b _ R O G F). cbn [sleepable_attrs In]. pick.
  - apply one_string_iff in H as (l & v & R & O & G & E). apply pair_equal_spec in E as [-> ->]. split; [reflexivity|]. split; [exact I|].
    cbn [macro_section macro_kind]. rewrite tail_after. refine (m_string _ t l _ _ _ v _ R O G). cbn [string_attrs In]. pick.
  - apply xdp_iff in H as (l & b & v & mp & R & O & F & G & M & E). apply pair_equal_spec in E as [-> ->]. split; [reflexivity|]. split; [exact I|].
    cbn [macro_section macro_kind]. replace (if b then txt "xdp.frags" else txt "xdp") with (txt "xdp" ++ when b (txt ".frags")) by (destruct b; reflexivity).
    destruct v as [v|].
    + destruct M as [[-> ->] | [-> ->]]; rewrite <- app_assoc.
      * refine (m_xdp_map t l b _ 1 R O F G _). now left.
      * refine (m_xdp_map t l b _ 2 R O F G _). right. now left.
    + subst mp. rewrite app_nil_r. exact (m_xdp t l b R (only_drop _ _ _ _ O G) F).
  - cbn [parse_program item_fn bind] in H. destruct t as [|y t].
    + apply ok_inj, pair_equal_spec in H as [<- <-]. split; [reflexivity|]. split; [exact I|]. apply m_plain. cbn [plain_attrs In]. pick.
    + unfold one_ident in H. destruct y as [w| | | |]; try discriminate H. destruct t; [|discriminate H]. cbn [bind] in H.
      destruct (str_eqb w (txt "ingress")) eqn:E1; [|destruct (str_eqb w (txt "egress")) eqn:E2; [|discriminate H]];
        apply ok_inj, pair_equal_spec in H as [<- <-]; (split; [reflexivity|]; split; [exact I|]).
      * apply str_eqb_eq in E1. subst w. apply m_word. cbn [word_attrs In]. pick.
      * apply str_eqb_eq in E2. subst w. apply m_word. cbn [word_attrs In]. pick.
  - apply attach_word in H as (w & i & -> & N & E). apply pair_equal_spec in E as [-> ->]. split; [reflexivity|].
    do 4 (destruct i as [|i]; [cbn in N; apply some_inj in N; subst w; split; [cbn; lia|apply m_word; cbn [word_attrs In]; pick]|]).
    destruct i; discriminate N.
  - apply attach_word in H as (w & i & -> & N & E). apply pair_equal_spec in E as [-> ->]. split; [reflexivity|].
    do 12 (destruct i as [|i]; [cbn in N; apply some_inj in N; subst w; split; [cbn; lia|apply m_word; cbn [word_attrs In]; pick]|]).
    destruct i; discriminate N.
  - apply attach_word in H as (w & i & -> & N & E). apply pair_equal_spec in E as [-> ->]. split; [reflexivity|].
    do 2 (destruct i as [|i]; [cbn in N; apply some_inj in N; subst w; split; [exact I|apply m_word; cbn [word_attrs In]; pick]|]).
    destruct i; discriminate N.
  - cbn [parse_program item_fn bind] in H. destruct t as [|y t].
    + cbn [bind] in H. apply ok_inj, pair_equal_spec in H as [<- <-]. split; [reflexivity|]. split; [exact I|]. apply m_plain. cbn [plain_attrs In]. pick.
    + unfold one_ident in H. destruct y as [w| | | |]; try discriminate H. destruct t; [|discriminate H]. cbn [bind] in H.
      destruct (str_eqb w (txt "migrate")) eqn:E1; cbn [bind] in H; [|discriminate H].
      apply ok_inj, pair_equal_spec in H as [<- <-]. split; [reflexivity|]. split; [exact I|].
      apply str_eqb_eq in E1. subst w. apply m_word. cbn [word_attrs In]. pick.
  - cbn [parse_program] in H. apply no_argument_ok in H as [-> H]. apply pair_equal_spec in H as [-> ->].
    split; [reflexivity|]. split; [exact I|]. apply m_plain. cbn [plain_attrs In]. destruct verdict; pick.
Qed.

(** And back. *)
Ltac split_in I := repeat (destruct I as [I|I]; [|]); try contradiction.
Lemma means_parse a t s k name : means a t s k -> exists m, parse_program a t (ItFn name) = Ok (name, m) /\ macro_section m = s /\ macro_kind m = k.
Proof.
  intros H. destruct H as [a s k IN|a w s k IN|a t l n s k v IN R O G|a t l n s k v b IN R O G F|t l R E|t l n c R O G C|t l b R O F
    |t l b v i R O F G IN|ret t l o n R O GO N|ret t l f o n R O G GO N|ret t l o n s m R O GO N FS FM|ret t l p p' f o n s m R O GP SL GF GO N FS FM].
  - cbn [plain_attrs In] in IN. repeat (destruct IN as [IN|IN]; [apply pair_equal_spec in IN as [IN <-]; apply pair_equal_spec in IN as [<- <-];
      eexists; split; [reflexivity|split; reflexivity]|]). contradiction.
  - cbn [word_attrs In] in IN. repeat (destruct IN as [IN|IN]; [apply pair_equal_spec in IN as [IN <-]; apply pair_equal_spec in IN as [IN <-]; apply pair_equal_spec in IN as [<- <-];
      eexists; split; [reflexivity|split; reflexivity]|]). contradiction.
  - cbn [string_attrs In] in IN. rewrite <- tail_after. repeat (destruct IN as [IN|IN];
      [apply pair_equal_spec in IN as [IN <-]; apply pair_equal_spec in IN as [IN <-]; apply pair_equal_spec in IN as [<- <-];
       eexists; split; [apply one_string_iff; exists l, v; auto|split; reflexivity]|]). contradiction.
  - cbn [sleepable_attrs In] in IN. repeat (destruct IN as [IN|IN];
      [apply pair_equal_spec in IN as [IN <-]; apply pair_equal_spec in IN as [IN <-]; apply pair_equal_spec in IN as [<- <-];
       eexists; split; [apply string_sleepable_iff; exists l, v, b; auto|split; [cbn [macro_section]; rewrite tail_after; destruct b; reflexivity|reflexivity]]|]). contradiction.
  - eexists. split; [apply tracepoint_iff|].
    + exists l, None, None. subst l. split; [exact R|]. split; [split; [constructor|split; intros; contradiction]|]. split; [intros v []|]. split; [intros v []|]. reflexivity.
    + split; reflexivity.
  - eexists. split; [apply tracepoint_iff; exists l, (Some n), (Some c); auto 8|]. split; reflexivity.
  - eexists. split.
    + apply xdp_iff. exists l, b, None, None. split; [exact R|]. split; [exact (only_more _ _ _ _ O)|]. split; [exact F|]. split; [|split; reflexivity].
      intros v I. destruct O as (_ & B & _). exact (B _ _ I).
    + split; [destruct b; reflexivity|reflexivity].
  - cbn [In] in IN. destruct IN as [IN|[IN|[]]]; apply pair_equal_spec in IN as [<- <-].
    + eexists. split; [apply xdp_iff; exists l, b, (Some (txt "cpumap")), (Some false); auto 10|]. split; [destruct b; reflexivity|reflexivity].
    + eexists. split; [apply xdp_iff; exists l, b, (Some (txt "devmap")), (Some true); auto 10|]. split; [destruct b; reflexivity|reflexivity].
  - eexists. split.
    + apply kprobe_iff. exists l, None, o, n. split; [exact R|]. split; [exact (only_more _ _ _ _ O)|]. split; [|auto].
      intros v I. destruct O as (_ & B & _). specialize (B _ _ I). revert B. notin.
    + split; [cbn [macro_section]; now rewrite app_nil_r|reflexivity].
  - eexists. split; [apply kprobe_iff; exists l, (Some f), o, n; auto 10|]. split; [destruct ret, n; reflexivity|reflexivity].
  - assert (NP : gives l (txt "path") None).
    { intros v I. destruct O as (_ & B & _). specialize (B _ _ I). revert B. notin. }
    assert (EF : exists f, gives l (txt "function") f).
    { destruct (existsb (fun x => match x with AString q _ => str_eqb q (txt "function") | _ => false end) l) eqn:X.
      - apply existsb_exists in X as ([q v|q] & I & Q); [|discriminate Q]. apply str_eqb_eq in Q. subst q. now exists (Some v).
      - exists None. intros v I. assert (Y : existsb (fun x => match x with AString q _ => str_eqb q (txt "function") | _ => false end) l = true).
        { apply existsb_exists. exists (AString (txt "function") v). split; [exact I|apply str_eqb_refl]. }
        congruence. }
    destruct EF as [f GF]. eexists. split.
    + apply uprobe_iff. exists l, None, f, o, n, s, m. split; [exact R|]. split; [exact (only_more _ _ _ _ O)|]. repeat (split; [assumption|]). reflexivity.
    + split; [cbn [macro_section]; now rewrite app_nil_r|reflexivity].
  - eexists. split.
    + apply uprobe_iff. exists l, (Some p), (Some f), o, n, s, m. split; [exact R|]. split; [exact O|]. repeat (split; [assumption|]). reflexivity.
    + assert (E : strip_slash p = p').
      { destruct SL as [-> | [-> SL]]; [reflexivity|]. destruct p' as [|c q]; [reflexivity|]. cbn [strip_slash].
        assert (NE : c <> 47) by (intros ->; exact (SL q eq_refl)).
        destruct c as [|c|c]; try reflexivity. repeat (destruct c as [c|c|]; try reflexivity). now exfalso. }
      split; [|reflexivity]. cbn [macro_section]. rewrite E. destruct n; reflexivity.
Qed.

(** The emitted program. *)
Lemma expand_suits a t name x m : parse_program a t (ItFn name) = Ok (x, m) -> suits a name (macro_section m) (macro_kind m) (expand_program name m).
Proof.
  intros P. assert (T : o_type (expand_program name m) = result_type a).
  { unfold expand_program. destruct a; try discriminate P.
    - apply kprobe_iff in P as (l & f & o & n & _ & _ & _ & _ & _ & E). apply pair_equal_spec in E as [_ ->]. reflexivity.
    - apply uprobe_iff in P as (l & p & f & o & n & s & mu & _ & _ & _ & _ & _ & _ & _ & _ & E).
      destruct p, f; try contradiction; apply pair_equal_spec in E as [_ ->]; reflexivity.
    - apply tracepoint_iff in P as (l & n & c & _ & _ & _ & _ & E). destruct n, c; try contradiction; apply pair_equal_spec in E as [_ ->]; reflexivity.
    - apply one_string_iff in P as (l & v & _ & _ & _ & E). apply pair_equal_spec in E as [_ ->]. reflexivity.
    - apply one_string_iff in P as (l & v & _ & _ & _ & E). apply pair_equal_spec in E as [_ ->]. reflexivity.
    - apply string_sleepable_iff in P as (l & v & b & _ & _ & _ & _ & E). apply pair_equal_spec in E as [_ ->]. reflexivity.
    - apply string_sleepable_iff in P as (l & v & b & _ & _ & _ & _ & E). apply pair_equal_spec in E as [_ ->]. reflexivity.
    - apply string_sleepable_iff in P as (l & v & b & _ & _ & _ & _ & E). apply pair_equal_spec in E as [_ ->]. reflexivity.
    - apply one_string_iff in P as (l & v & _ & _ & _ & E). apply pair_equal_spec in E as [_ ->]. reflexivity.
    - apply xdp_iff in P as (l & b & v & mp & _ & _ & _ & _ & _ & E). apply pair_equal_spec in E as [_ ->]. reflexivity.
    - cbn [parse_program item_fn bind] in P. destruct t as [|y t]; [apply ok_inj, pair_equal_spec in P as [_ <-]; reflexivity|].
      destruct (one_ident (y :: t)) as [w|]; [|discriminate P]. cbn [bind] in P.
      destruct (str_eqb w (txt "ingress")); [|destruct (str_eqb w (txt "egress")); [|discriminate P]]; apply ok_inj, pair_equal_spec in P as [_ <-]; reflexivity.
    - apply attach_word in P as (w & i & _ & _ & E). apply pair_equal_spec in E as [_ ->]. reflexivity.
    - apply attach_word in P as (w & i & _ & _ & E). apply pair_equal_spec in E as [_ ->]. reflexivity.
    - apply attach_word in P as (w & i & _ & _ & E). apply pair_equal_spec in E as [_ ->]. reflexivity.
    - apply no_argument_ok in P as [_ E]. apply pair_equal_spec in E as [_ ->]. reflexivity.
    - apply no_argument_ok in P as [_ E]. apply pair_equal_spec in E as [_ ->]. reflexivity.
    - apply no_argument_ok in P as [_ E]. apply pair_equal_spec in E as [_ ->]. reflexivity.
    - apply no_argument_ok in P as [_ E]. apply pair_equal_spec in E as [_ ->]. reflexivity.
    - apply no_argument_ok in P as [_ E]. apply pair_equal_spec in E as [_ ->]. reflexivity.
    - apply no_argument_ok in P as [_ E]. apply pair_equal_spec in E as [_ ->]. reflexivity.
    - cbn [parse_program item_fn bind] in P. match type of P with bind ?c _ = _ => destruct c as [mg|]; cbn [bind] in P; [|discriminate P] end.
      apply ok_inj, pair_equal_spec in P as [_ <-]. reflexivity.
    - apply no_argument_ok in P as [_ E]. apply pair_equal_spec in E as [_ ->]. reflexivity.
    - apply no_argument_ok in P as [_ E]. apply pair_equal_spec in E as [_ ->]. reflexivity.
    - apply no_argument_ok in P as [_ E]. apply pair_equal_spec in E as [_ ->]. reflexivity.
    - apply no_argument_ok in P as [_ E]. apply pair_equal_spec in E as [_ ->]. reflexivity. }
  unfold suits. rewrite T. clear P T. unfold expand_program. pose proof (macro_context m) as X.
  destruct m; try destruct ret; cbn [shape macro_kind kernel_side fst snd o_name o_section o_pointer o_context o_type program o_returns]; try rewrite X;
    try destruct at_; unfold program; cbn [negb o_context o_returns]; repeat (split; [reflexivity|]); reflexivity.
Qed.

Lemma expand_parse a t it o : expand a t it = Ok (OProgram o) <-> exists name m, it = ItFn name /\ parse_program a t it = Ok (name, m) /\ o = expand_program name m.
Proof.
  split.
  - intros H. assert (H' : exists x, parse_program a t it = Ok x /\ o = expand_program (fst x) (snd x)).
    { destruct a; cbn [expand] in H; try (destruct (parse_map t it); cbn [bind] in H; discriminate H);
        match type of H with bind ?x _ = _ => destruct x as [y|e] eqn:E end; cbn [bind] in H; try discriminate H; exists y; (split; [reflexivity|]);
        apply ok_inj in H; inversion H; reflexivity. }
    clear H. destruct H' as ([x m] & P & ->).
    assert (IT : exists name, it = ItFn name).
    { destruct it as [name|name|]; [now exists name| |]; exfalso; destruct a; cbn in P; try discriminate P;
        unfold one_string, string_sleepable, no_argument, attach_type in P; cbn [item_fn bind] in P; try discriminate P; destruct t; cbn in P; try discriminate P;
        match type of P with bind ?x _ = _ => destruct x; cbn in P; discriminate P end. }
    destruct IT as [name ->]. destruct (parse_means a t name x m P) as (-> & K & M). exists name, m. auto.
  - intros (name & m & -> & P & ->). assert (N : a <> AtMap /\ a <> AtBtfMap) by (split; intros ->; discriminate P).
    destruct a; cbn [expand]; try (exfalso; now apply (proj1 N)); try (exfalso; now apply (proj2 N)); rewrite P; reflexivity.
Qed.

Lemma expand_means a t it o : expand a t it = Ok (OProgram o) -> exists name s k, it = ItFn name /\ means a t s k /\ suits a name s k o.
Proof.
  intros H. apply expand_parse in H as (name & m & -> & P & ->). destruct (parse_means a t name name m P) as (_ & K & M).
  exists name, (macro_section m), (macro_kind m). split; [reflexivity|]. split; [exact M|]. exact (expand_suits _ _ _ _ _ P).
Qed.

Lemma means_expand a t s k name : means a t s k -> exists o, expand a t (ItFn name) = Ok (OProgram o) /\ suits a name s k o.
Proof.
  intros M. destruct (means_parse a t s k name M) as (m & P & <- & <-). exists (expand_program name m). split; [|exact (expand_suits _ _ _ _ _ P)].
  apply expand_parse. exists name, m. auto.
Qed.

Lemma means_ok a t s k : means a t s k -> forall size, 0 < size -> section_kind s true size = KProgram /\ parse_psec s = Ok k.
Proof.
  intros M size B. destruct (means_parse a t s k [] M) as (m & P & <- & <-). destruct (parse_means a t [] [] m P) as (_ & K & _).
  split; [exact (macro_program m size K B)|exact (macro_parse m K)].
Qed.

(** The order of arguments does not matter. *)
Lemma means_order a t t' l l' s k : takes_arguments a = true -> reads t l -> reads t' l' -> Permutation l l' -> means a t s k -> means a t' s k.
Proof.
  intros W R R' P M.
  assert (U : forall l0, reads t l0 -> l0 = l) by (intros l0 R0; apply parse_iff in R0, R; congruence).
  destruct M as [a s k IN|a w s k IN|a t l0 n s k v IN R0 O G|a t l0 n s k v b IN R0 O G F|t l0 R0 E|t l0 n c R0 O G C|t l0 b R0 O F
    |t l0 b v i R0 O F G IN|ret t l0 o n R0 O GO N|ret t l0 f o n R0 O G GO N|ret t l0 o n s m R0 O GO N FS FM|ret t l0 p p' f o n s m R0 O GP SL GF GO N FS FM].
  - exfalso. cbn [plain_attrs In] in IN.
    repeat (destruct IN as [IN|IN]; [apply pair_equal_spec in IN as [IN _]; apply pair_equal_spec in IN as [<- _]; discriminate W|]). exact IN.
  - exfalso. cbn [word_attrs In] in IN.
    repeat (destruct IN as [IN|IN]; [apply pair_equal_spec in IN as [IN _]; apply pair_equal_spec in IN as [IN _]; apply pair_equal_spec in IN as [<- _]; discriminate W|]). exact IN.
  - rewrite (U _ R0) in *. refine (m_string _ _ l' _ _ _ v IN R' _ _); eauto using only_perm, gives_perm, flag_perm.
  - rewrite (U _ R0) in *. refine (m_sleepable _ _ l' _ _ _ v b IN R' _ _ _); eauto using only_perm, gives_perm, flag_perm.
  - apply (m_tracepoint t' l' R'). rewrite <- (U _ R0), E in P. now apply Permutation_nil.
  - rewrite (U _ R0) in *. refine (m_tracepoint_name _ l' n c R' _ _ _); eauto using only_perm, gives_perm, flag_perm.
  - rewrite (U _ R0) in *. refine (m_xdp _ l' b R' _ _); eauto using only_perm, gives_perm, flag_perm.
  - rewrite (U _ R0) in *. refine (m_xdp_map _ l' b v i R' _ _ _ IN); eauto using only_perm, gives_perm, flag_perm.
  - rewrite (U _ R0) in *. refine (m_kprobe ret _ l' o n R' _ _ N); eauto using only_perm, gives_perm, flag_perm.
  - rewrite (U _ R0) in *. refine (m_kprobe_at ret _ l' f o n R' _ _ _ N); eauto using only_perm, gives_perm, flag_perm.
  - rewrite (U _ R0) in *. refine (m_uprobe ret _ l' o n s m R' _ _ N _ _); eauto using only_perm, gives_perm, flag_perm.
  - rewrite (U _ R0) in *. refine (m_uprobe_at ret _ l' p p' f o n s m R' _ _ SL _ _ N _ _); eauto using only_perm, gives_perm, flag_perm.
Qed.

Lemma suits_same a name s k o o' : suits a name s k o -> suits a name s k o' -> o = o'.
Proof.
  intros (A & B & C & D & E & F) (A' & B' & C' & D' & E' & F'). destruct o as [n sc p c ty r], o' as [n' sc' p' c' ty' r']. cbn in *.
  unfold program in F, F'. cbn in F, F'. subst. f_equal. specialize (F (fun _ _ => 1) 0). specialize (F' (fun _ _ => 1) 0). cbn in F, F'.
  destruct r, r'; congruence.
Qed.

Lemma map_expand a t it s n : expand a t it = Ok (OMap s n) <->
  exists ident l v, ((a = AtMap /\ s = txt "maps") \/ (a = AtBtfMap /\ s = txt ".maps")) /\ it = ItStatic ident /\ reads t l /\ only [txt "name"] [] l /\ gives l (txt "name") v /\
    n = match v with Some n => n | None => ident end.
Proof.
  split.
  - intros H. assert (C : ((a = AtMap /\ s = txt "maps") \/ (a = AtBtfMap /\ s = txt ".maps")) /\ parse_map t it = Ok n).
    { destruct a; cbn [expand] in H; try (match type of H with bind ?x _ = _ => destruct x; cbn [bind] in H; discriminate H end);
        (destruct (parse_map t it) as [y|e]; cbn [bind] in H; [|discriminate H]; apply ok_inj in H; inversion H; subst; split; [auto|reflexivity]). }
    destruct C as [C P]. destruct it as [i|i|]; try discriminate P. apply map_iff in P as (l & v & R & O & G & E). exists i, l, v. auto 10.
  - intros (ident & l & v & C & -> & R & O & G & ->).
    assert (P : parse_map t (ItStatic ident) = Ok match v with Some n => n | None => ident end) by (apply map_iff; exists l, v; auto).
    destruct C as [[-> ->] | [-> ->]]; cbn [expand]; rewrite P; reflexivity.
Qed.

Lemma expand_order a t t' l l' it out : takes_arguments a = true -> reads t l -> reads t' l' -> Permutation l l' -> expand a t it = Ok out -> expand a t' it = Ok out.
Proof.
  intros W R R' P H. destruct out as [o|s n].
  - destruct (expand_means _ _ _ _ H) as (name & s & k & -> & M & S).
    destruct (means_expand a t' s k name (means_order _ _ _ _ _ _ _ W R R' P M)) as (o' & H' & S'). rewrite H'. f_equal. f_equal.
    exact (suits_same _ _ _ _ _ _ S' S).
  - apply map_expand in H as (ident & l0 & v & C & -> & R0 & O & G & E). apply map_expand. exists ident, l', v.
    assert (l0 = l) as -> by (apply parse_iff in R0, R; congruence). repeat (split; [assumption|]). eauto 10 using only_perm, gives_perm.
Qed.

Lemma program_iff a t it o : expand a t it = Ok (OProgram o) <-> exists name s k, it = ItFn name /\ means a t s k /\ suits a name s k o.
Proof.
  split; [apply expand_means|]. intros (name & s & k & -> & M & S). destruct (means_expand a t s k name M) as (o' & H & S').
  rewrite H. f_equal. f_equal. exact (suits_same _ _ _ _ _ _ S' S).
Qed.

Lemma twice a t l it : takes_arguments a = true -> reads t l -> ~ NoDup (map key l) -> exists e, expand a t it = Err e.
Proof.
  intros W R D. destruct (expand a t it) as [[o|s n]|e] eqn:E; [| |now exists e]; exfalso; apply D.
  - apply program_iff in E as (name & s & k & -> & M & _).
    assert (U : forall l0, reads t l0 -> l0 = l) by (intros l0 R0; apply parse_iff in R0, R; congruence).
    inversion M; subst; repeat match goal with H : reads t ?x |- _ => lazymatch x with l => fail | _ => pose proof (U _ H); subst x end end;
      try match goal with H : only _ _ l |- _ => exact (proj1 H) end.
    + assert (l = []) as -> by (symmetry; exact (U [] r_none)). constructor.
    + exfalso. match goal with IN : In _ word_attrs |- _ => cbn [word_attrs In] in IN;
        repeat (destruct IN as [IN|IN]; [apply pair_equal_spec in IN as [IN _]; apply pair_equal_spec in IN as [IN _]; apply pair_equal_spec in IN as [<- _]; discriminate W|]); exact IN end.
    + match goal with H : reads t [] |- _ => rewrite <- (U _ H) end. constructor.
  - apply map_expand in E as (ident & l0 & v & _ & _ & R0 & O & _). assert (l0 = l) as -> by (apply parse_iff in R0, R; congruence). exact (proj1 O).
Qed.
