From Coq Require Import String.
From Verif Require Import Base Text TextSplit LogModel ToolModel ToolSpec.
Local Open Scope Z_scope.

(** * Splitting *)

Lemma splits_fun l a b a' b' : splits l a b -> splits l a' b' -> a = a' /\ b = b'.
Proof.
  intros [N H] [N' H'].
  assert (forall (x : str) u v u' v', ~ In x u -> ~ In x u' -> u ++ x :: v = u' ++ x :: v' -> u = u' /\ v = v') as G.
  { clear. intros x u. induction u as [|y u IH]; intros v [|y' u'] v' N N' E; cbn [app] in E.
    - injection E as E. now subst.
    - injection E as E1 E2. destruct N'. now left.
    - injection E as E1 E2. destruct N. now left.
    - injection E as E1 E2. destruct (IH v u' v') as [A B]; [intros I; apply N; now right|intros I; apply N'; now right|exact E2|]. subst. split; reflexivity. }
  destruct H as [H|[H B]], H' as [H'|[H' B']].
  - apply (G (txt "--")); congruence.
  - subst. destruct N'. apply in_or_app. right. now left.
  - subst. destruct N. apply in_or_app. right. now left.
  - subst. split; reflexivity.
Qed.

Lemma split2_splits l : splits l (fst (split2 l)) (match snd (split2 l) with Some e => e | None => [] end).
Proof.
  induction l as [|x l [N H]]; [split; [intros []|right; split; reflexivity]|]. cbn [split2].
  destruct (str_eqb x (txt "--")) eqn:E.
  - apply str_eqb_eq in E. subst x. split; [intros []|left; reflexivity].
  - apply str_eqb_neq in E. destruct (split2 l) as [a b]. cbn [fst snd] in *. split; [intros [X|X]; [now subst|contradiction]|].
    destruct H as [H|[H B]]; [left; cbn [app]; now f_equal|right; split; [now f_equal|exact B]].
Qed.

Lemma combine_splits s1 s2 a1 b1 a2 b2 : splits s1 a1 b1 -> splits s2 a2 b2 -> splits (combine_flags s1 s2) (a1 ++ a2) (b1 ++ b2).
Proof.
  intros H1 H2. pose proof (split2_splits s1) as P1. pose proof (split2_splits s2) as P2.
  destruct (splits_fun _ _ _ _ _ H1 P1) as [E1 F1]. destruct (splits_fun _ _ _ _ _ H2 P2) as [E2 F2]. clear P1 P2.
  unfold combine_flags. destruct (split2 s1) as [f1 e1], (split2 s2) as [f2 e2]. cbn [fst snd] in *. subst a1 a2. rewrite <- F1, <- F2.
  split.
  - intros I. apply in_app_or in I as [I|I]; [now destruct H1|now destruct H2].
  - destruct (b1 ++ b2) as [|x r]; [right; rewrite app_nil_r; split; reflexivity|left; now rewrite <- app_assoc].
Qed.

(** * The prefix *)

Lemma position_split x l i : position x l = Some i -> exists a b, l = a ++ x :: b /\ length a = i /\ ~ In x a.
Proof.
  revert i. induction l as [|y l IH]; intros i H; cbn [position] in H; [discriminate H|].
  destruct (str_eqb y x) eqn:E.
  - apply some_inj in H. subst i. apply str_eqb_eq in E. subst y. exists [], l. split; [reflexivity|]. split; [reflexivity|intros []].
  - destruct (position x l) as [n|]; [|discriminate H]. apply some_inj in H. subst i. destruct (IH n eq_refl) as (a & b & -> & L & N). exists (y :: a), b.
    apply str_eqb_neq in E. split; [reflexivity|]. split; [cbn; now rewrite L|intros [X|X]; contradiction].
Qed.
Lemma position_first x a b : ~ In x a -> position x (a ++ x :: b) = Some (length a).
Proof.
  induction a as [|y a IH]; intros N; cbn [app position length]; [now rewrite str_eqb_refl|].
  rewrite (proj2 (str_eqb_neq y x)) by (intros ->; apply N; now left). rewrite IH by (intros I; apply N; now right). reflexivity.
Qed.
Lemma position_none x l : ~ In x l -> position x l = None.
Proof.
  induction l as [|y l IH]; intros N; [reflexivity|]. cbn [position]. rewrite (proj2 (str_eqb_neq y x)) by (intros ->; apply N; now left).
  rewrite IH by (intros I; apply N; now right). reflexivity.
Qed.

Lemma extract_some a v b : ~ In (txt "--ctypes-prefix") a -> extract_ctypes_prefix (a ++ txt "--ctypes-prefix" :: v :: b) = (a ++ b, Some v).
Proof.
  intros N. unfold extract_ctypes_prefix. rewrite (position_first _ _ _ N).
  assert ((length a <? length (a ++ txt "--ctypes-prefix" :: v :: b) - 1)%nat = true) as ->.
  { apply Nat.ltb_lt. rewrite app_length. cbn [length]. lia. }
  rewrite firstn_app_exact by reflexivity. f_equal.
  - f_equal. rewrite <- skipn_skipn'. rewrite skipn_app_exact by reflexivity. reflexivity.
  - rewrite nth_error_app2 by lia. replace (length a + 1 - length a)%nat with 1%nat by lia. reflexivity.
Qed.
Lemma extract_none l : (forall a v b, l <> a ++ txt "--ctypes-prefix" :: v :: b) -> extract_ctypes_prefix l = (l, None).
Proof.
  intros N. unfold extract_ctypes_prefix. destruct (position _ l) as [i|] eqn:P; [|reflexivity]. apply position_split in P as (a & b & -> & L & _).
  destruct b as [|v b]; [|now destruct (N a v b)].
  assert ((i <? length (a ++ [txt "--ctypes-prefix"]) - 1)%nat = false) as ->; [|reflexivity]. apply Nat.ltb_ge. rewrite app_length. cbn [length]. lia.
Qed.

(** * The command for bindgen *)

Definition builder_for (prefix : option str) (types : list str) : builder :=
  fold_left (fun b t => with_type t b) types (match prefix with Some p => with_prefix p bpf_builder | None => bpf_builder end).
Lemma builder_for_eq prefix types : builder_for prefix types =
  {| b_core := true; b_layout_tests := false; b_comments := false; b_enum_names := false; b_macro_fallback := true; b_ctypes := Some (match prefix with Some p => p | None => the_prefix end);
     b_clang := [txt "-Wno-unknown-attributes"]; b_enums := txt "moduleconsts"; b_types := types |}.
Proof.
  unfold builder_for.
  assert (forall b, fold_left (fun b t => with_type t b) types b = {| b_core := b_core b; b_layout_tests := b_layout_tests b; b_comments := b_comments b; b_enum_names := b_enum_names b; b_macro_fallback := b_macro_fallback b; b_ctypes := b_ctypes b;
     b_clang := b_clang b; b_enums := b_enums b; b_types := b_types b ++ types |}) as G.
  { induction types as [|t types IH]; intros b; cbn [fold_left].
    - rewrite app_nil_r. now destruct b.
    - rewrite IH. cbn [with_type b_core b_layout_tests b_comments b_enum_names b_macro_fallback b_ctypes b_clang b_enums b_types]. now rewrite <- app_assoc. }
  rewrite G. destruct prefix; reflexivity.
Qed.

Definition our_flags (p : str) (types : list str) : list str :=
  [txt "--default-enum-style"; txt "moduleconsts"; txt "--no-layout-tests"; txt "--no-doc-comments"; txt "--use-core"; txt "--no-prepend-enum-name"; txt "--ctypes-prefix"; p; txt "--clang-macro-fallback"] ++
  flat_map (fun t => [txt "--allowlist-type"; t]) types.
Lemma our_splits prefix types : let p := match prefix with Some p => p | None => the_prefix end in p <> txt "--" -> ~ In (txt "--") types ->
  splits (command_line_flags (builder_for prefix types)) (our_flags p types) [txt "-Wno-unknown-attributes"].
Proof.
  cbn zeta. intros NP NT. rewrite builder_for_eq. set (p := match prefix with Some p => p | None => the_prefix end) in *. unfold our_flags. split.
  - intros I. apply in_app_or in I as [I|I].
    + cbn [In] in I. repeat (destruct I as [I|I]; [first [discriminate I|contradiction]|]). exact I.
    + apply in_flat_map in I as (t & T & I). destruct I as [I|[I|[]]]; [discriminate I|]. subst t. contradiction.
  - left. unfold command_line_flags. cbn [b_core b_layout_tests b_comments b_enum_names b_macro_fallback b_ctypes b_clang b_enums b_types]. rewrite <- app_assoc. reflexivity.
Qed.

Lemma opts_app a b x y : opts a = Some x -> opts b = Some y -> opts (a ++ b) = Some (x ++ y).
Proof.
  enough (forall n a x, (length a <= n)%nat -> opts a = Some x -> opts b = Some y -> opts (a ++ b) = Some (x ++ y)) as G by (apply (G (length a)); lia).
  clear a x. induction n as [|n IH]; intros a x L HA HB; (destruct a as [|o a]; [injection HA as <-; exact HB|]); cbn [length] in L; [lia|].
  cbn [app opts] in *. destruct (with_value o).
  - destruct a as [|v a]; [discriminate HA|]. cbn [app]. cbn [length] in L. destruct (opts a) as [z|] eqn:E; [|discriminate HA]. cbn [option_map] in HA. injection HA as <-.
    rewrite (IH a z) by (first [lia|assumption]). reflexivity.
  - destruct (opts a) as [z|] eqn:E; [|discriminate HA]. cbn [option_map] in HA. injection HA as <-. rewrite (IH a z) by (first [lia|assumption]). reflexivity.
Qed.

Lemma our_opts p types : exists os, opts (our_flags p types) = Some os /\ (forall o, In o wanted_flags -> In o os) /\
  given (txt "--ctypes-prefix") os = [p] /\ given (txt "--allowlist-type") os = types.
Proof.
  assert (opts (flat_map (fun t => [txt "--allowlist-type"; t]) types) = Some (map (OValue (txt "--allowlist-type")) types)) as T.
  { induction types as [|t types IH]; [reflexivity|]. cbn [flat_map app map]. change (opts (txt "--allowlist-type" :: t :: flat_map (fun t => [txt "--allowlist-type"; t]) types)) with (option_map (cons (OValue (txt "--allowlist-type") t)) (opts (flat_map (fun t => [txt "--allowlist-type"; t]) types))). now rewrite IH. }
  eexists. split; [unfold our_flags; eapply opts_app; [reflexivity|exact T]|]. split; [|split].
  - intros o I. apply in_or_app. left. vm_compute in I. vm_compute. tauto.
  - unfold given. rewrite flat_map_app. transitivity ([p] ++ [] : list str); [|reflexivity]. f_equal. clear. induction types as [|t types IH]; [reflexivity|]. cbn [map flat_map]. rewrite IH. reflexivity.
  - unfold given. rewrite flat_map_app. transitivity ([] ++ types : list str); [|reflexivity]. f_equal. clear. induction types as [|t types IH]; [reflexivity|]. cbn [map flat_map]. rewrite IH. reflexivity.
Qed.

(** * Running *)

Lemma generate_runs M i types flags : forall r, generate M i types flags = r ->
  (exists h name, header_of M i h /\ utf8 h = true /\ (match i with Btf _ => name = txt "kernel_types.h" | Header p => p = name \/ exists d, p = d ++ 47 :: name end) /\ ~ In 47 name /\
    let '(fl, prefix) := extract_ctypes_prefix flags in
    match asked M name h (combine_flags (command_line_flags (builder_for prefix types)) fl) with
    | None => r = Err EBindgen
    | Some o => if o_success o then (if utf8 (o_stdout o) then r = Ok (o_stdout o) else r = Err EPanic) else r = Err (EBindgenExit o)
    end) \/
  match i with
  | Btf p => match m_run M (txt "bpftool") [txt "btf"; txt "dump"; txt "file"; p; txt "format"; txt "c"] (m_files M) with
             | None => r = Err EBpfTool | Some o => if o_success o then utf8 (o_stdout o) = false /\ r = Err EPanic else r = Err (EBpfToolExit o) end
  | Header p => (r = Err EReadHeader /\ forall c, m_files M p = Some c -> utf8 c = false) \/ (r = Err EPanic /\ forall d n, p = d ++ 47 :: n \/ p = n -> ~ In 47 n -> n = [] \/ n = txt ".." \/ utf8 n = false)
  end.
Proof.
  intros r <-. unfold generate. destruct (extract_ctypes_prefix flags) as [fl prefix]. fold (builder_for prefix types).
  assert (forall h name, match asked M name h (combine_flags (command_line_flags (builder_for prefix types)) fl) with
    | None => bind (Ok (h, name)) (fun hn => let file_path := m_temp M ++ 47 :: snd hn in
    let f : files := fun p => if str_eqb p file_path then Some (fst hn) else m_files M p in
    match m_run M (txt "bindgen") (file_path :: combine_flags (command_line_flags (builder_for prefix types)) fl) f with
    | None => Err EBindgen
    | Some o => if negb (o_success o) then Err (EBindgenExit o) else if utf8 (o_stdout o) then Ok (o_stdout o) else Err EPanic
    end) = Err EBindgen
    | Some o => bind (Ok (h, name)) (fun hn => let file_path := m_temp M ++ 47 :: snd hn in
    let f : files := fun p => if str_eqb p file_path then Some (fst hn) else m_files M p in
    match m_run M (txt "bindgen") (file_path :: combine_flags (command_line_flags (builder_for prefix types)) fl) f with
    | None => Err EBindgen
    | Some o => if negb (o_success o) then Err (EBindgenExit o) else if utf8 (o_stdout o) then Ok (o_stdout o) else Err EPanic
    end) = (if o_success o then (if utf8 (o_stdout o) then Ok (o_stdout o) else Err EPanic) else Err (EBindgenExit o)) end) as G.
  { intros h name. cbn [bind fst snd]. unfold asked. destruct (m_run M (txt "bindgen") _ _) as [o|]; [|reflexivity]. destruct (o_success o); reflexivity. }
  destruct i as [p|p].
  - unfold c_header_from_btf. destruct (m_run M (txt "bpftool") _ _) as [o|] eqn:R; [|right; reflexivity].
    destruct (o_success o) eqn:S; cbn [negb]; [|right; reflexivity]. destruct (utf8 (o_stdout o)) eqn:U; [|right; split; reflexivity].
    left. exists (o_stdout o), (txt "kernel_types.h"). split; [exists o; split; [exact R|split; [exact S|reflexivity]]|]. split; [exact U|]. split; [reflexivity|].
    split; [vm_compute; intros I; repeat (destruct I as [I|I]; [discriminate I|]); exact I|]. specialize (G (o_stdout o) (txt "kernel_types.h")).
    destruct (asked _ _ _ _) as [o'|]; [|exact G]. destruct (o_success o'); [destruct (utf8 (o_stdout o'))|]; exact G.
  - destruct (m_files M p) as [c|] eqn:F; [|right; left; split; [reflexivity|discriminate]].
    destruct (utf8 c) eqn:U; cbn [negb]; [|right; left; split; [reflexivity|intros c' E; apply some_inj in E; now subst]].
    pose proof (split_at_spec 47 p) as [J FA]. unfold file_name.
    destruct (rev (split_at 47 p)) as [|n rs] eqn:RV.
    { exfalso. apply (split_by_nonempty (Z.eqb 47) p). change (split_by (Z.eqb 47) p) with (split_at 47 p). rewrite <- (rev_involutive (split_at 47 p)), RV. reflexivity. }
    assert (split_at 47 p = rev rs ++ [n]) as SP by (rewrite <- (rev_involutive (split_at 47 p)), RV; reflexivity).
    assert (~ In 47 n) as NN. { rewrite SP in FA. apply Forall_app in FA as [_ FA]. apply Forall_inv in FA. rewrite Forall_forall in FA. intros I. now destruct (FA _ I). }
    assert (p = n \/ exists d, p = d ++ 47 :: n) as PN.
    { rewrite <- J, SP. clear. generalize (rev rs). intros l. destruct l as [|a l]; [left; reflexivity|right]. revert a.
      induction l as [|b l IH]; intros a; [exists a; reflexivity|]. destruct (IH b) as [d D]. exists (a ++ 47 :: d).
      change (TextSplit.join 47 ((a :: b :: l) ++ [n])) with (a ++ 47 :: TextSplit.join 47 ((b :: l) ++ [n])). rewrite D. now rewrite <- app_assoc. }
    assert (forall d m, p = d ++ 47 :: m \/ p = m -> ~ In 47 m -> m = n) as UN.
    { intros d m [E|E] NM.
      - assert (split_at 47 p = split_at 47 d ++ [m]) as X.
        { rewrite E. clear -NM. induction d as [|x d IH]; cbn [app].
          - unfold split_at. cbn [split_by]. rewrite Z.eqb_refl. rewrite split_by_none; [reflexivity|]. apply Forall_forall. intros c I. apply Z.eqb_neq. intros <-. contradiction.
          - unfold split_at in *. cbn [split_by]. destruct (47 =? x); [now rewrite IH|]. rewrite IH. pose proof (split_by_nonempty (Z.eqb 47) d) as NE. destruct (split_by (Z.eqb 47) d); [contradiction|reflexivity]. }
        rewrite SP in X. apply app_inj_tail in X as [_ X]. now rewrite X.
      - subst m. unfold split_at in SP. rewrite split_by_none in SP by (apply Forall_forall; intros c0 I; apply Z.eqb_neq; intros <-; contradiction).
        change [p] with ([] ++ [p]) in SP. apply app_inj_tail in SP as [_ X]. exact X. }
    destruct (str_eqb n (txt "..") || str_eqb n []) eqn:DD.
    + right. right. split; [reflexivity|]. intros d m E NM. rewrite (UN d m E NM). apply orb_prop in DD as [X|X]; apply str_eqb_eq in X; auto.
    + destruct (utf8 n) eqn:UT.
      * left. exists c, n. split; [exact F|]. split; [exact U|]. split; [exact PN|]. split; [exact NN|]. specialize (G c n).
        destruct (asked _ _ _ _) as [o'|]; [|exact G]. destruct (o_success o'); [destruct (utf8 (o_stdout o'))|]; exact G.
      * right. right. split; [reflexivity|]. intros d m E NM. rewrite (UN d m E NM). auto.
Qed.

Lemma errors M i types flags e : generate M i types flags = Err e -> fails_as M i e.
Proof.
  intros H. destruct (generate_runs _ _ _ _ _ H) as [(h & name & H1 & U & H2 & H3 & G)|G]; clear H.
  - destruct (extract_ctypes_prefix flags) as [fl prefix]. destruct (asked M name h _) as [o|] eqn:A.
    + assert (ran_bindgen M i (combine_flags (command_line_flags (builder_for prefix types)) fl) o) as RB by (exists h, name; split; [exact H1|]; split; [exact H3|]; split; [exact H2|exact A]).
      destruct (o_success o) eqn:S.
      * destruct (utf8 (o_stdout o)) eqn:V; [discriminate G|]. injection G as ->. right. left. eauto.
      * injection G as ->. cbn [fails_as]. eauto.
    + injection G as ->. cbn [fails_as]. eauto.
  - destruct i as [p|p].
    + destruct (m_run M (txt "bpftool") _ _) as [o|] eqn:R.
      * destruct (o_success o) eqn:S; [destruct G as [V G]; injection G as ->|injection G as ->].
        -- left. exists (o_stdout o). split; [exists o; split; [exact R|split; [exact S|reflexivity]]|exact V].
        -- exists p. split; [reflexivity|]. split; assumption.
      * injection G as ->. exists p. split; [reflexivity|exact R].
    + destruct G as [[G K]|[G K]]; injection G as ->.
      * exists p. split; [reflexivity|exact K].
      * right. right. exists p. split; [reflexivity|exact K].
Qed.

Lemma extract_given flags rest pv : prefix_given flags rest pv -> extract_ctypes_prefix flags = (rest, pv).
Proof.
  intros [a v b -> N|N]; [now apply extract_some|]. apply extract_none. intros a v b E. apply N. rewrite E. apply in_or_app. right. now left.
Qed.

Lemma command_right M i types flags out rest pv ub ua uo : generate M i types flags = Ok out -> prefix_given flags rest pv ->
  ~ In (txt "--") types -> pv <> Some (txt "--") -> splits rest ub ua -> opts ub = Some uo ->
  exists args o before os, ran_bindgen M i args o /\ o_success o = true /\ o_stdout o = out /\
    splits args before (txt "-Wno-unknown-attributes" :: ua) /\ opts before = Some (os ++ uo) /\ (forall x, In x wanted_flags -> In x os) /\
    given (txt "--ctypes-prefix") (os ++ uo) = (match pv with Some v => v | None => the_prefix end) :: given (txt "--ctypes-prefix") uo /\
    given (txt "--allowlist-type") (os ++ uo) = types ++ given (txt "--allowlist-type") uo.
Proof.
  intros H PG NT NV SP OU. destruct (generate_runs _ _ _ _ _ H) as [(h & name & H1 & U & H2 & H3 & G)|G]; clear H.
  - rewrite (extract_given _ _ _ PG) in G. destruct (asked M name h _) as [o|] eqn:A; [|discriminate G].
    destruct (o_success o) eqn:S; [|discriminate G]. destruct (utf8 (o_stdout o)) eqn:V; [|discriminate G]. injection G as ->.
    destruct (our_opts (match pv with Some v => v | None => the_prefix end) types) as (os & O1 & O2 & O3 & O4).
    assert ((match pv with Some v => v | None => the_prefix end) <> txt "--") as NP by (destruct pv; [congruence|discriminate]).
    exists (combine_flags (command_line_flags (builder_for pv types)) rest), o, (our_flags (match pv with Some v => v | None => the_prefix end) types ++ ub), os.
    split; [exists h, name; split; [exact H1|]; split; [exact H3|]; split; [exact H2|exact A]|]. split; [exact S|]. split; [reflexivity|].
    split; [exact (combine_splits _ _ _ _ _ _ (our_splits pv types NP NT) SP)|]. split; [now apply opts_app|]. split; [exact O2|].
    split; unfold given in *; rewrite flat_map_app; [now rewrite O3|now rewrite O4].
  - exfalso. destruct i as [p|p].
    + destruct (m_run M (txt "bpftool") _ _) as [o|]; [|discriminate G]. destruct (o_success o); [destruct G as [_ G]; discriminate G|discriminate G].
    + destruct G as [[G _]|[G _]]; discriminate G.
Qed.

(** A header read, tools that work: bindings. *)
Lemma generate_works M i types flags h : header_of M i h -> utf8 h = true ->
  (forall p, i = Header p -> exists d n, (p = d ++ 47 :: n \/ p = n) /\ ~ In 47 n /\ n <> [] /\ n <> txt ".." /\ utf8 n = true) ->
  (forall args f, exists o, m_run M (txt "bindgen") args f = Some o /\ o_success o = true /\ utf8 (o_stdout o) = true) -> exists out, generate M i types flags = Ok out.
Proof.
  intros H U N B. destruct (generate M i types flags) as [out|e] eqn:E; [eauto|]. apply errors in E. exfalso.
  assert (forall h', header_of M i h' -> h' = h) as UH.
  { intros h' H'. destruct i as [p|p]; cbn [header_of] in *; [destruct H as (o & A & _ & <-), H' as (o' & A' & _ & <-); congruence|congruence]. }
  assert (forall name x args, exists o, asked M name x args = Some o /\ o_success o = true /\ utf8 (o_stdout o) = true) as BB by (intros; apply B).
  destruct e as [|o| |o| |]; cbn [fails_as] in E.
  - destruct E as (p & -> & E). destruct H as (o & A & _). rewrite E in A. discriminate A.
  - destruct E as (p & -> & E & S). destruct H as (o' & A & S' & _). rewrite E in A. injection A as ->. congruence.
  - destruct E as (x & name & args & _ & E). destruct (BB name x args) as (o & A & _). congruence.
  - destruct E as (args & (x & name & _ & _ & _ & E) & S). destruct (BB name x args) as (o' & A & S' & _). rewrite E in A. injection A as ->. congruence.
  - destruct E as (p & -> & E). rewrite (E h H) in U. discriminate U.
  - destruct E as [(x & X & Y)|[(args & o & (x & name & _ & _ & _ & E) & V)|(p & -> & E)]].
    + rewrite (UH _ X) in Y. congruence.
    + destruct (BB name x args) as (o' & A & _ & V'). rewrite E in A. injection A as ->. congruence.
    + destruct (N p eq_refl) as (d & n & P & N1 & N2 & N3 & N4). destruct (E d n P N1) as [X|[X|X]]; congruence.
Qed.

(** * The tool *)

Lemma tool_input M btf header names args : tool M btf header names args =
  generate M (match header, btf with Some h, _ => Header h | None, Some b => Btf b | None, None => Btf (txt "/sys/kernel/btf/vmlinux") end) names args.
Proof. destruct header, btf; reflexivity. Qed.

(** * What is not so *)

Definition lenient : machine :=
  {| m_files := fun p => if str_eqb p (txt "/src/a.h") then Some (txt "#include ""b.h""") else if str_eqb p (txt "/src/b.h") then Some (txt "struct s;") else None;
     m_run := fun _ _ _ => Some {| o_success := true; o_stdout := txt "pub struct s;" |}; m_temp := txt "/tmp/x" |}.

Lemma equals_refuted : exists flags uo, opts flags = Some uo /\ given (txt "--ctypes-prefix") uo = [txt "::cty"] /\
  forall M i types out ua, generate M i types (flags ++ ua) = Ok out -> ua = [] -> ~ In (txt "--") types ->
  exists args o before os, ran_bindgen M i args o /\ splits args before [txt "-Wno-unknown-attributes"] /\ opts before = Some os /\ given (txt "--ctypes-prefix") os = [the_prefix; txt "::cty"].
Proof.
  exists [txt "--ctypes-prefix=::cty"], [OFlag (txt "--ctypes-prefix=::cty")]. split; [reflexivity|]. split; [reflexivity|]. intros M i types out ua H -> NT. cbn [app] in H.
  destruct (command_right M i types _ out [txt "--ctypes-prefix=::cty"] None [txt "--ctypes-prefix=::cty"] [] [OFlag (txt "--ctypes-prefix=::cty")] H) as (args & o & before & os & A & _ & _ & B & C & _ & D & _).
  - constructor. intros [X|[]]. discriminate X.
  - exact NT.
  - discriminate.
  - split; [intros [X|[]]; discriminate X|right; split; reflexivity].
  - reflexivity.
  - exists args, o, before, (os ++ [OFlag (txt "--ctypes-prefix=::cty")]). split; [exact A|]. split; [exact B|]. split; [exact C|exact D].
Qed.
Lemma clang_refuted : exists flags before after rest pv, splits flags before after /\ before = [] /\ prefix_given flags rest pv /\ pv <> None /\ ~ splits rest before after.
Proof.
  exists [txt "--"; txt "--ctypes-prefix"; txt "x"], [], [txt "--ctypes-prefix"; txt "x"], ([txt "--"] ++ []), (Some (txt "x")).
  split; [split; [intros []|left; reflexivity]|]. split; [reflexivity|]. split; [apply PG_some; [reflexivity|intros [X|[]]; discriminate X]|]. split; [discriminate|].
  intros [_ [X|[X _]]]; discriminate X.
Qed.
Lemma siblings_refuted M d name other h c args o : fresh_temp M -> ran_bindgen M (Header (d ++ 47 :: name)) args o -> ~ In 47 name -> ~ In 47 other -> other <> name ->
  m_files M (d ++ 47 :: name) = Some h -> m_files M (d ++ 47 :: other) = Some c ->
  exists f, m_run M (txt "bindgen") ((m_temp M ++ 47 :: name) :: args) f = Some o /\ f (m_temp M ++ 47 :: name) = Some h /\ f (m_temp M ++ 47 :: other) = None.
Proof.
  intros FT (h' & n & H & N & P & A) NN NO NE F1 F2. cbn [header_of] in H. rewrite F1 in H. injection H as <-.
  assert (n = name) as ->.
  { destruct P as [P|[d' P]].
    - exfalso. apply N. rewrite <- P. apply in_or_app. right. now left.
    - apply (f_equal (@rev Z)) in P. rewrite !rev_app_distr in P. cbn [rev] in P. rewrite <- !app_assoc in P. cbn [app] in P.
      assert (forall (u v w x : list Z), ~ In 47 u -> ~ In 47 v -> u ++ 47 :: w = v ++ 47 :: x -> u = v) as G.
      { clear. induction u as [|y u IH]; intros [|z v] w x NU NV E; cbn [app] in E; [reflexivity| | |].
        - injection E as E1 _. destruct NV. left. congruence.
        - injection E as E1 _. destruct NU. left. congruence.
        - injection E as -> E. f_equal. apply (IH v w x); [intros I; apply NU; now right|intros I; apply NV; now right|exact E]. }
      apply G in P; [|rewrite <- in_rev; exact NN|rewrite <- in_rev; exact N]. rewrite <- (rev_involutive n), <- P. apply rev_involutive. }
  unfold asked in A. eexists. split; [exact A|]. cbn beta. rewrite str_eqb_refl. split; [reflexivity|].
  rewrite (proj2 (str_eqb_neq _ _)); [apply FT; exists other; split; [reflexivity|exact NO]|]. intros E. apply app_inv_head in E. injection E as E. contradiction.
Qed.
