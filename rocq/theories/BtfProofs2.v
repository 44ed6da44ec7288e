(** Proofs about construction histories, type size, type resolution and type
    compatibility. *)
From Verif Require Import Base Text BtfTypes BtfTypesProofs BtfModel BtfProofs.
Local Open Scope Z_scope.

Lemma read_no_panic d : read d <> Err BPanic.
Proof.
  unfold read, read_words. destruct (length d <? 4 * 3)%nat; [discriminate|]. cbn [bind].
  set (w := nth 1 _ 0). unfold type_kind. destruct (kind_of_num (info_kind w)) as [k|]; [|discriminate]. cbn [bind].
  destruct k; try discriminate;
    match goal with |- context [if ?c then Err _ else _] => destruct c; try discriminate end; cbn [bind]; try discriminate.
  match goal with |- context [if ?c then _ else _] => destruct c; discriminate end.
Qed.

Theorem parse_no_panic d : bytes_ok d = true -> btf_parse d <> Err BPanic.
Proof.
  intros Hb. unfold btf_parse. destruct (length d <? 24)%nat; [discriminate|].
  cbv zeta. set (h := read_hdr d).
  match goal with |- context [Z.ltb ?a ?b] => destruct (Z.ltb_spec a b); [discriminate|] end.
  match goal with |- context [Z.ltb ?a ?b] => destruct (Z.ltb_spec a b); [discriminate|] end.
  match goal with |- context [read_types (length ?t) _] => set (td := t) end.
  pose proof (read_types_no_panic (length td) td (bytes_ok_firstn _ _ (bytes_ok_skipn _ _ Hb)) (le_n _)
                (fun d' _ => read_no_panic d')) as H'.
  destruct (read_types _ td); cbn [bind]; congruence.
Qed.

(** * Construction histories *)
Inductive bop := AddString (s : list Z) | AddType (t : btype).
Definition bstep (b : btf) (o : bop) : btf :=
  match o with AddString s => fst (add_string b s) | AddType t => fst (add_type b t) end.
Definition handle (b : btf) (o : bop) : Z :=
  match o with AddString s => snd (add_string b s) | AddType t => snd (add_type b t) end.
Definition build (b : btf) (ops : list bop) : btf := fold_left bstep ops b.
Definition op_ok (o : bop) : Prop := match o with AddString s => ~ In 0 s | AddType t => btype_ok t end.
Definition op_cost (o : bop) : Z :=
  match o with AddString s => Z.of_nat (length s) + 1 | AddType t => Z.of_nat (type_info_size t) end.
Fixpoint cost (ops : list bop) : Z := match ops with [] => 0 | o :: ops => op_cost o + cost ops end.

Definition blob_size (b : btf) : Z := 24 + bh_type_len (b_hdr b) + Z.of_nat (length (b_strings b)).

Lemma op_cost_pos o : 0 <= op_cost o.
Proof. destruct o; cbn; lia. Qed.
Lemma cost_pos ops : 0 <= cost ops.
Proof. induction ops as [|o ops IH]; cbn [cost]; [lia|]. pose proof (op_cost_pos o). lia. Qed.
Lemma cost_app a b : cost (a ++ b) = cost a + cost b.
Proof. induction a as [|o a IH]; cbn [cost app]; lia. Qed.

Lemma types_count b : btf_ok b -> Z.of_nat (length (b_types b)) <= 1 + bh_type_len (b_hdr b).
Proof.
  intros (_ & _ & _ & _ & _ & ts & -> & Hok & ->). cbn [length].
  induction Hok as [|t ts Ht _ IH]; [cbn; lia|]. cbn [length types_size].
  assert (12 <= type_info_size t)%nat by (destruct t; cbn; lia). lia.
Qed.

(** One step keeps the blob well formed, adds its own size, and keeps every
    earlier type and string. *)
Lemma bstep_ok b o :
  btf_ok b -> op_ok o -> blob_size b + op_cost o < 2 ^ 32 ->
  btf_ok (bstep b o) /\ blob_size (bstep b o) = blob_size b + op_cost o /\
  (forall i t, type_by_id (b_types b) i = Ok t -> type_by_id (b_types (bstep b o)) i = Ok t) /\
  (forall off s, 0 <= off < Z.of_nat (length (b_strings b)) -> string_at b off = Ok s -> string_at (bstep b o) off = Ok s) /\
  (length (b_strings b) <= length (b_strings (bstep b o)))%nat /\
  match o with
  | AddString s => string_at (bstep b o) (handle b o) = Ok s /\
                   0 <= handle b o < Z.of_nat (length (b_strings (bstep b o)))
  | AddType t => type_by_id (b_types (bstep b o)) (handle b o) = Ok t
  end.
Proof.
  intros Hb Ho Hc. pose proof Hb as (Hh & Hl & Hto & Hs & Hn & ts & Hts & Hok & Hty).
  pose proof Hh as (H1 & H2 & H3 & H4 & H5 & H6 & H7 & H8). unfold word_ok, blob_size in *.
  assert (forall i t, type_by_id (b_types b) i = Ok t -> 0 <= i < Z.of_nat (length (b_types b))) as Hidx.
  { intros i t Hi. unfold type_by_id in Hi. destruct (nth_error (b_types b) (Z.to_nat i)) eqn:E; [|discriminate].
    assert (Z.to_nat i < length (b_types b))%nat by (apply nth_error_Some; congruence).
    destruct (Z.leb_spec 0 i); [lia|discriminate]. }
  destruct o as [s|t]; cbn [bstep handle op_cost op_ok] in *.
  - destruct (add_string b s) as [b' off] eqn:E.
    destruct (btf_ok_add_string b s b' off Hb Ho ltac:(lia) E) as (B1 & B2 & B3 & B4 & B5).
    unfold add_string in E. apply pair_equal_spec in E. destruct E as [E _]. cbn [fst snd].
    assert (length (b_strings b') = length (b_strings b) + length s + 1)%nat as El.
    { rewrite <- E. cbn [b_strings]. rewrite !app_length. cbn [length]. lia. }
    assert (bh_type_len (b_hdr b') = bh_type_len (b_hdr b)) as Et by (rewrite <- E; reflexivity).
    split; [exact B1|]. split; [lia|]. split; [intros i t Hi; now rewrite B4|]. split; [exact B5|].
    split; [lia|]. split; [exact B3|lia].
  - destruct (add_type b t) as [b' id] eqn:E.
    pose proof (types_count b Hb) as Hcnt.
    destruct (btf_ok_add_type b t b' id Hb Ho ltac:(lia) ltac:(lia) E) as (B1 & B2 & B3 & B4).
    unfold add_type in E. apply pair_equal_spec in E. destruct E as [E _]. cbn [fst snd].
    assert (b_strings b' = b_strings b) as Est by (rewrite <- E; reflexivity).
    assert (bh_type_len (b_hdr b') = bh_type_len (b_hdr b) + Z.of_nat (type_info_size t)) as Et.
    { pose proof B1 as (_ & _ & _ & _ & _ & ts' & Hts' & _ & Hty'). rewrite <- E in Hts'. cbn [b_types] in Hts'.
      rewrite Hts in Hts'. cbn [app] in Hts'. assert (ts' = ts ++ [t]) as -> by congruence.
      rewrite Hty', Hty. clear. induction ts as [|a ts IH]; cbn [app types_size]; lia. }
    split; [exact B1|]. split; [rewrite Est; lia|]. split.
    { intros i t' Hi. rewrite B4; [exact Hi|]. eapply Hidx. exact Hi. }
    split; [|split; [rewrite Est; lia|exact B3]].
    intros off s Hoff Hstr.
    pose proof B1 as (_ & Bl & _ & Bs & Bn & _).
    rewrite string_at_inside in Hstr by lia. rewrite string_at_inside by (rewrite ?Est in *; lia). rewrite Est. exact Hstr.
Qed.

Lemma build_ok ops : forall b, btf_ok b -> Forall op_ok ops -> blob_size b + cost ops < 2 ^ 32 ->
  btf_ok (build b ops) /\ blob_size (build b ops) = blob_size b + cost ops /\
  (forall i t, type_by_id (b_types b) i = Ok t -> type_by_id (b_types (build b ops)) i = Ok t) /\
  (forall off s, 0 <= off < Z.of_nat (length (b_strings b)) -> string_at b off = Ok s -> string_at (build b ops) off = Ok s).
Proof.
  induction ops as [|o ops IH]; intros b Hb Hops Hc.
  - cbn [build fold_left cost]. split; [exact Hb|]. split; [lia|]. auto.
  - inversion Hops as [|? ? Ho Hr]; subst. cbn [cost] in Hc. pose proof (cost_pos ops).
    destruct (bstep_ok b o Hb Ho ltac:(lia)) as (B1 & B2 & B3 & B4 & B5 & _).
    destruct (IH (bstep b o) B1 Hr ltac:(lia)) as (C1 & C2 & C3 & C4).
    change (build b (o :: ops)) with (build (bstep b o) ops). cbn [cost].
    split; [exact C1|]. split; [lia|]. split; [auto|].
    intros off s Hoff Hs. apply C4; [lia|]. now apply B4.
Qed.

Lemma build_app b p q : build b (p ++ q) = build (build b p) q.
Proof. apply fold_left_app. Qed.

(** The fresh BTF records a string section of length 0 although it holds one
    byte; the first [add_string] repairs that. *)
Definition fix_str (b : btf) : btf :=
  let h := b_hdr b in
  {| b_hdr := {| bh_magic := bh_magic h; bh_version := bh_version h; bh_flags := bh_flags h;
                 bh_hdr_len := bh_hdr_len h; bh_type_off := bh_type_off h; bh_type_len := bh_type_len h;
                 bh_str_off := bh_str_off h; bh_str_len := u32 (Z.of_nat (length (b_strings b))) |};
     b_strings := b_strings b; b_types := b_types b |}.

Lemma bstep_fix b o : bstep (fix_str b) o = fix_str (bstep b o).
Proof. destruct o; reflexivity. Qed.
Lemma build_fix ops : forall b, build (fix_str b) ops = fix_str (build b ops).
Proof.
  induction ops as [|o ops IH]; intros b; [reflexivity|].
  change (build (fix_str b) (o :: ops)) with (build (bstep (fix_str b) o) ops). rewrite bstep_fix, IH. reflexivity.
Qed.
Lemma build_string b p s q : build b (p ++ AddString s :: q) = build (fix_str b) (p ++ AddString s :: q).
Proof.
  rewrite !build_app, build_fix. reflexivity.
Qed.
Lemma handle_fix b o : handle (fix_str b) o = handle b o.
Proof. destruct o; reflexivity. Qed.

Lemma fix_new_ok : btf_ok (fix_str btf_new).
Proof.
  unfold btf_ok, hdr_ok, word_ok. cbn. change (u32 1) with 1. change (u32 (Z.of_nat 1)) with 1. repeat (split; [lia|]). exists []. split; [reflexivity|]. split; [constructor|reflexivity].
Qed.

Theorem build_round_trip ops :
  Forall op_ok ops -> (exists s, In (AddString s) ops) -> 25 + cost ops < 2 ^ 32 ->
  btf_parse (btf_to_bytes (build btf_new ops)) = Ok (build btf_new ops).
Proof.
  intros Hops (s & Hin) Hc. apply in_split in Hin. destruct Hin as (p & q & ->). rewrite build_string.
  apply parse_to_bytes. apply build_ok; [apply fix_new_ok|exact Hops|].
  change (blob_size (fix_str btf_new)) with 25. lia.
Qed.

(** Every handle returned along the way resolves, in the finished blob, to
    what was added. *)
Theorem build_handles p o q :
  Forall op_ok (p ++ o :: q) -> (exists s, In (AddString s) (p ++ o :: q)) -> 25 + cost (p ++ o :: q) < 2 ^ 32 ->
  match o with
  | AddString s => string_at (build btf_new (p ++ o :: q)) (handle (build btf_new p) o) = Ok s
  | AddType t => type_by_id (b_types (build btf_new (p ++ o :: q))) (handle (build btf_new p) o) = Ok t
  end.
Proof.
  intros Hops Hin Hc.
  assert (build btf_new (p ++ o :: q) = build (bstep (build (fix_str btf_new) p) o) q) as ->.
  { destruct Hin as (s & Hin). apply in_split in Hin. destruct Hin as (p' & q' & E).
    transitivity (build (fix_str btf_new) (p ++ o :: q)).
    - rewrite E. apply build_string.
    - now rewrite build_app. }
  rewrite Forall_app, Forall_cons_iff in Hops. destruct Hops as (Hp & Ho & Hq).
  rewrite cost_app in Hc. cbn [cost] in Hc. pose proof (cost_pos p). pose proof (cost_pos q). pose proof (op_cost_pos o).
  pose proof (build_ok p (fix_str btf_new) fix_new_ok Hp) as Bp. change (blob_size (fix_str btf_new)) with 25 in Bp.
  destruct (Bp ltac:(lia)) as (B1 & B2 & _ & _).
  destruct (bstep_ok (build (fix_str btf_new) p) o B1 Ho ltac:(lia)) as (C1 & C2 & C3 & C4 & C5 & C6).
  destruct (build_ok q _ C1 Hq ltac:(lia)) as (D1 & D2 & D3 & D4).
  replace (handle (build btf_new p) o) with (handle (build (fix_str btf_new) p) o)
    by (rewrite build_fix; apply handle_fix).
  destruct o as [s|t].
  - destruct C6 as [C6 C7]. apply D4; assumption.
  - apply D3. exact C6.
Qed.

(** * String lookup *)
Theorem string_at_no_panic b off : off <= Z.of_nat (length (b_strings b)) -> string_at b off <> Err BPanic.
Proof.
  intros H. unfold string_at. destruct (u32 _ <=? off); [discriminate|].
  match goal with |- context [Z.ltb ?a ?b] => destruct (Z.ltb_spec a b); [lia|] end.
  destruct (until_nul _); discriminate.
Qed.

(** Exactly the offsets that abort. *)
Theorem string_at_panic_iff b off :
  string_at b off = Err BPanic <->
  Z.of_nat (length (b_strings b)) < off < u32 (u32 (bh_str_off (b_hdr b) + bh_hdr_len (b_hdr b)) + bh_str_len (b_hdr b)).
Proof.
  unfold string_at.
  match goal with |- context [Z.leb ?a ?b] => destruct (Z.leb_spec a b) end; [split; [discriminate|lia]|].
  match goal with |- context [Z.ltb ?a ?b] => destruct (Z.ltb_spec a b) end; [split; [lia|reflexivity]|].
  split; [|lia]. destruct (until_nul _); discriminate.
Qed.

(** * Resolution *)
(** [strips ts d id r]: following exactly [d] modifier links from [id] leads to
    [r], which is not a modifier. *)
Inductive strips (ts : list btype) : nat -> Z -> Z -> Prop :=
| strips_here id t : type_by_id ts id = Ok t -> modifier t = None -> strips ts 0 id id
| strips_next d id t next r : type_by_id ts id = Ok t -> modifier t = Some next -> strips ts d next r -> strips ts (S d) id r.

(** [broken ts d id bad]: following [d] links from [id] leads to an id that
    names no type. *)
Inductive broken (ts : list btype) : nat -> Z -> Z -> Prop :=
| broken_here id : type_by_id ts id = Err (BUnknownBtfType id) -> broken ts 0 id id
| broken_next d id t next bad : type_by_id ts id = Ok t -> modifier t = Some next -> broken ts d next bad -> broken ts (S d) id bad.

(** [long ts d id]: there are at least [d] links. *)
Inductive long (ts : list btype) : nat -> Z -> Prop :=
| long_0 id : long ts 0 id
| long_S d id t next : type_by_id ts id = Ok t -> modifier t = Some next -> long ts d next -> long ts (S d) id.

Lemma type_by_id_cases ts id : (exists t, type_by_id ts id = Ok t) \/ type_by_id ts id = Err (BUnknownBtfType id).
Proof. unfold type_by_id. destruct (nth_error _ _); [destruct (0 <=? id)|]; eauto. Qed.

Lemma resolve_loop_spec fuel : forall ts root id,
  (forall r, resolve_loop fuel ts root id = Ok r <-> exists d, (d < fuel)%nat /\ strips ts d id r) /\
  (forall e, resolve_loop fuel ts root id = Err e <->
     (exists d bad, (d < fuel)%nat /\ broken ts d id bad /\ e = BUnknownBtfType bad) \/
     (long ts fuel id /\ e = BMaximumTypeDepthReached root)).
Proof.
  induction fuel as [|fuel IH]; intros ts root id; cbn [resolve_loop].
  - split; [intros r; split; [discriminate|intros (d & Hd & _); lia]|].
    intros e. split; [intros H; right; split; [constructor|congruence]|].
    intros [(d & bad & Hd & _)|[_ ->]]; [lia|reflexivity].
  - destruct (type_by_id_cases ts id) as [[t Ht]|Ht]; rewrite Ht; cbn [bind].
    + destruct (modifier t) as [next|] eqn:Em.
      * destruct (IH ts root next) as [I1 I2]. split.
        -- intros r. rewrite I1. split.
           ++ intros (d & Hd & Hs). exists (S d). split; [lia|]. econstructor; eauto.
           ++ intros (d & Hd & Hs). inversion Hs as [? t' H1 H2|d' ? t' next' ? H1 H2 H3]; subst; [congruence|].
              assert (t' = t) by congruence. subst t'. assert (next' = next) by congruence. subst. exists d'. split; [lia|exact H3].
        -- intros e. rewrite I2. split; (intros [(d & bad & Hd & Hb & He)|[Hl He]]; [left|right]).
           ++ exists (S d), bad. split; [lia|]. split; [econstructor; eauto|exact He].
           ++ split; [econstructor; eauto|exact He].
           ++ inversion Hb as [? H1|d' ? t' next' ? H1 H2 H3]; subst; [congruence|].
              assert (t' = t) by congruence. subst t'. assert (next' = next) by congruence. subst. exists d', bad. split; [lia|auto].
           ++ inversion Hl as [|d' ? t' next' H1 H2 H3]; subst. assert (t' = t) by congruence. subst t'.
              assert (next' = next) by congruence. subst. auto.
      * split.
        -- intros r. split.
           ++ intros E. apply ok_inj in E. subst. exists 0%nat. split; [lia|]. econstructor; eauto.
           ++ intros (d & Hd & Hs). inversion Hs as [? t' H1 H2|d' ? t' next' ? H1 H2 H3]; subst; [reflexivity|].
              assert (t' = t) by congruence. subst. congruence.
        -- intros e. split; [discriminate|]. intros [(d & bad & Hd & Hb & He)|[Hl He]].
           ++ inversion Hb as [? H1|d' ? t' next' ? H1 H2 H3]; subst; congruence.
           ++ inversion Hl as [|d' ? t' next' H1 H2 H3]; subst. congruence.
    + split.
      * intros r. split; [discriminate|]. intros (d & Hd & Hs). inversion Hs; subst; congruence.
      * intros e. split.
        -- intros E. left. exists 0%nat, id. split; [lia|]. split; [now constructor|congruence].
        -- intros [(d & bad & Hd & Hb & He)|[Hl He]].
           ++ inversion Hb; subst; congruence.
           ++ inversion Hl; subst; congruence.
Qed.

Theorem resolve_type_ok ts id r : resolve_type ts id = Ok r <-> exists d, (d < 32)%nat /\ strips ts d id r.
Proof. apply (resolve_loop_spec 32 ts id id). Qed.

Theorem resolve_type_err ts id e : resolve_type ts id = Err e <->
  (exists d bad, (d < 32)%nat /\ broken ts d id bad /\ e = BUnknownBtfType bad) \/
  (long ts 32 id /\ e = BMaximumTypeDepthReached id).
Proof. apply (resolve_loop_spec 32 ts id id). Qed.

Lemma strips_result ts d id r : strips ts d id r -> exists t, type_by_id ts r = Ok t /\ modifier t = None.
Proof. induction 1; eauto. Qed.

(** The result is not a modifier and resolves to itself. *)
Theorem resolve_type_idem ts id r : resolve_type ts id = Ok r ->
  resolve_type ts r = Ok r /\ exists t, type_by_id ts r = Ok t /\ modifier t = None.
Proof.
  intros H. apply resolve_type_ok in H. destruct H as (d & Hd & Hs).
  destruct (strips_result _ _ _ _ Hs) as (t & Ht & Hm). split; [|eauto].
  apply resolve_type_ok. exists 0%nat. split; [lia|]. econstructor; eauto.
Qed.

(** * Size *)
(** The C size of a type.  [d] counts the links followed, [a] the array
    dimensions. *)
Definition size_link (t : btype) : option Z :=
  match t with
  | TVolatile h | TConst h | TRestrict h | TTypedef h | TTypeTag h | TVar h _ | TDeclTag h _ => Some (h_third h)
  | _ => None
  end.
Inductive csize (ts : list btype) : nat -> nat -> Z -> Z -> Prop :=
| csize_leaf id t s : type_by_id ts id = Ok t -> size_of t = Some s -> csize ts 0 0 id s
| csize_link d a id t next s : type_by_id ts id = Ok t -> size_link t = Some next ->
    csize ts d a next s -> csize ts (S d) a id s
| csize_array d a id h elem index len s : type_by_id ts id = Ok (TArray h elem index len) ->
    csize ts d a elem s -> csize ts (S d) (S a) id (len * s).

Lemma size_link_facts t next : size_link t = Some next ->
  size_of t = None /\ btf_type t = Some next /\ match t with TArray _ _ _ _ => False | _ => True end.
Proof. destruct t; cbn; intros H; try discriminate; auto. Qed.

Lemma size_of_not_array t s : size_of t = Some s -> match t with TArray _ _ _ _ => False | _ => True end.
Proof. now destruct t. Qed.

Lemma type_size_csize ts d a id s : csize ts d a id s -> forall fuel root n,
  (d < fuel)%nat ->
  (a = 0%nat -> type_size_loop fuel ts root id n = Ok (u32 (s * n))) /\
  (a = 1%nat -> type_size_loop fuel ts root id n = Ok (u32 s)).
Proof.
  induction 1 as [id t s Ht Hs|d a id t next s Ht Hl H IH|d a id h elem index len s Ht H IH]; intros fuel root n Hf;
    destruct fuel as [|fuel]; try lia; cbn [type_size_loop]; rewrite Ht; cbn [bind].
  - pose proof (size_of_not_array t s Hs). rewrite Hs. split; [|lia]. intros _. destruct t; try reflexivity; contradiction.
  - destruct (size_link_facts t next Hl) as (Z1 & Z2 & Z3). specialize (IH fuel root n ltac:(lia)).
    rewrite Z1, Z2. destruct t; try contradiction; exact IH.
  - specialize (IH fuel root len ltac:(lia)). split; [lia|]. intros E. assert (a = 0%nat) as -> by lia.
    rewrite (proj1 IH eq_refl). f_equal. f_equal. ring.
Qed.

(** Types with at most one array dimension, fewer than 32 links and a size
    below 2^32 get their C size. *)
Theorem type_size_ok ts d a id s :
  csize ts d a id s -> (d < 32)%nat -> (a <= 1)%nat -> 0 <= s < 2 ^ 32 -> type_size ts id = Ok s.
Proof.
  intros H Hd Ha Hs. destruct (type_size_csize ts d a id s H 32 id 1 Hd) as [A B].
  assert (u32 s = s) as E by (unfold u32, wrap; now apply Z.mod_small).
  unfold type_size, MAX_RESOLVE_DEPTH. destruct a as [|[|a]]; [|..].
  - rewrite A by reflexivity. rewrite Z.mul_1_r, E. reflexivity.
  - rewrite B by reflexivity. now rewrite E.
  - lia.
Qed.

(** Chains of 32 or more links, in particular cyclic ones, are errors. *)
Definition size_next (t : btype) : option Z :=
  match t with
  | TArray _ elem _ _ => Some elem
  | _ => match size_of t with Some _ => None | None => btf_type t end
  end.
Inductive size_long (ts : list btype) : nat -> Z -> Prop :=
| size_long_0 id : size_long ts 0 id
| size_long_S d id t next : type_by_id ts id = Ok t -> size_next t = Some next -> size_long ts d next -> size_long ts (S d) id.

Lemma type_size_loop_long ts d id : size_long ts d id -> forall root n,
  type_size_loop d ts root id n = Err (BMaximumTypeDepthReached root).
Proof.
  induction 1 as [|d id t next Ht Hn _ IH]; intros root n; [reflexivity|].
  cbn [type_size_loop]. rewrite Ht. cbn [bind]. unfold size_next in Hn.
  destruct t; cbn [size_of btf_type] in *; try discriminate;
    injection Hn as <-; apply IH.
Qed.

Theorem type_size_long ts id : size_long ts 32 id -> type_size ts id = Err (BMaximumTypeDepthReached id).
Proof. intros H. now apply type_size_loop_long. Qed.

(** * Compatibility of a type with itself *)
(** Types made of the kinds C types are built from; [n] bounds the nesting of
    pointers, arrays and return types, [f] that of function parameters. *)
Fixpoint plain_loop (ts : list btype) (param : Z -> Prop) (n : nat) (id : Z) : Prop :=
  match n with
  | O => False
  | S n => exists r t, resolve_type ts id = Ok r /\ type_by_id ts r = Ok t /\
      match t with
      | TInt _ data => int_offset data = 0
      | TPtr h => plain_loop ts param n (h_third h)
      | TArray _ e _ _ => plain_loop ts param n e
      | TFuncProto h ps =>
          Forall (fun p => exists r', resolve_type ts (snd p) = Ok r' /\ param r') ps /\
          plain_loop ts param n (h_third h)
      | t => compat_leaf t = true
      end
  end.
Fixpoint plain (ts : list btype) (f : nat) (id : Z) : Prop :=
  plain_loop ts (match f with O => fun _ => False | S f => plain ts f end) MAX_RESOLVE_DEPTH id.

Lemma kind_eqb_refl k : kind_eqb k k = true.
Proof. now destruct k. Qed.
Lemma is_compatible_refl t : is_compatible t t = true.
Proof. unfold is_compatible. now rewrite kind_eqb_refl. Qed.

Lemma resolve_exists ts id r : resolve_type ts id = Ok r -> exists t, type_by_id ts id = Ok t.
Proof.
  intros H. apply resolve_type_ok in H. destruct H as (d & _ & Hs). inversion Hs; eauto.
Qed.

Lemma plain_exists ts p n id : plain_loop ts p n id -> exists t, type_by_id ts id = Ok t.
Proof.
  destruct n; [intros []|]. cbn [plain_loop]. intros (r & t & H & _). eapply resolve_exists. exact H.
Qed.

Lemma plain_loop_self ts (param : Z -> Prop) rec n : (forall id, param id -> rec id id = CRes (Ok true)) ->
  forall id, plain_loop ts param n id -> compat_loop rec ts ts n id id = CRes (Ok true).
Proof.
  intros Hrec. induction n as [|n IHn]; intros id H; [destruct H|].
  cbn [plain_loop] in H. destruct H as (r & t & Hr & Ht & Hm).
  cbn [compat_loop]. rewrite Hr, Ht, is_compatible_refl. cbn [negb].
  destruct t; cbn [compat_leaf] in *; try discriminate; try reflexivity.
  - apply IHn, Hm.
  - rewrite Hm. reflexivity.
  - apply IHn, Hm.
  - destruct Hm as [Hps Hret]. rewrite Nat.eqb_refl. cbn [negb].
    assert (compat_params rec ts ts params params = CRes (Ok true)) as ->; [|apply IHn, Hret].
    clear Ht. induction Hps as [|p ps Hp Hps IHps]; [reflexivity|].
    destruct Hp as (r' & Hr' & Hp). cbn [compat_params]. rewrite Hr', (Hrec r' Hp). exact IHps.
Qed.

Lemma plain_0 ts id : plain ts 0 id = plain_loop ts (fun _ => False) MAX_RESOLVE_DEPTH id.
Proof. reflexivity. Qed.
Lemma plain_S ts f id : plain ts (S f) id = plain_loop ts (plain ts f) MAX_RESOLVE_DEPTH id.
Proof. reflexivity. Qed.
Lemma compat_S stack lt tt lroot troot :
  compat (S stack) lt tt lroot troot =
  match type_by_id lt lroot, type_by_id tt troot with
  | Ok l, Ok t =>
      if negb (is_compatible l t) then CRes (Ok false)
      else compat_loop (compat stack lt tt) lt tt MAX_RESOLVE_DEPTH lroot troot
  | Err e, _ => CRes (Err e)
  | _, Err e => CRes (Err e)
  end.
Proof. reflexivity. Qed.

Lemma self_step ts (param : Z -> Prop) stack id :
  (forall id, param id -> compat stack ts ts id id = CRes (Ok true)) ->
  plain_loop ts param MAX_RESOLVE_DEPTH id -> compat (S stack) ts ts id id = CRes (Ok true).
Proof.
  intros Hp H. destruct (plain_exists _ _ _ _ H) as [t0 Ht0].
  rewrite compat_S, Ht0, is_compatible_refl. cbn [negb]. exact (plain_loop_self ts param _ _ Hp id H).
Qed.

Theorem plain_self f : forall ts id, plain ts f id -> compat (S f) ts ts id id = CRes (Ok true).
Proof.
  induction f as [|f IH]; intros ts id H.
  - rewrite plain_0 in H. refine (self_step ts _ 0 id _ H). intros ? [].
  - rewrite plain_S in H. exact (self_step ts _ (S f) id (IH ts) H).
Qed.

(** Such a type can be compared with any type of any other BTF: the check
    returns and does not abort. *)
Definition fine (c : cres) : Prop := c <> CStack /\ c <> CRes (Err BPanic).

Lemma resolve_not_panic ts id : resolve_type ts id <> Err BPanic.
Proof. intros H. apply resolve_type_err in H. destruct H as [(d & bad & _ & _ & H)|[_ H]]; discriminate. Qed.
Lemma type_by_id_not_panic ts id : type_by_id ts id <> Err BPanic.
Proof. destruct (type_by_id_cases ts id) as [[t H]|H]; rewrite H; discriminate. Qed.

Ltac fine_tac := split; congruence.

Lemma compat_params_fine ts tt (param : Z -> Prop) rec : (forall id tid, param id -> fine (rec id tid)) ->
  forall lp tp, Forall (fun p => exists r', resolve_type ts (snd p) = Ok r' /\ param r') lp ->
  fine (compat_params rec ts tt lp tp).
Proof.
  intros Hrec lp. induction lp as [|l lp IH]; intros tp H; cbn [compat_params]; [fine_tac|].
  destruct tp as [|t tp]; [fine_tac|]. inversion H as [|? ? (r' & Hr' & Hp) Hrest]; subst. rewrite Hr'.
  pose proof (resolve_not_panic tt (snd t)). destruct (resolve_type tt (snd t)) as [tid|e]; [|fine_tac].
  pose proof (Hrec r' tid Hp) as Hf. destruct (rec r' tid) as [|[[|]|e]]; try exact Hf. apply IH, Hrest.
Qed.

Lemma is_compatible_kinds l t : is_compatible l t = true -> compat_leaf l = false -> kind_of t = kind_of l.
Proof.
  unfold is_compatible. intros H Hl.
  assert (forall a b, kind_eqb a b = true -> b = a) as Hk.
  { intros a b. unfold kind_eqb. destruct a, b; cbn; intros E; try reflexivity; discriminate E. }
  apply orb_prop in H. destruct H as [H|H]; [now apply Hk|].
  destruct l; cbn [kind_of compat_leaf] in *; try discriminate.
Qed.

Lemma plain_loop_fine ts tt (param : Z -> Prop) rec n : (forall id tid, param id -> fine (rec id tid)) ->
  forall id tid, plain_loop ts param n id -> fine (compat_loop rec ts tt n id tid).
Proof.
  intros Hrec. induction n as [|n IHn]; intros id tid H; [destruct H|].
  cbn [plain_loop] in H. destruct H as (r & t & Hr & Ht & Hm).
  cbn [compat_loop]. rewrite Hr. pose proof (resolve_not_panic tt tid) as N1.
  destruct (resolve_type tt tid) as [r'|e]; [|fine_tac]. rewrite Ht.
  pose proof (type_by_id_not_panic tt r') as N2. destruct (type_by_id tt r') as [t'|e]; [|fine_tac].
  destruct (is_compatible t t') eqn:Ec; cbn [negb]; [|fine_tac].
  destruct (compat_leaf t) eqn:El; [fine_tac|].
  pose proof (is_compatible_kinds t t' Ec El) as Hk.
  destruct t; cbn [compat_leaf] in *; try discriminate; destruct t'; cbn [kind_of] in Hk; try discriminate.
  - apply IHn, Hm.
  - fine_tac.
  - apply IHn, Hm.
  - destruct Hm as [Hps Hret]. destruct (negb _); [fine_tac|].
    pose proof (compat_params_fine ts tt param rec Hrec params params0 Hps) as Hf.
    destruct (compat_params rec ts tt params params0) as [|[[|]|e]]; try exact Hf. apply IHn, Hret.
Qed.

Lemma fine_step ts tt (param : Z -> Prop) stack id tid :
  (forall id tid, param id -> fine (compat stack ts tt id tid)) ->
  plain_loop ts param MAX_RESOLVE_DEPTH id -> fine (compat (S stack) ts tt id tid).
Proof.
  intros Hp H. destruct (plain_exists _ _ _ _ H) as [t0 Ht0].
  rewrite compat_S, Ht0. pose proof (type_by_id_not_panic tt tid) as N.
  destruct (type_by_id tt tid) as [t|e]; [|fine_tac]. destruct (negb _); [fine_tac|].
  exact (plain_loop_fine ts tt param _ _ Hp id tid H).
Qed.

Theorem plain_fine f : forall ts tt id tid, plain ts f id -> fine (compat (S f) ts tt id tid).
Proof.
  induction f as [|f IH]; intros ts tt id tid H.
  - rewrite plain_0 in H. refine (fine_step ts tt _ 0 id tid _ H). intros ? ? [].
  - rewrite plain_S in H. exact (fine_step ts tt _ (S f) id tid (IH ts tt) H).
Qed.

(** Field compatibility is bounded; a field type is compatible with itself
    unless it is an integer with a bit offset, or of a kind no field has. *)
Fixpoint field_plain (b : btf) (n : nat) (id : Z) : Prop :=
  match n with
  | O => False
  | S n => exists r t, resolve_type (b_types b) id = Ok r /\ type_by_id (b_types b) r = Ok t /\
      match t with
      | TStruct _ _ | TUnion _ _ _ | TFloat _ | TPtr _ => True
      | TFwd _ | TEnum _ _ | TEnum64 _ _ => exists s, type_name b t = Ok s
      | TInt _ data => int_offset data = 0
      | TArray _ e _ _ => field_plain b n e
      | _ => False
      end
  end.

Theorem fields_self b n : forall id, field_plain b n id -> fields_loop n b b id id = Ok true.
Proof.
  induction n as [|n IH]; intros id H; [destruct H|]. cbn [field_plain] in H.
  destruct H as (r & t & Hr & Ht & Hm). cbn [fields_loop]. rewrite Hr. cbn [bind]. rewrite Ht. cbn [bind].
  destruct (is_composite t) eqn:Ec; [reflexivity|]. cbn [andb]. rewrite is_compatible_refl. cbn [negb].
  destruct t; cbn [is_composite] in *; try discriminate; try contradiction; try reflexivity.
  - destruct Hm as [s ->]. cbn [bind]. now rewrite str_eqb_refl.
  - now rewrite Hm.
  - destruct Hm as [s ->]. cbn [bind]. now rewrite str_eqb_refl.
  - apply IH, Hm.
  - destruct Hm as [s ->]. cbn [bind]. now rewrite str_eqb_refl.
Qed.

Lemma resolve_type_kinds ts id t : type_by_id ts id = Ok t ->
  (In (kind_of t) [KTypedef; KConst; KVolatile; KRestrict; KTypeTag] -> resolve_type ts id <> Ok id) /\
  (~ In (kind_of t) [KTypedef; KConst; KVolatile; KRestrict; KTypeTag] -> resolve_type ts id = Ok id).
Proof.
  intros Ht. split.
  - intros Hk H. destruct (resolve_type_idem _ _ _ H) as (_ & t' & E & M).
    assert (t' = t) as -> by congruence. destruct t; cbn in Hk, M; try discriminate; intuition discriminate.
  - intros Hk. unfold resolve_type, MAX_RESOLVE_DEPTH. generalize 31%nat. intros f. cbn [resolve_loop].
    rewrite Ht. cbn [bind]. destruct t; cbn in Hk; cbn [modifier]; try reflexivity; exfalso; apply Hk; tauto.
Qed.
