(** Proofs about the generated bindings of helpers. *)
From Coq Require Import String.
From Verif Require Import Base Text TextSplit WrapModel WrapTable WrapSpec.
Open Scope Z_scope.

(** Passing on all parameters passes on all values. *)
Lemma values_all ps args : NoDup (map fst ps) -> length args = length ps -> values (map fst ps) ps args = Some args.
Proof.
  assert (G : forall ns qs bs, (forall n, In n ns -> ~ In n (map fst qs)) -> forall ps args, length bs = length qs ->
    values ns (qs ++ ps) (bs ++ args) = values ns ps args).
  { induction ns as [|n ns IH]; intros qs bs D qs' bs' L; cbn [values]; [reflexivity|].
    rewrite IH; [|intros m I; apply D; now right|exact L]. replace (value_of n (qs ++ qs') (bs ++ bs')) with (value_of n qs' bs'); [reflexivity|].
    assert (N : ~ In n (map fst qs)) by (apply D; now left). clear D IH. revert bs L. induction qs as [|[m t] qs IH]; intros [|b bs] L; try discriminate L; [reflexivity|].
    cbn [app value_of]. destruct (str_eqb n m) eqn:E; [apply str_eqb_eq in E; subst; exfalso; apply N; now left|].
    apply IH; [intros I; apply N; now right|now inversion L]. }
  revert args. induction ps as [|[n t] ps IH]; intros [|a args] N L; try discriminate L; [reflexivity|].
  cbn [map fst values value_of]. rewrite str_eqb_refl. inversion N as [|? ? X Y]. subst.
  change ((n, t) :: ps) with ([(n, t)] ++ ps). change (a :: args) with ([a] ++ args).
  rewrite (G (map fst ps) [(n, t)] [a]); [|intros m I [E|[]]; cbn in E; subst; contradiction|reflexivity].
  rewrite IH; [reflexivity|exact Y|now inversion L].
Qed.

Lemma calls_all w args : w_args w = map fst (w_params w) -> NoDup (map fst (w_params w)) -> length (w_fun w) = length (w_params w) ->
  length args = length (w_params w) -> calls w args = Some (w_number w, args).
Proof.
  intros A N F L. unfold calls. rewrite L, Nat.eqb_refl, A, values_all, F, L, Nat.eqb_refl by assumption. reflexivity.
Qed.

(** The table, checked entry by entry. *)
Definition strings_eqb (a b : list (list Z)) : bool := if list_eq_dec (list_eq_dec Z.eq_dec) a b then true else false.
Definition pair_dec (a b : list Z * list Z) : {a = b} + {a <> b}.
Proof. decide equality; apply (list_eq_dec Z.eq_dec). Defined.
Definition nodup_b (l : list (list Z)) : bool := if list_eq_dec (list_eq_dec Z.eq_dec) (nodup (list_eq_dec Z.eq_dec) l) l then true else false.
Definition checked (w : wrapper) : bool :=
  match in_kernel (w_name w) with
  | Some (k, a) => (length (w_params w) =? a)%nat && (a <=? 5)%nat && (w_number w =? k) && strings_eqb (w_args w) (map fst (w_params w)) &&
                   nodup_b (map fst (w_params w)) && (if list_eq_dec pair_dec (w_fun w) (w_params w) then true else false) && str_eqb (w_fun_ret w) (w_ret w)
  | None => false
  end.
Lemma checked_faithful w : checked w = true -> faithful w.
Proof.
  unfold checked, faithful. destruct (in_kernel (w_name w)) as [[k a]|]; [|discriminate]. rewrite !Bool.andb_true_iff.
  intros ((((((A & B) & C) & D) & E) & F) & G). apply Nat.eqb_eq in A. apply Nat.leb_le in B. apply Z.eqb_eq in C. apply str_eqb_eq in G.
  unfold strings_eqb in D. destruct (list_eq_dec (list_eq_dec Z.eq_dec) (w_args w) (map fst (w_params w))) as [D'|]; [|discriminate D].
  destruct (list_eq_dec pair_dec (w_fun w) (w_params w)) as [F'|]; [|discriminate F].
  unfold nodup_b in E. destruct (list_eq_dec (list_eq_dec Z.eq_dec) _ _) as [E'|] in E; [|discriminate E].
  exists k, a. repeat (apply conj; auto). intros args L. subst k.
  apply calls_all; [exact D'| |now rewrite F'|congruence]. rewrite <- E'. apply NoDup_nodup.
Qed.

Lemma table_checked : forallb checked helpers_rs = true.
Proof. vm_compute. reflexivity. Qed.

Lemma table_faithful w : In w helpers_rs -> faithful w.
Proof. intros I. apply checked_faithful. exact (proj1 (forallb_forall checked helpers_rs) table_checked w I). Qed.

(** Every helper but trace_printk has its function, once. *)
Lemma table_complete : map w_name helpers_rs = filter (fun n => negb (str_eqb n (txt "bpf_trace_printk"))) (map (fun p => (txt "bpf_" ++ fst p)%list) mapper).
Proof. vm_compute. reflexivity. Qed.

Lemma mapper_names : NoDup (map fst mapper).
Proof.
  assert (E : nodup (list_eq_dec Z.eq_dec) (map fst mapper) = map fst mapper) by (vm_compute; reflexivity).
  rewrite <- E. apply NoDup_nodup.
Qed.

(** The generator. *)
Definition made (k : Z) (d : decl) : helper :=
  {| h_ident := d_name d; h_inputs := map (fun p => (Some (fst p), snd p)) (d_params d); h_output := d_ret d; h_index := k |}.

Lemma module_none at_ l acc : (forall n t, In (FStatic n t) l -> starts_with (txt "bpf_") n = false) -> extract_module at_ l acc = Ok acc.
Proof.
  induction l as [|[n t|t] l IH]; intros H; cbn [extract_module]; [reflexivity| |].
  - rewrite (H n t) by now left. apply IH. intros m u I. apply (H m u). now right.
  - apply IH. intros m u I. apply (H m u). now right.
Qed.

Lemma module_decl at_ d acc : starts_with (txt "bpf_") (d_name d) = true ->
  extract_module at_ [static_of d] acc = Ok (fst acc ++ [at_], snd acc ++ [made (Z.of_nat (length (snd acc)) + 1) d])%list.
Proof. intros S. unfold static_of. cbn [extract_module]. rewrite S. reflexivity. Qed.

Fixpoint places (at_ : nat) (items : list item) : list nat :=
  match items with
  | [] => []
  | IForeign [FStatic n t] :: r => if starts_with (txt "bpf_") n then at_ :: places (S at_) r else places (S at_) r
  | _ :: r => places (S at_) r
  end.

Lemma places_none at_ l r : (forall n t, In (FStatic n t) l -> starts_with (txt "bpf_") n = false) -> places at_ (IForeign l :: r) = places (S at_) r.
Proof.
  intros H. cbn [places]. destruct l as [|[n t|t] [|y l]]; try reflexivity. rewrite (H n t) by now left. reflexivity.
Qed.

Lemma extract_contains items ds : contains items ds -> Forall proper ds -> forall at_ acc,
  extract_from at_ items acc =
    Ok (fst acc ++ places at_ items, snd acc ++ map (fun p => made (fst p) (snd p)) (numbered (Z.of_nat (length (snd acc)) + 1) ds))%list.
Proof.
  induction 1 as [|d r ds C IH|t r ds C IH|l r ds N C IH]; intros P at_ [ix hs]; cbn [extract_from fst snd].
  - cbn [places numbered map]. now rewrite !app_nil_r.
  - inversion P as [|? ? [S _] P']. subst. rewrite module_decl by exact S. cbn [bind fst snd]. rewrite IH by exact P'. cbn [fst snd].
    unfold static_of. cbn [places numbered map fst snd]. rewrite S, <- !app_assoc. cbn [app].
    rewrite app_length. cbn [length]. replace (Z.of_nat (length hs + 1) + 1) with (Z.of_nat (length hs) + 1 + 1) by lia. reflexivity.
  - rewrite IH by exact P. reflexivity.
  - rewrite module_none by exact N. cbn [bind]. rewrite IH by exact P. rewrite places_none by exact N. reflexivity.
Qed.

Lemma named_all ps : mapM named (map (fun p : list Z * list Z => (Some (fst p), snd p)) ps) = Ok ps.
Proof. induction ps as [|[n t] ps IH]; [reflexivity|]. cbn [map mapM named fst snd bind]. rewrite IH. reflexivity. Qed.

Lemma expand_made k d : proper d -> exists w, expand_helper (made k d) = Ok w /\ wants k d w.
Proof.
  intros [_ N]. unfold expand_helper, made. cbn [h_inputs h_ident h_output h_index]. rewrite named_all. cbn [bind].
  eexists. split; [reflexivity|]. unfold wants. cbn [w_name w_params w_ret w_fun w_fun_ret]. repeat (apply conj; [reflexivity|]).
  intros args L. apply calls_all; auto.
Qed.

Lemma expand_all l : Forall (fun p => proper (snd p)) l ->
  exists ws, mapM expand_helper (map (fun p => made (fst p) (snd p)) l) = Ok ws /\ Forall2 (fun p w => wants (fst p) (snd p) w) l ws.
Proof.
  induction l as [|[k d] l IH]; intros P; [exists []; split; [reflexivity|constructor]|].
  inversion P as [|? ? X Y]. subst. destruct (IH Y) as (ws & E & F). destruct (expand_made k d X) as (w & E1 & F1).
  exists (w :: ws). cbn [map mapM fst snd]. rewrite E1. cbn [bind]. rewrite E. split; [reflexivity|constructor; assumption].
Qed.

Lemma filter_made l : filter (fun h => negb (str_eqb (h_ident h) (txt "bpf_trace_printk"))) (map (fun p => made (fst p) (snd p)) l) =
  map (fun p => made (fst p) (snd p)) (filter (fun p => negb (printk (snd p))) l).
Proof.
  induction l as [|[k d] l IH]; [reflexivity|]. cbn [map filter fst snd made h_ident]. unfold printk at 1.
  destruct (str_eqb (d_name d) (txt "bpf_trace_printk")); cbn [negb map]; now rewrite IH.
Qed.

Lemma numbered_proper k ds : Forall proper ds -> Forall (fun p => proper (snd p)) (numbered k ds).
Proof. revert k. induction ds as [|d ds IH]; intros k P; [constructor|]. inversion P. subst. constructor; [assumption|now apply IH]. Qed.

(** Blanking. *)
Lemma blank_shift l x r : (forall i, In i l -> (0 < i)%nat) -> blank l (x :: r) = x :: blank (map pred l) r.
Proof.
  revert r. induction l as [|i l IH]; intros r P; [reflexivity|]. cbn [blank map]. specialize (P i (or_introl eq_refl)) as Q.
  destruct i as [|i]; [lia|]. cbn [upd pred]. apply IH. intros j J. apply P. now right.
Qed.

Lemma places_shift at_ items : places (S at_) items = map S (places at_ items).
Proof.
  revert at_. induction items as [|[l|t|] r IH]; intros at_; cbn [places map]; [reflexivity| |apply IH|apply IH].
  destruct l as [|[n t|t] [|y l]]; try apply IH. destruct (starts_with (txt "bpf_") n); [cbn [map]; now rewrite IH|apply IH].
Qed.

Lemma pred_shift l : map pred (map S l) = l.
Proof. rewrite map_map. cbn [pred]. apply map_id. Qed.
Lemma shift_pos l i : In i (map S l) -> (0 < i)%nat.
Proof. intros I. apply in_map_iff in I as (j & <- & _). lia. Qed.

Lemma blank_left items ds : contains items ds -> Forall proper ds -> left_over items (blank (places 0 items) items).
Proof.
  induction 1 as [|d r ds C IH|t r ds C IH|l r ds N C IH]; intros P.
  - constructor.
  - inversion P as [|? ? [S Q] P']. subst. unfold static_of at 2. unfold static_of at 2. cbn [places]. rewrite S. cbn [blank upd].
    rewrite places_shift, blank_shift by apply shift_pos. rewrite pred_shift. constructor; [now apply IH|exact S].
  - cbn [places]. rewrite places_shift, blank_shift by apply shift_pos. rewrite pred_shift. constructor. now apply IH.
  - rewrite places_none by exact N. rewrite places_shift, blank_shift by apply shift_pos. rewrite pred_shift. constructor; [exact N|now apply IH].
Qed.

Lemma codegen_right items ds : contains items ds -> Forall proper ds ->
  exists ws left, codegen items = Ok (ws, left) /\
    Forall2 (fun p w => wants (fst p) (snd p) w) (filter (fun p => negb (printk (snd p))) (numbered 1 ds)) ws /\ left_over items left.
Proof.
  intros C P. unfold codegen, extract_helpers. rewrite (extract_contains items ds C P). cbn [fst snd app length bind]. change (Z.of_nat 0 + 1) with 1.
  unfold expand_helpers. rewrite filter_made.
  destruct (expand_all (filter (fun p => negb (printk (snd p))) (numbered 1 ds))) as (ws & E & F).
  { apply Forall_forall. intros p I. apply filter_In in I as [I _]. exact (proj1 (Forall_forall _ _) (numbered_proper 1 ds P) p I). }
  rewrite E. cbn [bind]. exists ws. eexists. split; [reflexivity|]. split; [exact F|]. now apply (blank_left items ds).
Qed.

(** Headers in the kernel's order. *)
Lemma bpf_inj a b : (txt "bpf_" ++ a = txt "bpf_" ++ b)%list -> a = b.
Proof. apply app_inv_head. Qed.

Lemma number_at l : forall k i m a, NoDup (map fst l) -> nth_error l i = Some (m, a) -> number_from k (txt "bpf_" ++ m) l = Some (k + Z.of_nat i, a).
Proof.
  induction l as [|[m' a'] l IH]; intros k [|i] m a N H; cbn [nth_error] in H; try discriminate H.
  - apply some_inj in H. inversion H. subst. cbn [number_from]. rewrite str_eqb_refl. now rewrite Z.add_0_r.
  - cbn [map fst] in N. inversion N as [|? ? X Y]. subst. cbn [number_from].
    destruct (str_eqb _ _) eqn:E.
    + apply str_eqb_eq, bpf_inj in E. subst. exfalso. apply X. apply in_map_iff. exists (m', a). split; [reflexivity|]. exact (nth_error_In _ _ H).
    + rewrite (IH (k + 1) i m a Y H). f_equal. f_equal. lia.
Qed.

Lemma numbered_nth ds : forall k p, In p (numbered k ds) -> exists i, nth_error ds i = Some (snd p) /\ fst p = k + Z.of_nat i.
Proof.
  induction ds as [|d ds IH]; intros k p I; [contradiction|]. destruct I as [<-|I].
  - exists 0%nat. cbn. split; [reflexivity|lia].
  - destruct (IH _ _ I) as (i & A & B). exists (S i). cbn [nth_error]. split; [exact A|lia].
Qed.

Lemma arity_small i m a : nth_error mapper i = Some (m, a) -> (a <= 5)%nat.
Proof.
  intros H. apply nth_error_In in H.
  assert (C : forallb (fun p => (snd p <=? 5)%nat) mapper = true) by (vm_compute; reflexivity).
  exact (proj1 (Nat.leb_le _ _) (proj1 (forallb_forall _ _) C (m, a) H)).
Qed.

Lemma ordered_faithful ds p w : follows_kernel ds -> In p (numbered 1 ds) -> wants (fst p) (snd p) w -> faithful w.
Proof.
  intros [n F] I (A & B & C & D & E & W). destruct (numbered_nth ds 1 p I) as (i & N & K).
  assert (M : nth_error (map (fun d => (d_name d, length (d_params d))) ds) i = Some (d_name (snd p), length (d_params (snd p))))
    by (rewrite nth_error_map, N; reflexivity).
  rewrite F, nth_error_map in M. destruct (nth_error (firstn n mapper) i) as [[m a]|] eqn:G; [|discriminate M].
  cbn [option_map fst snd] in M. apply some_inj in M. apply pair_equal_spec in M as [M1 M2].
  assert (G' : nth_error mapper i = Some (m, a)).
  { assert (L : (i < n)%nat).
    { destruct (Nat.lt_ge_cases i n) as [LT|GE]; [exact LT|]. exfalso.
      assert (X : nth_error (firstn n mapper) i = None) by (apply nth_error_None; rewrite firstn_length; lia). congruence. }
    rewrite nth_error_firstn in G. destruct (i <? n)%nat eqn:LT; [exact G|]. apply Nat.ltb_ge in LT. lia. }
  exists (fst p), a. rewrite A, <- M1. unfold in_kernel. rewrite (number_at mapper 1 i m a mapper_names G'), K.
  split; [reflexivity|]. rewrite B, <- M2. split; [reflexivity|]. split; [exact (arity_small i m a G')|].
  split; [rewrite D; congruence|]. split; [congruence|]. intros args L. rewrite <- K. apply W. congruence.
Qed.

Lemma codegen_ordered items ds : contains items ds -> Forall proper ds -> follows_kernel ds ->
  exists ws left, codegen items = Ok (ws, left) /\ Forall faithful ws /\
    map w_name ws = filter (fun n => negb (str_eqb n (txt "bpf_trace_printk"))) (map d_name ds) /\ left_over items left.
Proof.
  intros C P F. destruct (codegen_right items ds C P) as (ws & left & E & W & L). exists ws, left. split; [exact E|].
  assert (IN : forall p, In p (filter (fun p => negb (printk (snd p))) (numbered 1 ds)) -> In p (numbered 1 ds)) by (intros p I; now apply filter_In in I).
  split; [|split; [|exact L]].
  - clear E L. revert IN W. generalize (filter (fun p : Z * decl => negb (printk (snd p))) (numbered 1 ds)). intros l IN W.
    induction W as [|p w l ws X W IH]; constructor; [apply (ordered_faithful ds p w F); [apply IN; now left|exact X]|].
    apply IH. intros q I. apply IN. now right.
  - transitivity (map (fun p => d_name (snd p)) (filter (fun p => negb (printk (snd p))) (numbered 1 ds))).
    + clear E L IN. induction W as [|p w l ws (A & _) W IH]; [reflexivity|]. cbn [map]. now rewrite A, IH.
    + generalize 1 as k. clear. induction ds as [|d ds IH]; intros k; [reflexivity|]. cbn [numbered filter snd map]. unfold printk at 1.
      destruct (str_eqb (d_name d) (txt "bpf_trace_printk")); cbn [negb map snd]; [apply IH|]. now rewrite IH.
Qed.
