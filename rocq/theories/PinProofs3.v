(** Where maps are pinned. *)
From Coq Require Import String.
From Verif Require Import Base Text PinModel PinSpec PinProofs.
Local Open Scope Z_scope.

Lemma find_path l n p : NoDup (map fst l) -> In (n, p) l -> find (fun x : list Z * list Z => str_eqb (fst x) n) l = Some (n, p).
Proof.
  induction l as [|[a b] l IH]; intros N I; [destruct I|]. cbn [find fst map] in *. apply NoDup_cons_iff in N as [N1 N2]. destruct I as [E|I].
  - injection E as -> ->. now rewrite str_eqb_refl.
  - destruct (str_eqb a n) eqn:E; [|now apply IH]. apply str_eqb_eq in E. subst a. exfalso. apply N1. apply (in_map fst) in I. exact I.
Qed.
Lemma find_no_path l n : (forall p, ~ In (n, p) l) -> find (fun x : list Z * list Z => str_eqb (fst x) n) l = None.
Proof.
  intros H. destruct (find _ l) as [[a b]|] eqn:F; [exfalso|reflexivity]. apply find_some in F as [I E]. cbn [fst] in E. apply str_eqb_eq in E. subst a. exact (H b I).
Qed.
Lemma join_plain d n : relative n -> d <> [] -> last d 0 <> 47 -> path_join d n = d ++ [47] ++ n.
Proof.
  intros R D L. unfold path_join. assert (match d with [] => n | _ => if last d 0 =? 47 then d ++ n else d ++ 47 :: n end = d ++ [47] ++ n) as E.
  { destruct d; [contradiction|]. destruct (Z.eqb_spec (last (z :: d) 0) 47); [contradiction|reflexivity]. }
  destruct n as [|c n]; [exact E|]. unfold relative in R. cbn [hd] in R. destruct c as [|c|c]; try exact E.
  do 6 (destruct c as [c|c|]; try exact E). exfalso. apply R. reflexivity.
Qed.
Lemma belongs_path l o r : one_path l -> relative (o_name o) -> belongs l o r -> pin_path l o = r.
Proof.
  intros N R B. unfold pin_path. destruct B as [p I|d H P D D1 D2|H P D|H P].
  - now rewrite (find_path _ _ _ N I).
  - rewrite (find_no_path _ _ H), P, D. now rewrite join_plain.
  - rewrite (find_no_path _ _ H), P, D. rewrite join_plain; [reflexivity|exact R|discriminate|vm_compute; discriminate].
  - now rewrite (find_no_path _ _ H), P.
Qed.

Lemma pins_create name sh e w r u : create name sh e w = (r, u) -> w_pins u = w_pins w.
Proof.
  unfold create, create_map. destruct (has_nul name); [intros Q; now apply pair_equal_spec in Q as [_ <-]|]. destruct (ask w) as [f t] eqn:E. apply ask_keeps in E as (_ & _ & E & _).
  destruct f; [|unfold new_map]; intros Q; apply pair_equal_spec in Q as [_ <-]; exact E.
Qed.
Lemma pins_inner name sh inner e w r u : create_with_inner name sh inner e w = (r, u) -> w_pins u = w_pins w.
Proof.
  unfold create_with_inner. destruct inner as [i|]; [|apply pins_create]. destruct (create (name ++ txt ".inner") i CreatedInner w) as [[j|x] t] eqn:E; apply pins_create in E; intros Q.
  - apply pins_create in Q. congruence.
  - now apply pair_equal_spec in Q as [_ <-].
Qed.
Lemma pins_finalize o id w r u : finalize o id w = (r, u) -> w_pins u = w_pins w.
Proof.
  unfold finalize. destruct (match o_data o with [] => (true, w) | _ => update_elem id (o_data o) w end) as [b t] eqn:E.
  assert (w_pins t = w_pins w) as X.
  { destruct (o_data o); [now apply pair_equal_spec in E as [_ <-]|]. unfold update_elem in E. destruct (ask w) as [f v] eqn:A. apply ask_keeps in A as (_ & _ & A & _).
    destruct (map_at id v) as [k|]; [destruct (f || k_frozen k)|]; apply pair_equal_spec in E as [_ <-]; exact A. }
  destruct b; [|intros Q; now apply pair_equal_spec in Q as [_ <-]]. destruct (o_rodata o); [|intros Q; now apply pair_equal_spec in Q as [_ <-]].
  unfold freeze. destruct (ask t) as [f v] eqn:A. apply ask_keeps in A as (_ & _ & A & _). destruct (map_at id v) as [k|]; [destruct (f || k_frozen k)|]; intros Q; apply pair_equal_spec in Q as [_ <-]; cbn; congruence.
Qed.
Lemma pins_nowhere l o w r u : pin_path l o = None -> load_map l o w = (r, u) -> w_pins u = w_pins w.
Proof.
  intros P. unfold load_map. rewrite P. cbv zeta. generalize (match o_inner o with Some i => i | None => None end) as inner. intros inner.
  destruct (o_inner o) as [[i|]|]; try (intros Q; now apply pair_equal_spec in Q as [_ <-]);
  (destruct (create_with_inner (o_name o) (o_shape o) inner (Created None) w) as [[id|x] t] eqn:E; apply pins_inner in E; [|intros Q; now apply pair_equal_spec in Q as [_ <-]]);
  (destruct (finalize o id t) as [[[]|x] v] eqn:F; apply pins_finalize in F; intros Q; apply pair_equal_spec in Q as [_ <-]; congruence).
Qed.
Theorem load_where l o w r id u : sound w -> one_path l -> relative (o_name o) -> belongs l o r -> load_map l o w = (Ok id, u) ->
  match r with Some p => In (p, id) (w_pins u) | None => w_pins u = w_pins w end.
Proof.
  intros S N R B L. pose proof (belongs_path l o r N R B) as P. destruct r as [p|].
  - apply load_map_spec in L as [_ L]; [|exact S]. destruct (L id eq_refl) as (_ & L2 & _). exact (L2 p P).
  - exact (pins_nowhere l o w _ u P L).
Qed.
