(** The tree the kernel builds. *)
From Coq Require Import String.
From Verif Require Import Base Text TextParse LogModel TextSplit CpioModel CpioSpec CpioProofs CpioProofs2.
Local Open Scope Z_scope.

Definition fill (t : tree) (l : list (path * node)) : tree := fold_left (fun t '(p, n) => place t p n) l t.
Lemma fill_app l1 l2 t : fill t (l1 ++ l2) = fill (fill t l1) l2.
Proof. apply fold_left_app. Qed.
(** Entries come after their parents. *)
Definition after_parents (l : list (path * node)) : Prop :=
  forall a p n b, l = a ++ (p, n) :: b -> p <> [] /\ (removelast p = [] \/ exists m, In (removelast p, NDir m) a).
Lemma filled l : NoDup (map fst l) -> after_parents l ->
  fill bare l [] = Some (NDir 493) /\ forall q n, q <> [] -> (fill bare l q = Some n <-> In (q, n) l).
Proof.
  induction l as [|(p, n) l IH] using rev_ind; intros ND AP.
  - split; [reflexivity|]. intros q n Hq. cbn [fill fold_left In]. unfold bare. destruct (path_dec q []); [contradiction|]. split; [discriminate|intros []].
  - rewrite map_app in ND. cbn [map fst] in ND. pose proof (NoDup_remove_1 _ _ _ ND) as ND1. pose proof (NoDup_remove_2 _ _ _ ND) as ND2. rewrite app_nil_r in ND1, ND2.
    destruct IH as (R & IH); [exact ND1| |].
    { intros a p' n' b E. apply (AP a p' n' (b ++ [(p, n)])). rewrite E, <- app_assoc. reflexivity. }
    destruct (AP l p n [] eq_refl) as (Hp & Par). rewrite fill_app. cbn [fill fold_left]. fold (fill bare l). unfold place.
    assert (X : exists m, fill bare l (removelast p) = Some (NDir m)).
    { destruct Par as [-> | (m & I)]; [eauto|]. exists m. destruct (removelast p) as [|x r] eqn:E.
      - exfalso. apply in_split in I as (a & b & El). destruct (AP a [] (NDir m) (b ++ [(p, n)])) as (N & _); [rewrite El, <- app_assoc; reflexivity|contradiction].
      - apply IH; [discriminate|exact I]. }
    destruct X as (m & ->).
    assert (Y : fill bare l p = None).
    { destruct (fill bare l p) as [k|] eqn:E; [|reflexivity]. apply (IH p k Hp) in E. exfalso. apply ND2. apply (in_map fst) in E. exact E. }
    rewrite Y. cbn [same_kind]. split.
    + unfold put. destruct (path_dec [] p) as [<- |_]; [contradiction|exact R].
    + intros q k Hq. unfold put. destruct (path_dec q p) as [-> |Ne].
      * rewrite in_app_iff. split.
        -- intros E. apply some_inj in E. subst k. right. left. reflexivity.
        -- intros [I|[E|[]]].
           ++ exfalso. apply ND2. apply (in_map fst) in I. exact I.
           ++ apply pair_equal_spec in E as [_ ->]. reflexivity.
      * rewrite (IH q k Hq), in_app_iff. split; [auto|]. intros [I|[E|[]]]; [exact I|]. apply pair_equal_spec in E as [E _]. congruence.
Qed.

(** Calls of the two kinds. *)
Definition call_node (c : call) (d : str) : node := match c_source c with Some _ => NFile (c_mode c) d | None => NDir (c_mode c) end.
Definition usual (c : call) : Prop :=
  (c_mode c = 420 \/ c_mode c = 493) /\ match c_source c with Some _ => c_type c = 32768 /\ c_nlink c = 1 | None => c_type c = 16384 /\ c_nlink c = 2 end.
Lemma usual_ok c : usual c -> call_ok c.
Proof.
  unfold usual, call_ok, in32. destruct (c_source c); intros ([-> | ->] & -> & ->); cbv; repeat split; congruence.
Qed.
Lemma usual_unpack c : usual c -> forall t ino mtime d, unpack_one t (item_of ino c mtime d) = place t (path_of (c_name c)) (call_node c d).
Proof.
  unfold usual, unpack_one, item_of, call_node. intros H t ino mtime d. cbn [it_mode it_name it_data].
  destruct (c_source c); destruct H as ([-> | ->] & -> & _); reflexivity.
Qed.
Definition plan (ds : list (call * str)) : list (path * node) := map (fun '(c, d) => (path_of (c_name c), call_node c d)) ds.
Lemma unpack_plan t : forall ds ino tr, Forall usual (map fst ds) -> fold_left unpack_one (items_all ino ds t) tr = fill tr (plan ds).
Proof.
  induction ds as [|(c, d) ds IH]; intros ino tr F; [reflexivity|]. cbn [map fst] in F. cbn [items_all fold_left plan map fill].
  rewrite (usual_unpack c (Forall_inv F)). exact (IH (ino + 1) _ (Forall_inv_tail F)).
Qed.
Lemma has_data_one c d d' : has_data c d -> has_data c d' -> d' = d.
Proof. unfold has_data. destruct (c_source c) as [s|]; [|congruence]. intros (_ & A & _) (_ & B & _). rewrite A in B. apply some_inj in B. congruence. Qed.
Lemma plan_in ds : Forall (fun '(c, d) => has_data c d) ds -> forall p n,
  In (p, n) (plan ds) <-> exists c d, In c (map fst ds) /\ has_data c d /\ p = path_of (c_name c) /\ n = call_node c d.
Proof.
  intros F p n. unfold plan. rewrite in_map_iff. split.
  - intros ((c, d) & E & I). apply pair_equal_spec in E as [<- <-]. exists c, d. split; [exact (in_map fst _ _ I)|]. rewrite Forall_forall in F. split; [exact (F _ I)|auto].
  - intros (c & d & I & D & -> & ->). apply in_map_iff in I as ((c', d') & E & I). cbn [fst] in E. subst c'. exists (c, d'). split; [|exact I].
    rewrite Forall_forall in F. pose proof (F _ I) as D'. cbn beta iota in D'. rewrite (has_data_one c d d' D D'). reflexivity.
Qed.

(** * Paths *)

Definition piece (n : str) : Prop := n <> [] /\ Forall (fun c => c <> 47) n.
Lemma component_piece n : component n -> piece n.
Proof. intros (A & B & _). split; [exact A|]. apply Forall_forall. intros x I ->. contradiction. Qed.
Lemma pieces_filter l : Forall piece l -> filter (fun c : str => match c with [] => false | _ => true end) l = l.
Proof. induction 1 as [|x l (Hx & _) _ IH]; [reflexivity|]. cbn [filter]. destruct x; [contradiction|]. rewrite IH. reflexivity. Qed.
Lemma path_join_pieces l : l <> [] -> Forall piece l -> path_of (join 47 l) = l.
Proof.
  intros N F. unfold path_of. rewrite split_at_join; [apply pieces_filter; exact F|exact N|]. eapply Forall_impl; [|exact F]. intros x (_ & H). exact H.
Qed.
Lemma path_two a b : piece a -> piece b -> path_of (path_join a b) = [a; b].
Proof. intros A B. change (path_join a b) with (join 47 [a; b]). apply path_join_pieces; [discriminate|]. constructor; [exact A|constructor; [exact B|constructor]]. Qed.
Lemma path_modules rel : Forall component rel -> path_of (path_join (txt "lib/modules") (join 47 rel)) = txt "lib" :: txt "modules" :: rel.
Proof.
  intros F. destruct rel as [|x r]; [reflexivity|].
  change (path_join (txt "lib/modules") (join 47 (x :: r))) with (join 47 (txt "lib" :: txt "modules" :: x :: r)).
  apply path_join_pieces; [discriminate|]. constructor; [|constructor].
  1,2: split; [discriminate|]; apply Forall_forall; intros c I ->; cbn in I; repeat (destruct I as [I|I]; [discriminate I|]); exact I.
  eapply Forall_impl; [|exact F]. exact component_piece.
Qed.
