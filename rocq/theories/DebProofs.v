(** Unpacking the packages of a kernel. *)
From Coq Require Import String.
From Verif Require Import Base Text TextParse LogModel TextSplit KmodModel KmodProofs UbuntuProofs DebModel DebSpec.
Local Open Scope Z_scope.

(** * Paths *)

Lemma part_plain n : plain_name n -> part n = [Normal n].
Proof.
  intros (A & B & C & _). unfold part. destruct n as [|x [|y [|z n]]].
  - contradiction.
  - assert (x <> 46) by (intros ->; apply B; reflexivity). destruct x as [|p|p]; try reflexivity. do 6 (try (destruct p as [p|p|]; try reflexivity)). lia.
  - assert (~ (x = 46 /\ y = 46)) by (intros (-> & ->); apply C; reflexivity). destruct (Z.eq_dec x 46) as [-> |X].
    + assert (y <> 46) by lia. clear - H0. destruct y as [|p|p]; try reflexivity. do 6 (try (destruct p as [p|p|]; try reflexivity)). lia.
    + clear - X. destruct x as [|p|p]; try reflexivity. do 6 (try (destruct p as [p|p|]; try reflexivity)). lia.
  - clear. destruct x as [|p|p]; try reflexivity. do 6 (try (destruct p as [p|p|]; try reflexivity)). destruct y as [|p|p]; try reflexivity. do 6 (try (destruct p as [p|p|]; try reflexivity)).
Qed.
Lemma parts_plain l : Forall plain_name l -> flat_map part l = map Normal l.
Proof. induction 1 as [|n l N _ IH]; [reflexivity|]. cbn [flat_map map]. rewrite (part_plain n N), IH. reflexivity. Qed.
Lemma plain_split l : Forall plain_name l -> Forall (Forall (fun c => c <> 47)) l.
Proof. intros F. eapply Forall_impl; [|exact F]. intros n (_ & _ & _ & N). apply Forall_forall. intros c I ->. contradiction. Qed.
Lemma join_snoc x l s : l <> [] -> join x (l ++ [s]) = join x l ++ x :: s.
Proof.
  induction l as [|a l IH]; intros H; [contradiction|]. destruct l as [|b l]; [reflexivity|].
  change (join x ((a :: b :: l) ++ [s])) with (a ++ x :: join x ((b :: l) ++ [s])). rewrite IH by discriminate.
  change (join x (a :: b :: l)) with (a ++ x :: join x (b :: l)). rewrite <- app_assoc. reflexivity.
Qed.
Lemma path_split names slash : names <> [] -> Forall plain_name names -> split_at 47 (path_of names slash) = txt "." :: names ++ (if slash then [[]] else []).
Proof.
  intros N F. assert (E : path_of names slash = join 47 (txt "." :: names ++ (if slash then [[]] else []))).
  { unfold path_of. destruct names as [|a names]; [contradiction|]. destruct slash.
    - change (join 47 (txt "." :: (a :: names) ++ [[]])) with (txt "." ++ 47 :: join 47 ((a :: names) ++ [[]])). rewrite join_snoc by discriminate. reflexivity.
    - rewrite !app_nil_r. reflexivity. }
  rewrite E. apply split_at_join; [discriminate|]. constructor; [constructor; [discriminate|constructor]|]. apply Forall_app. split; [apply plain_split; exact F|]. destruct slash; constructor; constructor.
Qed.
Lemma path_components names slash : names <> [] -> Forall plain_name names -> components (path_of names slash) = Cur :: map Normal names.
Proof.
  intros N F. unfold components. rewrite path_split by assumption. replace (starts_with [47] (path_of names slash)) with false by reflexivity.
  change (txt ".") with [46]. cbn [flat_map part app]. rewrite flat_map_app, (parts_plain names F). destruct slash; cbn [flat_map part app]; rewrite app_nil_r; reflexivity.
Qed.
Lemma entry_components e : fine_entry e -> components (t_path (tar_of e)) = Cur :: map Normal (fst (fst e)).
Proof. destruct e as ((names, slash), file). intros (N & F). cbn [tar_of t_path entry_path fst]. apply path_components; assumption. Qed.
Lemma entry_unpackable e : fine_entry e -> unpackable (t_path (tar_of e)) = true.
Proof.
  intros F. unfold unpackable. rewrite (entry_components e F). cbn [forallb]. destruct (comp_eq Cur Parent) as [E|_]; [discriminate E|]. cbn [andb].
  induction (fst (fst e)) as [|n l IH]; [reflexivity|]. cbn [map forallb]. destruct (comp_eq (Normal n) Parent) as [E|_]; [discriminate E|]. exact IH.
Qed.
Lemma strip_comps_some p : forall l r, strip_comps p l = Some r <-> l = p ++ r.
Proof.
  induction p as [|a p IH]; intros l r; cbn [strip_comps app].
  - split; [intros E; apply some_inj in E; exact E|intros ->; reflexivity].
  - destruct l as [|b l]; [split; discriminate|]. destruct (comp_eq a b) as [<- |N].
    + rewrite IH. split; [intros ->; reflexivity|intros E; apply cons_inj in E as [_ E]; exact E].
    + split; [discriminate|]. intros E. apply cons_inj in E as [E _]. congruence.
Qed.
Lemma map_normal l names rest : map Normal names = map Normal l ++ rest -> exists r, names = l ++ r /\ rest = map Normal r.
Proof.
  revert names. induction l as [|a l IH]; intros names E; cbn [map app] in E; [exists names; split; [reflexivity|symmetry; exact E]|].
  destruct names as [|n names]; [discriminate E|]. cbn [map] in E. apply cons_inj in E as [E1 E]. destruct (IH names E) as (r & -> & ->). exists r. split; [|reflexivity]. cbn [app]. congruence.
Qed.
Lemma boot_comps : components (txt "./boot/") = [Cur; Normal (txt "boot")]. Proof. vm_compute. reflexivity. Qed.
Lemma lib_comps : components (txt "./lib/modules/") = [Cur; Normal (txt "lib"); Normal (txt "modules")]. Proof. vm_compute. reflexivity. Qed.
Lemma usr_comps : components (txt "./usr/lib/modules/") = [Cur; Normal (txt "usr"); Normal (txt "lib"); Normal (txt "modules")]. Proof. vm_compute. reflexivity. Qed.
Lemma first_boot e n : fine_entry e -> (first_component_after (t_path (tar_of e)) (txt "./boot/") = Some n <-> exists rest, fst (fst e) = txt "boot" :: n :: rest).
Proof.
  intros F. unfold first_component_after. rewrite (entry_components e F), boot_comps. set (names := fst (fst e)). clearbody names. split.
  - intros E. destruct (strip_comps _ _) as [x|] eqn:S; [|discriminate E]. apply strip_comps_some in S. change ([Cur; Normal (txt "boot")] ++ x) with (Cur :: map Normal [txt "boot"] ++ x) in S.
    apply cons_inj in S as [_ S]. apply map_normal in S as (r & -> & ->). destruct r as [|m r]; [discriminate E|]. cbn [map] in E. apply some_inj in E. subst m. exists r. reflexivity.
  - intros (rest & ->). replace (strip_comps _ _) with (Some (map Normal (n :: rest))); [reflexivity|]. symmetry. apply strip_comps_some. reflexivity.
Qed.
Lemma lib_strip e x : fine_entry e -> (strip_comps (components (txt "./lib/modules/")) (components (t_path (tar_of e))) = Some x <-> exists r, fst (fst e) = txt "lib" :: txt "modules" :: r /\ x = map Normal r).
Proof.
  intros F. rewrite (entry_components e F), lib_comps, strip_comps_some. split.
  - intros S. change ([Cur; Normal (txt "lib"); Normal (txt "modules")] ++ x) with (Cur :: map Normal [txt "lib"; txt "modules"] ++ x) in S. apply cons_inj in S as [_ S]. apply map_normal in S as (r & -> & ->). exists r. split; reflexivity.
  - intros (r & -> & ->). reflexivity.
Qed.
Lemma usr_strip e x : fine_entry e -> (strip_comps (components (txt "./usr/lib/modules/")) (components (t_path (tar_of e))) = Some x <-> exists r, fst (fst e) = txt "usr" :: txt "lib" :: txt "modules" :: r /\ x = map Normal r).
Proof.
  intros F. rewrite (entry_components e F), usr_comps, strip_comps_some. split.
  - intros S. change ([Cur; Normal (txt "usr"); Normal (txt "lib"); Normal (txt "modules")] ++ x) with (Cur :: map Normal [txt "usr"; txt "lib"; txt "modules"] ++ x) in S. apply cons_inj in S as [_ S]. apply map_normal in S as (r & -> & ->). exists r. split; reflexivity.
  - intros (r & -> & ->). reflexivity.
Qed.
