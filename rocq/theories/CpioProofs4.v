(** The calls made for the test machine. *)
From Coq Require Import String.
From Verif Require Import Base Text TextParse LogModel TextSplit CpioModel CpioSpec CpioProofs CpioProofs2 CpioProofs3.
Local Open Scope Z_scope.

Definition opt_names (i : input) : list str := match i_config_name i with Some n => [n] | None => [] end ++ match i_map_name i with Some n => [n] | None => [] end.
Definition seen (w : wentry) : bool := match w_kind w with KOther => false | _ => true end.
Definition p_top : list path := [[txt "bin"]; [txt "boot"]; [txt "boot"; txt "config"]; [txt "boot"; txt "System.map"]; [txt "lib"]; [txt "sbin"]].
Definition p_names (i : input) : list path := map (fun n => [txt "boot"; n]) (opt_names i).
Definition p_distro (i : input) : list path := map (fun n => if str_eqb n (txt "init") then [txt "init"] else [txt "sbin"; n]) (map fst (i_distro i)).
Definition p_modules (i : input) : list path := map (fun w => txt "lib" :: txt "modules" :: w_rel w) (filter seen (i_modules i)).
Definition p_bin (i : input) : list path := map (fun n => [txt "bin"; n]) (names_of i).

Ltac piece_txt := split; [discriminate|]; apply Forall_forall; intros ? I ->; cbn in I; repeat (destruct I as [I|I]; [discriminate I|]); exact I.
Lemma piece_boot : piece (txt "boot"). Proof. piece_txt. Qed.
Lemma piece_sbin : piece (txt "sbin"). Proof. piece_txt. Qed.
Lemma piece_bin : piece (txt "bin"). Proof. piece_txt. Qed.

Lemma boot_names_eq i : boot_names i = [txt "config"; txt "System.map"] ++ opt_names i.
Proof. reflexivity. Qed.
Lemma binary_names_eq i : map fst (binary_names i) = names_of i.
Proof.
  unfold binary_names, names_of. induction (i_binaries i) as [|(p, l) r IH]; [reflexivity|]. cbn [flat_map]. rewrite map_app, IH. f_equal.
  rewrite map_map. apply map_ext. intros (n, s). reflexivity.
Qed.
Lemma walked_rel l : walked l -> Forall (fun w => Forall component (w_rel w)) l.
Proof. intros (_ & W). apply Forall_forall. intros w I. apply in_split in I as (a & b & E). exact (proj1 (W a w b E)). Qed.
Definition cpath (c : call) : path := path_of (c_name c).
Lemma first_paths i : good i -> map cpath (first_calls i) = p_top ++ p_names i ++ p_distro i.
Proof.
  intros G. destruct (g_boot i G) as (_ & GB). destruct (g_distro i G) as (_ & GD). unfold first_calls, p_names, p_distro. rewrite boot_names_eq in GB.
  apply Forall_app in GB as (_ & GB). unfold opt_names in GB |- *. rewrite !map_app. change (map cpath [_; _; _; _; _; _]) with p_top. f_equal.
  rewrite <- !app_assoc. apply Forall_app in GB as (GC & GM). f_equal; [|f_equal].
  - destruct (i_config_name i) as [n|]; [|reflexivity]. cbn [map]. unfold cpath. cbn [file_call c_name].
    rewrite path_two; [reflexivity|exact piece_boot|exact (component_piece n (Forall_inv GC))].
  - destruct (i_map_name i) as [n|]; [|reflexivity]. cbn [map]. unfold cpath. cbn [file_call c_name].
    rewrite path_two; [reflexivity|exact piece_boot|exact (component_piece n (Forall_inv GM))].
  - rewrite !map_map. apply map_ext_in. intros (n, s) I. unfold cpath. cbn [file_call c_name fst]. destruct (str_eqb n (txt "init")); [reflexivity|].
    rewrite path_two; [reflexivity|exact piece_sbin|]. apply component_piece. rewrite Forall_forall in GD. apply GD. exact (in_map fst _ _ I).
Qed.
Definition module_call (w : wentry) : list call :=
  match w_kind w with
  | KDir => [dir_call (path_join (txt "lib/modules") (join 47 (w_rel w))) executable_mode]
  | KFile => [file_call (path_join (txt "lib/modules") (join 47 (w_rel w))) (w_source w) regular_mode]
  | KOther => []
  end.
Lemma module_calls_eq i : module_calls i = flat_map module_call (i_modules i).
Proof. unfold module_calls. apply flat_map_ext. intros w. unfold module_call. destruct (w_kind w); reflexivity. Qed.
Lemma module_paths i : good i -> map cpath (module_calls i) = p_modules i.
Proof.
  intros G. rewrite module_calls_eq. unfold p_modules. pose proof (walked_rel _ (g_modules i G)) as W. induction W as [|w l Hw _ IH]; [reflexivity|].
  cbn [flat_map filter]. rewrite map_app, IH. unfold module_call, seen at 2. destruct (w_kind w); cbn [map app]; [| |reflexivity];
    unfold cpath at 1; cbn [dir_call file_call c_name]; rewrite path_modules by exact Hw; reflexivity.
Qed.
Lemma bin_paths i : good i -> map cpath (map bin_call (binary_names i)) = p_bin i.
Proof.
  intros G. unfold p_bin. rewrite <- binary_names_eq, !map_map. destruct (g_binaries i G) as (_ & GB). rewrite <- binary_names_eq in GB.
  apply map_ext_in. intros (n, s) I. unfold cpath, bin_call. cbn [file_call c_name fst]. rewrite path_two; [reflexivity|exact piece_bin|].
  apply component_piece. rewrite Forall_forall in GB. apply GB. exact (in_map fst _ _ I).
Qed.
Definition all_paths (i : input) : list path := (p_top ++ p_names i ++ p_distro i) ++ p_modules i ++ p_bin i.
Lemma all_paths_eq i : good i -> map cpath (all_calls i) = all_paths i.
Proof. intros G. unfold all_calls, all_paths. rewrite !map_app, (first_paths i G), (module_paths i G), (bin_paths i G), <- !app_assoc. reflexivity. Qed.

Lemma NoDup_app2 {A} (a b : list A) : NoDup a -> NoDup b -> (forall x, In x a -> In x b -> False) -> NoDup (a ++ b).
Proof.
  induction 1 as [|x a Hx _ IH]; intros B D; [exact B|]. cbn [app]. constructor.
  - rewrite in_app_iff. intros [I|I]; [contradiction|]. exact (D x (or_introl eq_refl) I).
  - apply IH; [exact B|]. intros y I J. exact (D y (or_intror I) J).
Qed.
Lemma NoDup_map_inj {A B} (f : A -> B) l : (forall x y, In x l -> In y l -> f x = f y -> x = y) -> NoDup l -> NoDup (map f l).
Proof.
  intros Inj. induction 1 as [|x l Hx _ IH]; [constructor|]. cbn [map]. constructor.
  - intros I. apply in_map_iff in I as (y & E & I). apply Inj in E; [|right; exact I|left; reflexivity]. subst y. contradiction.
  - apply IH. intros y z I J. apply Inj; right; assumption.
Qed.
Lemma NoDup_filter_map {A B} (f : A -> B) p l : NoDup (map f l) -> NoDup (map f (filter p l)).
Proof.
  induction l as [|x l IH]; intros H; [constructor|]. cbn [map] in H. inversion H as [|y r Hx Hl]; subst. cbn [filter]. destruct (p x); [|exact (IH Hl)].
  cbn [map]. constructor; [|exact (IH Hl)]. intros I. apply Hx. apply in_map_iff in I as (y & E & I). apply filter_In in I as (I & _). rewrite <- E. apply in_map. exact I.
Qed.
Lemma in_p_top p : In p p_top -> p = [txt "bin"] \/ p = [txt "boot"] \/ p = [txt "boot"; txt "config"] \/ p = [txt "boot"; txt "System.map"] \/ p = [txt "lib"] \/ p = [txt "sbin"].
Proof. unfold p_top. cbn [In]. intros H. repeat (destruct H as [H|H]; [symmetry in H; auto 10|]). destruct H. Qed.
Lemma in_p_names i p : In p (p_names i) -> exists n, p = [txt "boot"; n] /\ In n (opt_names i).
Proof. unfold p_names. intros H. apply in_map_iff in H as (n & <- & I). eauto. Qed.
Lemma in_p_distro i p : In p (p_distro i) -> p = [txt "init"] \/ exists n, p = [txt "sbin"; n].
Proof. unfold p_distro. intros H. apply in_map_iff in H as (n & <- & I). destruct (str_eqb n (txt "init")); eauto. Qed.
Lemma in_p_modules i p : In p (p_modules i) -> exists r, p = txt "lib" :: txt "modules" :: r.
Proof. unfold p_modules. intros H. apply in_map_iff in H as (n & <- & I). eauto. Qed.
Lemma in_p_bin i p : In p (p_bin i) -> exists n, p = [txt "bin"; n].
Proof. unfold p_bin. intros H. apply in_map_iff in H as (n & <- & I). eauto. Qed.

Lemma top_nodup : NoDup p_top.
Proof. unfold p_top. repeat (constructor; [cbn [In]; intros H; repeat (destruct H as [H|H]; [discriminate H|]); exact H|]). constructor. Qed.
Lemma paths_nodup i : good i -> NoDup (all_paths i).
Proof.
  intros G. destruct (g_boot i G) as (NB & _). destruct (g_distro i G) as (ND & _). destruct (g_modules i G) as (NM & _). destruct (g_binaries i G) as (NN & _).
  rewrite boot_names_eq in NB. unfold all_paths. apply NoDup_app2; [apply NoDup_app2; [exact top_nodup|apply NoDup_app2|]|apply NoDup_app2|].
  - unfold p_names. apply NoDup_map_inj; [intros x y _ _ E; injection E as E; exact E|]. cbn [app] in NB. inversion NB as [|x1 r1 _ NB1]; subst. inversion NB1; subst. assumption.
  - unfold p_distro. apply NoDup_map_inj; [|exact ND]. intros x y _ _. destruct (str_eqb x (txt "init")) eqn:Ex; destruct (str_eqb y (txt "init")) eqn:Ey; intros E.
    + apply str_eqb_eq in Ex, Ey. congruence.
    + discriminate E.
    + discriminate E.
    + injection E as E. exact E.
  - intros x I J. apply in_p_names in I as (n & -> & _). apply in_p_distro in J as [J|(m & J)]; discriminate J.
  - intros x I J. apply in_app_iff in J as [J|J].
    + apply in_p_names in J as (n & -> & Jn). apply in_p_top in I. cbn [app] in NB. inversion NB as [|x1 r1 N1 NB1]; subst. inversion NB1 as [|x2 r2 N2 _]; subst.
      destruct I as [I|[I|[I|[I|[I|I]]]]]; try discriminate I.
      * apply (f_equal (fun p => nth 1 p [])) in I. cbn [nth] in I. subst n. apply N1. right. exact Jn.
      * apply (f_equal (fun p => nth 1 p [])) in I. cbn [nth] in I. subst n. apply N2. exact Jn.
    + apply in_p_top in I. apply in_p_distro in J as [-> |(m & ->)]; repeat (destruct I as [I|I]; [discriminate I|]); discriminate I.
  - unfold p_modules. rewrite <- (map_map w_rel (fun r => txt "lib" :: txt "modules" :: r)). apply NoDup_map_inj; [|apply NoDup_filter_map; exact NM].
    intros x y _ _ E. apply (f_equal (skipn 2)) in E. exact E.
  - unfold p_bin. apply NoDup_map_inj; [|exact NN]. intros x y _ _ E. injection E as E. exact E.
  - intros x I J. apply in_p_modules in I as (r & ->). apply in_p_bin in J as (n & J). discriminate J.
  - intros x I J. apply in_app_iff in J as [J|J].
    + apply in_p_modules in J as (r & ->). rewrite !in_app_iff in I. destruct I as [I|[I|I]].
      * apply in_p_top in I. repeat (destruct I as [I|I]; [discriminate I|]). discriminate I.
      * apply in_p_names in I as (n & I & _). discriminate I.
      * apply in_p_distro in I as [I|(n & I)]; discriminate I.
    + apply in_p_bin in J as (n & ->). rewrite !in_app_iff in I. destruct I as [I|[I|I]].
      * apply in_p_top in I. repeat (destruct I as [I|I]; [discriminate I|]). discriminate I.
      * apply in_p_names in I as (m & I & _). discriminate I.
      * apply in_p_distro in I as [I|(m & I)]; discriminate I.
Qed.
