(** The test machine contains what is asked for. *)
From Coq Require Import String.
From Verif Require Import Base Text TextParse LogModel TextSplit CpioModel CpioSpec CpioProofs CpioProofs2 CpioProofs3 CpioProofs4.
Local Open Scope Z_scope.

(** * Parents *)

Definition parent_in (before : list call) (c : call) : Prop :=
  cpath c <> [] /\ (removelast (cpath c) = [] \/ exists c', In c' before /\ c_source c' = None /\ cpath c' = removelast (cpath c)).
Fixpoint parents (before l : list call) : Prop := match l with [] => True | c :: l => parent_in before c /\ parents (before ++ [c]) l end.
Lemma parents_app : forall l1 l2 b, parents b l1 -> parents (b ++ l1) l2 -> parents b (l1 ++ l2).
Proof.
  induction l1 as [|c l1 IH]; intros l2 b A B; cbn [app].
  - rewrite app_nil_r in B. exact B.
  - destruct A as (A1 & A2). split; [exact A1|]. apply IH; [exact A2|]. rewrite <- app_assoc. exact B.
Qed.
Lemma parent_more b b' c : incl b b' -> parent_in b c -> parent_in b' c.
Proof. intros I (A & [B|(c' & J & K)]); split; auto. right. exists c'. split; [exact (I _ J)|exact K]. Qed.
Lemma parents_forall : forall l b, Forall (parent_in b) l -> parents b l.
Proof.
  induction l as [|c l IH]; intros b F; [exact I|]. split; [exact (Forall_inv F)|]. apply IH. eapply Forall_impl; [|exact (Forall_inv_tail F)].
  intros c'. apply parent_more. apply incl_appl, incl_refl.
Qed.
Lemma parents_split : forall l b a c r, parents b l -> l = a ++ c :: r -> parent_in (b ++ a) c.
Proof.
  induction l as [|x l IH]; intros b a c r P E; [destruct a; discriminate E|]. destruct P as (P1 & P2). destruct a as [|y a]; cbn [app] in E.
  - injection E as -> _. rewrite app_nil_r. exact P1.
  - injection E as -> E. specialize (IH (b ++ [y]) a c r P2 E). rewrite <- app_assoc in IH. exact IH.
Qed.
Lemma map_split {A B} (f : A -> B) : forall l a x b, map f l = a ++ x :: b -> exists l1 y l2, l = l1 ++ y :: l2 /\ map f l1 = a /\ f y = x /\ map f l2 = b.
Proof.
  induction l as [|z l IH]; intros a x b E; [destruct a; discriminate E|]. destruct a as [|w a]; cbn [map app] in E.
  - injection E as E1 E2. exists [], z, l. auto.
  - injection E as E1 E2. destruct (IH a x b E2) as (l1 & y & l2 & -> & X & Y & Z). exists (z :: l1), y, l2. cbn [map]. rewrite X, E1. auto.
Qed.
Lemma plan_parents ds : parents [] (map fst ds) -> after_parents (plan ds).
Proof.
  intros P a p n b E. unfold plan in E. apply map_split in E as (d1 & (c, d) & d2 & E & E1 & E2 & E3). apply pair_equal_spec in E2 as [E2 _].
  destruct (parents_split (map fst ds) [] (map fst d1) c (map fst d2) P) as (N & Q).
  { rewrite E, map_app. reflexivity. }
  fold (cpath c) in E2. subst p. split; [exact N|]. destruct Q as [Q|(c' & I & S & Q)]; [left; exact Q|right].
  cbn [app] in I. apply in_map_iff in I as ((c1, d') & X & I). cbn [fst] in X. subst c1. exists (c_mode c'). rewrite <- E1. apply in_map_iff. exists (c', d').
  split; [|exact I]. unfold call_node. rewrite S. unfold cpath in Q. rewrite Q. reflexivity.
Qed.

Definition is_dir (c : call) (p : path) : Prop := c_source c = None /\ cpath c = p.
Lemma tops_dir i x : In x [txt "bin"; txt "boot"; txt "lib"; txt "sbin"] -> exists c, In c (first_calls i) /\ is_dir c [x] /\ c_mode c = 493.
Proof.
  unfold first_calls. intros H. cbn [In] in H. destruct H as [<-|[<-|[<-|[<-|[]]]]].
  - eexists. split; [left; reflexivity|]. split; [split; reflexivity|reflexivity].
  - eexists. split; [right; left; reflexivity|]. split; [split; reflexivity|reflexivity].
  - eexists. split; [do 4 right; left; reflexivity|]. split; [split; reflexivity|reflexivity].
  - eexists. split; [do 5 right; left; reflexivity|]. split; [split; reflexivity|reflexivity].
Qed.
Lemma firsts_parents i : good i -> parents [] (first_calls i).
Proof.
  intros G. pose proof (first_paths i G) as E. unfold first_calls in E |- *.
  set (tops := [_; _; _; _; _; _]) in *. set (more := _ ++ _ ++ map _ _) in *.
  rewrite map_app in E. change (map cpath tops) with p_top in E. apply app_inv_head in E.
  apply parents_app.
  - unfold tops. cbn [parents app]. repeat split.
    all: try (vm_compute; congruence).
    all: try (left; vm_compute; reflexivity).
    all: right; exists (dir_call (txt "boot") executable_mode); split; [right; left; reflexivity|split; vm_compute; reflexivity].
  - apply parents_forall. apply Forall_forall. intros c I. cbn [app]. apply (in_map cpath) in I. rewrite E in I. apply in_app_iff in I as [I|I].
    + apply in_p_names in I as (n & P & _). unfold parent_in. rewrite P. split; [discriminate|]. right. exists (dir_call (txt "boot") executable_mode).
      split; [right; left; reflexivity|split; reflexivity].
    + apply in_p_distro in I as [P|(n & P)]; unfold parent_in; rewrite P; (split; [discriminate|]).
      * left. reflexivity.
      * right. exists (dir_call (txt "sbin") executable_mode). split; [do 5 right; left; reflexivity|split; reflexivity].
Qed.
Lemma mods_parents b : (exists c, In c b /\ is_dir c [txt "lib"]) -> forall l done,
  (forall a w r, done ++ l = a ++ w :: r -> Forall component (w_rel w) /\
    match w_rel w with [] => w_kind w = KDir | _ => exists v, In v a /\ w_kind v = KDir /\ w_rel v = removelast (w_rel w) end) ->
  parents (b ++ flat_map module_call done) (flat_map module_call l).
Proof.
  intros (lib & Il & Dl & Pl). induction l as [|w l IH]; intros done H; [exact I|]. cbn [flat_map].
  assert (Pw : Forall (parent_in (b ++ flat_map module_call done)) (module_call w)).
  { destruct (H done w l eq_refl) as (C & Par). apply Forall_forall. intros c Ic.
    assert (cpath c = txt "lib" :: txt "modules" :: w_rel w) as E.
    { unfold module_call in Ic. destruct (w_kind w); cbn [In] in Ic; [| |destruct Ic]; destruct Ic as [<-|[]]; unfold cpath; cbn [dir_call file_call c_name]; apply path_modules; exact C. }
    unfold parent_in. rewrite E. split; [discriminate|right]. destruct (w_rel w) as [|x r].
    - exists lib. split; [apply in_or_app; left; exact Il|]. split; [exact Dl|exact Pl].
    - destruct Par as (v & Iv & Kv & Rv). exists (dir_call (path_join (txt "lib/modules") (join 47 (w_rel v))) executable_mode).
      split; [apply in_or_app; right; apply in_flat_map; exists v; split; [exact Iv|unfold module_call; rewrite Kv; left; reflexivity]|].
      split; [reflexivity|]. unfold cpath. cbn [dir_call c_name]. rewrite path_modules; [rewrite Rv; reflexivity|].
      apply in_split in Iv as (a & r' & Ea). exact (proj1 (H a v (r' ++ w :: l) ltac:(rewrite Ea, <- app_assoc; reflexivity))). }
  apply parents_app; [apply parents_forall; exact Pw|].
  specialize (IH (done ++ [w])). rewrite flat_map_app in IH. cbn [flat_map] in IH. rewrite app_nil_r in IH. rewrite <- app_assoc. apply IH.
  intros a v r E. rewrite <- app_assoc in E. cbn [app] in E. exact (H a v r E).
Qed.
Lemma all_parents i : good i -> parents [] (all_calls i).
Proof.
  intros G. unfold all_calls. apply parents_app; [apply parents_app; [exact (firsts_parents i G)|]|].
  - cbn [app]. rewrite module_calls_eq. pose proof (mods_parents (first_calls i)) as M.
    assert (L : exists c, In c (first_calls i) /\ is_dir c [txt "lib"]) by (destruct (tops_dir i (txt "lib")) as (c & A & B & _); [right; right; left; reflexivity|eauto]).
    specialize (M L (i_modules i) [] (proj2 (g_modules i G))). cbn [flat_map] in M. rewrite app_nil_r in M. exact M.
  - apply parents_forall. apply Forall_forall. intros c I. apply (in_map cpath) in I. rewrite (bin_paths i G) in I. apply in_p_bin in I as (n & P).
    unfold parent_in. rewrite P. split; [discriminate|right]. destruct (tops_dir i (txt "bin")) as (c' & A & (B & C) & _); [left; reflexivity|].
    exists c'. split; [cbn [app]; apply in_or_app; left; exact A|auto].
Qed.

(** * The calls are as usual *)

Lemma all_usual i : Forall usual (all_calls i).
Proof.
  assert (D : forall n, usual (dir_call n executable_mode)) by (intros n; split; [right; reflexivity|split; reflexivity]).
  assert (R : forall n s, usual (file_call n s regular_mode)) by (intros n s; split; [left; reflexivity|split; reflexivity]).
  assert (E : forall n s, usual (file_call n s executable_mode)) by (intros n s; split; [right; reflexivity|split; reflexivity]).
  unfold all_calls, first_calls. rewrite module_calls_eq. repeat (apply Forall_app; split).
  - repeat (apply Forall_cons; [auto|]). apply Forall_nil.
  - destruct (i_config_name i); repeat (apply Forall_cons; [auto|]); apply Forall_nil.
  - destruct (i_map_name i); repeat (apply Forall_cons; [auto|]); apply Forall_nil.
  - apply Forall_forall. intros c I. apply in_map_iff in I as ((n, s) & <- & _). apply E.
  - apply Forall_forall. intros c I. apply in_flat_map in I as (w & _ & I). unfold module_call in I. destruct (w_kind w); cbn [In] in I; [| |destruct I]; destruct I as [<-|[]]; auto.
  - apply Forall_forall. intros c I. apply in_map_iff in I as (x & <- & _). apply E.
Qed.
Lemma not_trailer i : good i -> Forall (fun c => c_name c <> txt "TRAILER!!!") (all_calls i).
Proof.
  intros G. apply Forall_forall. intros c I E. apply (in_map cpath) in I. rewrite (all_paths_eq i G) in I. unfold cpath in I. rewrite E in I.
  change (path_of (txt "TRAILER!!!")) with [txt "TRAILER!!!"] in I. unfold all_paths in I. rewrite !in_app_iff in I. destruct I as [[I|[I|I]]|[I|I]].
  - apply in_p_top in I. repeat (destruct I as [I|I]; [discriminate I|]). discriminate I.
  - apply in_p_names in I as (n & I & _). discriminate I.
  - apply in_p_distro in I as [I|(n & I)]; discriminate I.
  - apply in_p_modules in I as (r & I). discriminate I.
  - apply in_p_bin in I as (n & I). discriminate I.
Qed.
Lemma all_short i : good i -> Forall (fun c => Z.of_nat (length (c_name c)) + 1 <= 4096) (all_calls i).
Proof.
  intros G. pose proof (g_short i G) as S. rewrite boot_names_eq in S. rewrite !Forall_app in S. destruct S as ((_ & SB) & SD & SN & SM). unfold opt_names in SB. apply Forall_app in SB as (SC & SP).
  unfold all_calls, first_calls. rewrite module_calls_eq. repeat (apply Forall_app; split).
  - repeat (apply Forall_cons; [cbn; lia|]). apply Forall_nil.
  - destruct (i_config_name i) as [n|]; [|apply Forall_nil]. apply Forall_cons; [|apply Forall_nil]. pose proof (Forall_inv SC) as X. cbn beta in X. cbn [file_call c_name]. unfold path_join. rewrite !app_length. cbn. lia.
  - destruct (i_map_name i) as [n|]; [|apply Forall_nil]. apply Forall_cons; [|apply Forall_nil]. pose proof (Forall_inv SP) as X. cbn beta in X. cbn [file_call c_name]. unfold path_join. rewrite !app_length. cbn. lia.
  - apply Forall_forall. intros c I. apply in_map_iff in I as ((n, s) & <- & I). rewrite Forall_forall in SD. pose proof (SD n (in_map fst _ _ I)) as X. cbn [file_call c_name].
    destruct (str_eqb n (txt "init")); [cbn; lia|]. unfold path_join. rewrite !app_length. cbn. lia.
  - apply Forall_forall. intros c I. apply in_flat_map in I as (w & Iw & I). rewrite Forall_forall in SM. pose proof (SM _ (in_map (fun w => join 47 (w_rel w)) _ _ Iw)) as X. cbn beta in X.
    unfold module_call in I. destruct (w_kind w); cbn [In] in I; [| |destruct I]; destruct I as [<-|[]]; cbn [dir_call file_call c_name]; unfold path_join; rewrite !app_length; change (length (txt "lib/modules")) with 11%nat; cbn [length]; lia.
  - apply Forall_forall. intros c I. apply in_map_iff in I as ((n, s) & <- & I). rewrite Forall_forall, <- binary_names_eq in SN. pose proof (SN n (in_map fst _ _ I)) as X.
    unfold bin_call. cbn [file_call c_name fst]. unfold path_join. rewrite !app_length. change (length (txt "bin")) with 3%nat. cbn [length]. lia.
Qed.
Lemma all_fine i : good i -> Forall call_fine (all_calls i).
Proof.
  intros G. pose proof (all_usual i) as U. pose proof (not_trailer i G) as T. pose proof (all_short i G) as S. rewrite Forall_forall in *. intros c I.
  split; [apply usual_ok; auto|auto].
Qed.

(** * What is wanted *)

Lemma wanted_calls i : good i -> Forall (fun c => exists d, has_data c d) (all_calls i) -> forall p n,
  (exists c d, In c (all_calls i) /\ has_data c d /\ p = cpath c /\ n = call_node c d) <-> wanted i p n.
Proof.
  intros G HD p n. split.
  - intros (c & d & I & D & -> & ->). unfold all_calls, first_calls in I. rewrite module_calls_eq, !in_app_iff in I.
    destruct I as [[[I|[I|[I|I]]]|I]|I].
    + cbn [In] in I. destruct I as [<-|[<-|[<-|[<-|[<-|[<-|[]]]]]]]; cbn in D.
      * apply w_top. left. reflexivity.
      * apply w_top. right. left. reflexivity.
      * apply w_config. exact D.
      * apply w_map. exact D.
      * apply w_top. right. right. left. reflexivity.
      * apply w_top. do 3 right. left. reflexivity.
    + destruct (g_boot i G) as (_ & GB). rewrite boot_names_eq in GB. apply Forall_app in GB as (_ & GB). apply Forall_app in GB as (GC & _).
      destruct (i_config_name i) as [x|] eqn:Ec; [|destruct I]. destruct I as [<-|[]]. unfold cpath. cbn [file_call c_name].
      rewrite (path_two _ _ piece_boot (component_piece x (Forall_inv GC))). exact (w_config_name i x d Ec D).
    + destruct (g_boot i G) as (_ & GB). rewrite boot_names_eq in GB. apply Forall_app in GB as (_ & GB). apply Forall_app in GB as (_ & GC).
      destruct (i_map_name i) as [x|] eqn:Ec; [|destruct I]. destruct I as [<-|[]]. unfold cpath. cbn [file_call c_name].
      rewrite (path_two _ _ piece_boot (component_piece x (Forall_inv GC))). exact (w_map_name i x d Ec D).
    + apply in_map_iff in I as ((x, s) & <- & I). destruct (g_distro i G) as (_ & GB). rewrite Forall_forall in GB. pose proof (GB x (in_map fst _ _ I)) as C.
      unfold cpath. cbn [file_call c_name]. destruct (str_eqb x (txt "init")) eqn:E.
      * apply str_eqb_eq in E. subst x. exact (w_init i s d I D).
      * rewrite (path_two _ _ piece_sbin (component_piece x C)). apply (w_sbin i x s d I); [|exact D]. intros ->. rewrite str_eqb_same in E. discriminate E.
    + apply in_flat_map in I as (w & Iw & I). pose proof (walked_rel _ (g_modules i G)) as W. rewrite Forall_forall in W. specialize (W w Iw).
      unfold module_call in I. destruct (w_kind w) eqn:K; cbn [In] in I; [| |destruct I]; destruct I as [<-|[]]; unfold cpath; cbn [dir_call file_call c_name]; rewrite (path_modules _ W).
      * exact (w_folder i w Iw K).
      * exact (w_module i w d Iw K D).
    + apply in_map_iff in I as ((x, s) & <- & I). destruct (g_binaries i G) as (_ & GB). rewrite <- binary_names_eq, Forall_forall in GB. pose proof (GB x (in_map fst _ _ I)) as C. cbn [fst] in C.
      unfold cpath, bin_call. cbn [file_call c_name fst]. rewrite (path_two _ _ piece_bin (component_piece x C)). destruct D as (_ & D & _). cbn [bin_call file_call s_data snd] in D.
      unfold binary_names in I. apply in_flat_map in I as ((pr, l) & I1 & I). apply in_map_iff in I as ((y, s') & E & I2). apply pair_equal_spec in E as [<- <-].
      exact (w_binary i pr l y s' d I1 I2 D).
  - intros W. destruct W as [x Ix|d D|d D|x d E D|x d E D|s d I D|x s d I N D|w I K|w d I K D|pr l x s d I1 I2 D].
    + destruct (tops_dir i x Ix) as (c & I & (S & P) & M). exists c, []. split; [unfold all_calls; rewrite !in_app_iff; auto|]. unfold has_data, call_node. rewrite S, P, M. auto.
    + exists (file_call (txt "boot/config") (i_config i) regular_mode), d. split; [unfold all_calls, first_calls; rewrite !in_app_iff; left; left; left; do 2 right; left; reflexivity|]. split; [exact D|]. split; reflexivity.
    + exists (file_call (txt "boot/System.map") (i_map i) regular_mode), d. split; [unfold all_calls, first_calls; rewrite !in_app_iff; left; left; left; do 3 right; left; reflexivity|]. split; [exact D|]. split; reflexivity.
    + destruct (g_boot i G) as (_ & GB). rewrite boot_names_eq in GB. apply Forall_app in GB as (_ & GB). apply Forall_app in GB as (GC & _). rewrite E in GC.
      exists (file_call (path_join (txt "boot") x) (i_config i) regular_mode), d. split; [unfold all_calls, first_calls; rewrite E, !in_app_iff; left; left; right; left; left; reflexivity|]. split; [exact D|].
      split; [|reflexivity]. unfold cpath. cbn [file_call c_name]. rewrite (path_two _ _ piece_boot (component_piece x (Forall_inv GC))). reflexivity.
    + destruct (g_boot i G) as (_ & GB). rewrite boot_names_eq in GB. apply Forall_app in GB as (_ & GB). apply Forall_app in GB as (_ & GC). rewrite E in GC.
      exists (file_call (path_join (txt "boot") x) (i_map i) regular_mode), d. split; [unfold all_calls, first_calls; rewrite E, !in_app_iff; left; left; right; right; left; left; reflexivity|]. split; [exact D|].
      split; [|reflexivity]. unfold cpath. cbn [file_call c_name]. rewrite (path_two _ _ piece_boot (component_piece x (Forall_inv GC))). reflexivity.
    + exists (file_call (txt "init") s executable_mode), d. split; [|split; [exact D|split; reflexivity]]. unfold all_calls, first_calls. rewrite !in_app_iff. left. left. do 3 right. apply in_map_iff. exists (txt "init", s). split; [reflexivity|exact I].
    + destruct (g_distro i G) as (_ & GB). rewrite Forall_forall in GB. pose proof (GB x (in_map fst _ _ I)) as C.
      exists (file_call (path_join (txt "sbin") x) s executable_mode), d. split; [|split; [exact D|split; [unfold cpath; cbn [file_call c_name]; rewrite (path_two _ _ piece_sbin (component_piece x C)); reflexivity|reflexivity]]].
      unfold all_calls, first_calls. rewrite !in_app_iff. left. left. do 3 right. apply in_map_iff. exists (x, s). split; [rewrite (str_eqb_other _ _ N); reflexivity|exact I].
    + pose proof (walked_rel _ (g_modules i G)) as W. rewrite Forall_forall in W. specialize (W w I).
      exists (dir_call (path_join (txt "lib/modules") (join 47 (w_rel w))) executable_mode), []. split; [|split; [reflexivity|split; [unfold cpath; cbn [dir_call c_name]; rewrite (path_modules _ W); reflexivity|reflexivity]]].
      unfold all_calls. rewrite module_calls_eq, !in_app_iff. left. right. apply in_flat_map. exists w. split; [exact I|]. unfold module_call. rewrite K. left. reflexivity.
    + pose proof (walked_rel _ (g_modules i G)) as W. rewrite Forall_forall in W. specialize (W w I).
      exists (file_call (path_join (txt "lib/modules") (join 47 (w_rel w))) (w_source w) regular_mode), d. split; [|split; [exact D|split; [unfold cpath; cbn [file_call c_name]; rewrite (path_modules _ W); reflexivity|reflexivity]]].
      unfold all_calls. rewrite module_calls_eq, !in_app_iff. left. right. apply in_flat_map. exists w. split; [exact I|]. unfold module_call. rewrite K. left. reflexivity.
    + assert (In (pr ++ txt "-" ++ x, s) (binary_names i)) as J.
      { unfold binary_names. apply in_flat_map. exists (pr, l). split; [exact I1|]. apply in_map_iff. exists (x, s). split; [reflexivity|exact I2]. }
      destruct (g_binaries i G) as (_ & GB). rewrite <- binary_names_eq, Forall_forall in GB. pose proof (GB _ (in_map fst _ _ J)) as C. cbn [fst] in C.
      assert (In (bin_call (pr ++ txt "-" ++ x, s)) (all_calls i)) as K by (unfold all_calls; rewrite in_app_iff; right; apply in_map; exact J).
      exists (bin_call (pr ++ txt "-" ++ x, s)), d. split; [exact K|]. split.
      * rewrite Forall_forall in HD. destruct (HD _ K) as (d' & D'). pose proof D' as (_ & D2 & _). cbn [bin_call file_call s_data snd] in D2. rewrite D in D2. apply some_inj in D2. subst d'. exact D'.
      * split; [unfold cpath, bin_call; cbn [file_call c_name fst]; rewrite (path_two _ _ piece_bin (component_piece _ C)); reflexivity|reflexivity].
Qed.

Lemma data_all ds : Forall (fun '(c, d) => has_data c d) ds -> Forall (fun c => exists d, has_data c d) (map fst ds).
Proof. induction 1 as [|(c, d) ds H _ IH]; [constructor|]. cbn [map fst]. constructor; [exists d; exact H|exact IH]. Qed.
Lemma plan_fst ds : map fst (plan ds) = map cpath (map fst ds).
Proof. unfold plan. rewrite !map_map. apply map_ext. intros (c, d). reflexivity. Qed.
Lemma booted i now out : good i -> 0 <= now -> initramfs i now = Ok out ->
  exists t, boot out = Some t /\ t [] = Some (NDir 493) /\ forall p n, p <> [] -> (t p = Some n <-> wanted i p n).
Proof.
  intros G Hn H. apply initramfs_ok in H as (Hm & b & b' & A & T & ->).
  destruct (archive_read now b b' (all_calls i) ltac:(lia) (all_fine i G) A T) as (ds & E & F & R).
  exists (fill bare (plan ds)). unfold boot. rewrite R. pose proof (all_usual i) as U. rewrite <- E in U.
  split; [rewrite (unpack_plan now ds 0 bare U); reflexivity|].
  destruct (filled (plan ds)) as (X & Y).
  { rewrite plan_fst, E, (all_paths_eq i G). exact (paths_nodup i G). }
  { apply plan_parents. rewrite E. exact (all_parents i G). }
  split; [exact X|]. intros p n Hp. rewrite (Y p n Hp), (plan_in ds F), E. apply wanted_calls; [exact G|]. rewrite <- E. apply data_all. exact F.
Qed.

(** * When it can be built *)

Lemma calls_number i : good i -> length (all_calls i) = entries i.
Proof.
  intros G. rewrite <- (map_length cpath), (all_paths_eq i G). unfold all_paths, p_top, p_names, p_distro, p_modules, p_bin, entries. rewrite boot_names_eq, !app_length, !map_length. cbn [length]. unfold seen. lia.
Qed.
Lemma calls_readable i : Forall (fun c => exists d, has_data c d) (all_calls i) <-> readable i.
Proof.
  split.
  - intros F. rewrite Forall_forall in F. unfold readable. repeat split.
    + apply (F (file_call (txt "boot/config") (i_config i) regular_mode)). unfold all_calls, first_calls. rewrite !in_app_iff. left. left. left. do 2 right. left. reflexivity.
    + apply (F (file_call (txt "boot/System.map") (i_map i) regular_mode)). unfold all_calls, first_calls. rewrite !in_app_iff. left. left. left. do 3 right. left. reflexivity.
    + intros n s I. apply (F (file_call (if str_eqb n (txt "init") then txt "init" else path_join (txt "sbin") n) s executable_mode)). unfold all_calls, first_calls. rewrite !in_app_iff. left. left. do 3 right.
      apply in_map_iff. exists (n, s). split; [reflexivity|exact I].
    + intros w I K. apply (F (file_call (path_join (txt "lib/modules") (join 47 (w_rel w))) (w_source w) regular_mode)). unfold all_calls. rewrite module_calls_eq, !in_app_iff. left. right.
      apply in_flat_map. exists w. split; [exact I|]. unfold module_call. rewrite K. left. reflexivity.
    + intros p l n s I J. destruct (F (bin_call (p ++ [45] ++ n, s))) as (d & _ & D & L).
      * unfold all_calls. rewrite in_app_iff. right. apply in_map. unfold binary_names. apply in_flat_map. exists (p, l). split; [exact I|]. apply in_map_iff. exists (n, s). split; [reflexivity|exact J].
      * exists d. split; [exact D|exact L].
  - intros (C & M & D & W & B). apply Forall_forall. intros c I. unfold all_calls, first_calls in I. rewrite module_calls_eq, !in_app_iff in I. destruct I as [[[I|[I|[I|I]]]|I]|I].
    + cbn [In] in I. destruct I as [<-|[<-|[<-|[<-|[<-|[<-|[]]]]]]]; try exact C; try exact M; exists []; reflexivity.
    + destruct (i_config_name i); [|destruct I]. destruct I as [<-|[]]. exact C.
    + destruct (i_map_name i); [|destruct I]. destruct I as [<-|[]]. exact M.
    + apply in_map_iff in I as ((n, s) & <- & I). exact (D n s I).
    + apply in_flat_map in I as (w & Iw & I). unfold module_call in I. destruct (w_kind w) eqn:K; cbn [In] in I; [| |destruct I]; destruct I as [<-|[]].
      * exists []. reflexivity.
      * exact (W w Iw K).
    + apply in_map_iff in I as ((n, s) & <- & I). unfold binary_names in I. apply in_flat_map in I as ((p, l) & I1 & I). apply in_map_iff in I as ((m, s') & E & I2). apply pair_equal_spec in E as [<- <-].
      destruct (B p l m s' I1 I2) as (d & X & L). exists d. unfold has_data, bin_call. cbn [file_call c_source snd]. split; [cbn [s_meta]; rewrite X; reflexivity|]. split; [exact X|exact L].
Qed.
Lemma with_data l : Forall (fun c => exists d, has_data c d) l -> exists ds, map fst ds = l /\ Forall (fun '(c, d) => has_data c d) ds.
Proof.
  induction 1 as [|c l (d & D) _ (ds & E & F)]; [exists []; auto|]. exists ((c, d) :: ds). cbn [map fst]. rewrite E. split; [reflexivity|]. constructor; assumption.
Qed.
Lemma built i now : good i -> ((exists out, initramfs i now = Ok out) <-> now < 2 ^ 32 /\ readable i /\ Z.of_nat (entries i) + 1 < 2 ^ 32).
Proof.
  intros G. split.
  - intros (out & H). apply initramfs_ok in H as (Hm & b & b' & A & T & ->). split; [exact Hm|]. apply append_all_ok in A; [|cbn; lia].
    destruct A as (ds & E & F & _ & K & ->). apply append_ok in T as (d & _ & _ & I & _). cbn [new_builder b_inode] in I. rewrite (calls_number i G) in I. split; [|lia].
    apply calls_readable. rewrite <- E. apply data_all. exact F.
  - intros (Hm & R & N). apply calls_readable in R. apply with_data in R as (ds & E & F).
    set (b := {| b_inode := Z.of_nat (length (all_calls i)); b_out := bytes_all 0 ds now |}).
    eexists. apply initramfs_ok. split; [exact Hm|]. exists b. eexists. split; [|split; [|reflexivity]].
    + apply append_all_ok; [cbn; lia|]. exists ds. split; [exact E|]. split; [exact F|]. split; [|split; [rewrite (calls_number i G); cbn [new_builder b_inode]; lia|reflexivity]].
      eapply Forall_impl; [|exact (all_short i G)]. intros c X. cbn beta in X. unfold shortened. lia.
    + apply append_ok. exists []. split; [reflexivity|]. split; [cbn; lia|]. split; [|reflexivity]. unfold b. cbn [b_inode]. rewrite (calls_number i G). lia.
Qed.
