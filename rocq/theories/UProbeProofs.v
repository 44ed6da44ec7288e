(** Proofs about [UProbeModel]: addresses, symbols, points. *)
From Coq Require Import String.
From Verif Require Import Base Text TextParse TextSplit LogModel UProbeModel UProbeSpec.
Local Open Scope Z_scope.

(** * Addresses *)

Lemma from_virtual_address_ok a sa so r : from_virtual_address a sa so = Ok r <-> sa <= a /\ r = a - sa + so /\ r < 2 ^ 64.
Proof.
  unfold from_virtual_address. destruct (Z.ltb_spec a sa); [split; [discriminate|lia]|].
  destruct (Z.leb_spec (2 ^ 64) (a - sa + so)); split; try discriminate; try lia.
  - intros H1. assert (r = a - sa + so) by congruence. lia.
  - intros (_ & -> & _). reflexivity.
Qed.
Lemma from_virtual_address_err a sa so : (from_virtual_address a sa so = Err AddressNotInSection <-> a < sa) /\
  (from_virtual_address a sa so = Err FileOffsetOverflow <-> sa <= a /\ 2 ^ 64 <= a - sa + so).
Proof.
  unfold from_virtual_address. destruct (Z.ltb_spec a sa); [split; split; (congruence || lia)|].
  destruct (Z.leb_spec (2 ^ 64) (a - sa + so)); split; split; (congruence || lia).
Qed.

Lemma translated_linked o s name off : linked o -> (translated o s name = Ok off <-> file_offset o s off).
Proof.
  intros L. unfold translated, file_offset.
  assert (forall A (x y : A), match uo_kind o with KDynamic | KExecutable => x | _ => y end = x) as K by (intros; destruct L as [-> | ->]; reflexivity).
  rewrite K. destruct (us_section s) as [i|]; [|split; [discriminate|intros (i & c & st & E & _); discriminate]].
  destruct (nth_error (uo_sections o) i) as [c|] eqn:En; [|split; [discriminate|intros (j & c & st & E & F & _); congruence]].
  destruct (uc_offset c) as [st|] eqn:Eo; [|split; [discriminate|intros (j & c' & st & E & F & G & _); congruence]].
  destruct (Z.ltb_spec (us_addr s) (uc_addr c)).
  { split; [discriminate|]. intros (j & c' & st' & E & F & G & H1 & _). assert (j = i) by congruence. subst j. assert (c' = c) by congruence. subst c'. lia. }
  destruct (Z.leb_spec (2 ^ 64) (us_addr s - uc_addr c + st)).
  { split; [discriminate|]. intros (j & c' & st' & E & F & G & H1 & H2 & H3). assert (j = i) by congruence. subst j. assert (c' = c) by congruence. subst c'. assert (st' = st) by congruence. subst st'. lia. }
  split.
  - intros E. assert (off = us_addr s - uc_addr c + st) by congruence. exists i, c, st. repeat split; auto; lia.
  - intros (j & c' & st' & E & F & G & H1 & H2 & H3). assert (j = i) by congruence. subst j. assert (c' = c) by congruence. subst c'. assert (st' = st) by congruence. subst st'. f_equal. lia.
Qed.
Lemma translated_unlinked o s name : ~ linked o -> translated o s name = Ok (us_addr s).
Proof. intros L. unfold translated. destruct (uo_kind o) eqn:E; try reflexivity; exfalso; apply L; unfold linked; auto. Qed.

(** * Finding symbols *)

Lemma named_iff name s : named name s = true <-> us_name s = Some name.
Proof.
  unfold named. destruct (us_name s) as [n|]; [|split; discriminate]. rewrite str_eqb_eq. split; congruence.
Qed.
Lemma find_first name l s : find (named name) l = Some s <-> first_named name l s.
Proof.
  split.
  - induction l as [|x l IH]; [discriminate|]. cbn [find]. destruct (named name x) eqn:E; intros H.
    + apply some_inj in H. subst x. exists [], l. split; [reflexivity|]. split; [now apply named_iff|constructor].
    + destruct (IH H) as (pre & post & -> & A & B). exists (x :: pre), post. split; [reflexivity|]. split; [exact A|]. constructor; [|exact B]. rewrite <- named_iff. congruence.
  - intros (pre & post & -> & A & B). induction B as [|x pre Hx _ IH]; cbn [app find].
    + now rewrite (proj2 (named_iff name s) A).
    + destruct (named name x) eqn:E; [apply named_iff in E; contradiction|exact IH].
Qed.
Lemma find_none name l : find (named name) l = None <-> none_named name l.
Proof.
  unfold none_named. induction l as [|x l IH]; cbn [find]; [split; [constructor|reflexivity]|]. destruct (named name x) eqn:E.
  - split; [discriminate|]. intros H. apply Forall_inv in H. apply named_iff in E. contradiction.
  - rewrite IH. split; intros H; [constructor; [rewrite <- named_iff; congruence|exact H]|now apply Forall_inv_tail in H].
Qed.
Lemma find_app name a b : find (named name) (a ++ b) = match find (named name) a with Some s => Some s | None => find (named name) b end.
Proof. induction a as [|x a IH]; [reflexivity|]. cbn [app find]. destruct (named name x); [reflexivity|exact IH]. Qed.
Lemma find_symbol_some o name s : find_symbol o name = Some s <-> object_symbol o name s.
Proof.
  unfold find_symbol, object_symbol. rewrite find_app, <- !find_first, <- find_none. destruct (find (named name) (uo_dynamic o)) as [x|]; split; auto.
  - intros [H|[H _]]; [exact H|discriminate].
  - intros [H|[_ H]]; [discriminate|exact H].
Qed.
Lemma find_symbol_none o name : find_symbol o name = None <-> object_lacks o name.
Proof.
  unfold find_symbol, object_lacks. rewrite find_app, <- !find_none. destruct (find (named name) (uo_dynamic o)) as [x|]; split; auto; try discriminate; try tauto.
Qed.

(** * One symbol *)

(** What resolving one symbol means. *)
Lemma resolve_symbol_ok dbg fs path name off : resolve_symbol dbg fs path name = Ok off <->
  exists o, fs path = Some (Some o) /\
    ((exists s, object_symbol o name s /\ translated o s name = Ok off) \/
     (object_lacks o name /\ exists f d s, uo_debuglink o = Ok (Some f) /\ fs (dbg f path) = Some (Some d) /\
        (forall x y, uo_build_id o = Some x -> uo_build_id d = Some y -> x = y) /\ object_symbol d name s /\ translated d s name = Ok off)).
Proof.
  unfold resolve_symbol, open_main. destruct (fs path) as [[o|]|]; cbn [bind]; [|split; [discriminate|intros (o & E & _); discriminate]|split; [discriminate|intros (o & E & _); discriminate]].
  destruct (find_symbol o name) as [s|] eqn:F.
  - apply find_symbol_some in F. split.
    + intros H. exists o. split; [reflexivity|]. left. now exists s.
    + intros (o' & E & [(s' & A & B)|(A & _)]); assert (o' = o) by congruence; subst o'.
      * apply find_symbol_some in A, F. assert (s' = s) by congruence. now subst s'.
      * apply find_symbol_none in A. apply find_symbol_some in F. congruence.
  - unfold find_debug_path. split.
    + intros H. exists o. split; [reflexivity|]. right. split; [now apply find_symbol_none|].
      destruct (uo_debuglink o) as [[f|]|]; cbn [bind] in H; try discriminate. unfold open_debug in H.
      destruct (fs (dbg f path)) as [[d|]|] eqn:Fd; cbn [bind] in H; try discriminate.
      destruct (verify_build_ids o d name) as [[]|] eqn:V; cbn [bind] in H; [|discriminate].
      destruct (find_symbol d name) as [s|] eqn:Fs; [|discriminate]. exists f, d, s. split; [reflexivity|]. split; [exact Fd|].
      split; [|split; [now apply find_symbol_some|exact H]].
      intros x y Hx Hy. unfold verify_build_ids in V. rewrite Hx, Hy in V. destruct (str_eqb y x) eqn:E; [|discriminate]. symmetry. now apply str_eqb_eq.
    + intros (o' & E & [(s' & A & _)|(A & f & d & s & D1 & D2 & D3 & D4 & D5)]); assert (o' = o) by congruence; subst o'.
      * apply find_symbol_some in A. congruence.
      * rewrite D1. cbn [bind]. unfold open_debug. rewrite D2. cbn [bind].
        assert (verify_build_ids o d name = Ok tt) as ->.
        { unfold verify_build_ids. destruct (uo_build_id d) as [y|] eqn:Y; [|reflexivity]. destruct (uo_build_id o) as [x|] eqn:X; [|reflexivity].
          rewrite (D3 x y eq_refl eq_refl), str_eqb_refl. reflexivity. }
        cbn [bind]. apply find_symbol_some in D4. now rewrite D4.
Qed.

(** * Many symbols *)

Lemma sm_get_set m k v k' : sm_get (sm_set m k v) k' = if str_eqb k k' then match sm_get m k with Some _ => Some (Some v) | None => None end else sm_get m k'.
Proof.
  induction m as [|[k0 w] m IH]; cbn [sm_set sm_get]; [now destruct (str_eqb k k')|].
  destruct (str_eqb k0 k) eqn:E; cbn [sm_get].
  - apply str_eqb_eq in E. subst k0. destruct (str_eqb k k'); reflexivity.
  - destruct (str_eqb k0 k') eqn:E'.
    + apply str_eqb_eq in E'. subst k0. destruct (str_eqb k k') eqn:E2; [|reflexivity]. apply str_eqb_eq in E2. subst. rewrite str_eqb_refl in E. discriminate.
    + exact IH.
Qed.
Lemma sm_missing_set m k v : sm_get m k = Some None -> sm_missing m = S (sm_missing (sm_set m k v)).
Proof.
  unfold sm_missing. induction m as [|[k0 w] m IH]; cbn [sm_get sm_set]; [discriminate|]. destruct (str_eqb k0 k).
  - intros H. apply some_inj in H. subst w. reflexivity.
  - intros H. cbn [filter snd]. destruct w; cbn [length]; rewrite (IH H); reflexivity.
Qed.
Lemma sm_missing_zero m k : sm_missing m = 0%nat -> sm_get m k <> Some None.
Proof.
  unfold sm_missing. induction m as [|[k0 w] m IH]; cbn [sm_get]; [discriminate|]. cbn [filter snd]. destruct w as [w|]; [|discriminate]. intros H.
  destruct (str_eqb k0 k); [discriminate|now apply IH].
Qed.

(** The map after scanning, name by name. *)
Definition scanned (o : uobj) (l : list usym) (m m' : symmap) : Prop :=
  forall k, sm_get m' k = match sm_get m k with
                          | Some None => match find (named k) l with
                                         | Some s => match translated o s k with Ok off => Some (Some off) | Err _ => Some None end
                                         | None => Some None
                                         end
                          | x => x
                          end.
Lemma scanned_skip o s l m m' : (forall k, sm_get m k = Some None -> named k s = false) -> scanned o l m m' -> scanned o (s :: l) m m'.
Proof.
  intros H S k. rewrite (S k). destruct (sm_get m k) as [[v|]|] eqn:E; try reflexivity. cbn [find]. now rewrite (H k E).
Qed.

Lemma scan_spec o l : forall m, match scan o l (sm_missing m) m with
  | Ok m' => scanned o l m m' /\ (forall k s, sm_get m k = Some None -> find (named k) l = Some s -> exists off, translated o s k = Ok off)
  | Err e => exists k s, sm_get m k = Some None /\ find (named k) l = Some s /\ translated o s k = Err e
  end.
Proof.
  induction l as [|s l IH]; intros m.
  { cbn [scan]. split; [|intros k s _ H; discriminate]. intros k. cbn [find]. now destruct (sm_get m k) as [[v|]|]. }
  assert (forall (Hn : forall k, sm_get m k = Some None -> named k s = false),
    match scan o l (sm_missing m) m with
    | Ok m' => scanned o (s :: l) m m' /\ (forall k s', sm_get m k = Some None -> find (named k) (s :: l) = Some s' -> exists off, translated o s' k = Ok off)
    | Err e => exists k s', sm_get m k = Some None /\ find (named k) (s :: l) = Some s' /\ translated o s' k = Err e
    end) as Skip.
  { intros Hn. specialize (IH m). destruct (scan o l (sm_missing m) m) as [m'|e].
    - destruct IH as [A B]. split; [now apply scanned_skip|]. intros k s' G. cbn [find]. rewrite (Hn k G). now apply B.
    - destruct IH as (k & s' & G & A & B). exists k, s'. cbn [find]. rewrite (Hn k G). auto. }
  cbn [scan]. destruct (us_name s) as [name|] eqn:N.
  2:{ apply Skip. intros k _. unfold named. now rewrite N. }
  destruct (sm_get m name) as [[v|]|] eqn:G.
  1,3: apply Skip; intros k Gk; unfold named; rewrite N; apply str_eqb_neq; intros ->; congruence.
  assert (named name s = true) as Hs by now apply named_iff.
  destruct (translated o s name) as [off|e] eqn:T; cbn [bind].
  2:{ exists name, s. cbn [find]. rewrite Hs. auto. }
  rewrite (sm_missing_set m name off G). set (m1 := sm_set m name off).
  assert (forall k, sm_get m1 k = Some None -> sm_get m k = Some None /\ named k s = false) as Old.
  { intros k Gk. unfold m1 in Gk. rewrite sm_get_set, G in Gk. destruct (str_eqb name k) eqn:E; [discriminate|]. split; [exact Gk|].
    unfold named. now rewrite N. }
  assert (forall m', scanned o l m1 m' -> scanned o (s :: l) m m') as Lift.
  { intros m' S k. rewrite (S k). unfold m1. rewrite sm_get_set, G. destruct (str_eqb name k) eqn:E.
    - apply str_eqb_eq in E. subst k. rewrite G. cbn [find]. now rewrite Hs, T.
    - destruct (sm_get m k) as [[w|]|]; try reflexivity. cbn [find]. unfold named at 2. now rewrite N, E. }
  assert ((forall k s', sm_get m1 k = Some None -> find (named k) l = Some s' -> exists off, translated o s' k = Ok off) ->
    forall k s', sm_get m k = Some None -> find (named k) (s :: l) = Some s' -> exists off, translated o s' k = Ok off) as Lift2.
  { intros B k s' Gk F. cbn [find] in F. destruct (named k s) eqn:E.
    - apply some_inj in F. subst s'. apply named_iff in E. assert (k = name) by congruence. subst k. now exists off.
    - apply (B k s'); [|exact F]. unfold m1. rewrite sm_get_set, G. destruct (str_eqb name k) eqn:E2; [|exact Gk].
      apply str_eqb_eq in E2. subst k. congruence. }
  destruct (Nat.eqb_spec (S (sm_missing m1)) 1) as [Z|NZ].
  - assert (forall k, sm_get m1 k <> Some None) as Done by (intros k; apply sm_missing_zero; lia).
    split; [apply Lift|apply Lift2].
    + intros k. specialize (Done k). destruct (sm_get m1 k) as [[w|]|]; congruence.
    + intros k s' Gk. now destruct (Done k).
  - replace (S (sm_missing m1) - 1)%nat with (sm_missing m1) by lia. specialize (IH m1). destruct (scan o l (sm_missing m1) m1) as [m'|e].
    + destruct IH as [A B]. auto.
    + destruct IH as (k & s' & Gk & A & B). destruct (Old k Gk) as [G0 E0]. exists k, s'. cbn [find]. rewrite E0. auto.
Qed.

Lemma in_object_spec o m : match resolve_in_object o m with
  | Ok m' => scanned o (uo_dynamic o ++ uo_static o) m m' /\ (forall k s, sm_get m k = Some None -> find_symbol o k = Some s -> exists off, translated o s k = Ok off)
  | Err e => exists k s, sm_get m k = Some None /\ find_symbol o k = Some s /\ translated o s k = Err e
  end.
Proof.
  unfold resolve_in_object. destruct m as [|x m]; [|exact (scan_spec o _ (x :: m))].
  split; [intros k; reflexivity|]. intros k s H. discriminate.
Qed.

(** The names asked for. *)
Definition names_of (l : list pending) : symmap := fold_left (fun m p => match pending_symbol p with Some s => sm_add m s | None => m end) l [].
Lemma sm_get_app m k k' : sm_get (m ++ [(k, None)]) k' = match sm_get m k' with Some v => Some v | None => if str_eqb k k' then Some None else None end.
Proof. induction m as [|[k0 w] m IH]; cbn [app sm_get]; [reflexivity|]. destruct (str_eqb k0 k'); [reflexivity|exact IH]. Qed.
Lemma names_go l : forall m, (forall k, sm_get m k = None \/ sm_get m k = Some None) ->
  forall k, sm_get (fold_left (fun m p => match pending_symbol p with Some s => sm_add m s | None => m end) l m) k =
    match sm_get m k with Some v => Some v | None => if existsb (fun p => match pending_symbol p with Some s => str_eqb s k | None => false end) l then Some None else None end.
Proof.
  induction l as [|p l IH]; intros m Hm k; cbn [fold_left existsb]; [now destruct (sm_get m k)|].
  destruct (pending_symbol p) as [s|]; [|apply IH, Hm].
  rewrite IH.
  - unfold sm_add. destruct (sm_get m s) as [v|] eqn:E.
    + destruct (sm_get m k) eqn:Ek; [reflexivity|]. destruct (str_eqb s k) eqn:E2; [apply str_eqb_eq in E2; congruence|reflexivity].
    + rewrite sm_get_app. destruct (sm_get m k); [reflexivity|]. now destruct (str_eqb s k).
  - intros k'. unfold sm_add. destruct (sm_get m s); [apply Hm|]. rewrite sm_get_app. destruct (Hm k') as [-> | ->]; [destruct (str_eqb s k'); auto|auto].
Qed.
Lemma names_of_get l k : sm_get (names_of l) k = if existsb (fun p => match pending_symbol p with Some s => str_eqb s k | None => false end) l then Some None else None.
Proof. unfold names_of. rewrite names_go; [reflexivity|]. intros; now left. Qed.
Lemma names_of_in l s a : In (PSym s a) l -> sm_get (names_of l) s = Some None.
Proof.
  intros I. rewrite names_of_get. assert (existsb (fun p => match pending_symbol p with Some s0 => str_eqb s0 s | None => false end) l = true) as ->; [|reflexivity].
  apply existsb_exists. exists (PSym s a). split; [exact I|apply str_eqb_refl].
Qed.
Lemma names_of_only l k : sm_get (names_of l) k <> None -> exists a, In (PSym k a) l.
Proof.
  rewrite names_of_get. destruct (existsb _ l) eqn:E; [|congruence]. intros _. apply existsb_exists in E as ([o|s a] & I & H); cbn in H; [discriminate|].
  apply str_eqb_eq in H. subst s. now exists a.
Qed.

Lemma first_some_in {A B} (f : A -> option B) l y : first_some f l = Some y -> exists x, In x l /\ f x = Some y.
Proof. induction l as [|x l IH]; [discriminate|]. cbn [first_some]. destruct (f x) eqn:E; intros H; [exists x; split; [now left|congruence]|]. destruct (IH H) as (z & I & F). exists z. split; [now right|exact F]. Qed.
Lemma first_some_none {A B} (f : A -> option B) l : first_some f l = None -> forall x, In x l -> f x = None.
Proof. induction l as [|x l IH]; [intros _ y []|]. cbn [first_some]. destruct (f x) eqn:E; [discriminate|]. intros H y [<-|I]; [exact E|now apply IH]. Qed.

Lemma map_err_ok {A} fb (r : res rerr A) v : map_err fb r = Ok v <-> r = Ok v.
Proof. destruct r; cbn; split; congruence. Qed.
Lemma map_err_err {A} fb (r : res rerr A) s e : map_err fb r = Err (s, e) -> r = Err e /\ s = blame fb e.
Proof. destruct r; cbn; [discriminate|]. intros H. injection H as <- <-. auto. Qed.

(** The last step given a map that has every symbol as it resolves alone. *)
Definition finish (m : symmap) (p : pending) : res (list Z * rerr) Z :=
  match p with
  | PAbs off => Ok off
  | PSym s additional =>
      match sm_get m s with
      | Some (Some off) => add_offset s off additional
      | _ => Err (s, RUnknown s)
      end
  end.

(** The map phase: on success the map has for every symbol asked for what it
    resolves to alone; a failure is that of one of them. *)
Definition mapped (dbg : list Z -> list Z -> list Z) (fs : files) (path : list Z) (l : list pending) : res (list Z * rerr) symmap :=
  match first_some pending_symbol l with
  | None => Ok (names_of l)
  | Some first =>
      bind (map_err first (open_main fs path)) (fun o =>
      bind (map_err first (resolve_in_object o (names_of l))) (fun m =>
      match first_some (fun p => match pending_symbol p with
                                 | Some s => match sm_get m s with Some None => Some s | _ => None end
                                 | None => None
                                 end) l with
      | None => Ok m
      | Some missing =>
          bind (map_err missing (find_debug_path dbg o path missing)) (fun dpath =>
          bind (map_err missing (open_debug fs dpath)) (fun d =>
          bind (map_err missing (verify_build_ids o d missing)) (fun _ =>
          map_err missing (resolve_in_object d m))))
      end))
  end.
Lemma pending_split dbg fs path l : resolve_pending dbg fs path l = bind (mapped dbg fs path l) (fun m => mapM (finish m) l).
Proof. reflexivity. Qed.

Lemma verify_same o d a b : is_ok (verify_build_ids o d a) = is_ok (verify_build_ids o d b).
Proof. unfold verify_build_ids. destruct (uo_build_id d), (uo_build_id o); try reflexivity. now destruct (str_eqb _ _). Qed.

Lemma mapped_ok dbg fs path l m : mapped dbg fs path l = Ok m -> forall s a, In (PSym s a) l ->
  resolve_symbol dbg fs path s = match sm_get m s with Some (Some off) => Ok off | _ => Err (RUnknown s) end.
Proof.
  unfold mapped. destruct (first_some pending_symbol l) as [first|] eqn:Ff.
  2:{ intros _ s a I. pose proof (first_some_none _ _ Ff _ I) as H. discriminate. }
  unfold resolve_symbol. destruct (open_main fs path) as [o|e]; cbn [map_err bind]; [|discriminate].
  pose proof (in_object_spec o (names_of l)) as S1. destruct (resolve_in_object o (names_of l)) as [m1|e]; cbn [map_err bind]; [|discriminate].
  destruct S1 as [S1 T1].
  assert (forall s a, In (PSym s a) l -> sm_get m1 s = match find_symbol o s with
            | Some x => match translated o x s with Ok off => Some (Some off) | Err _ => Some None end | None => Some None end) as G1.
  { intros s a I. rewrite (S1 s), (names_of_in l s a I). reflexivity. }
  clear Ff. destruct (first_some _ l) as [missing|] eqn:Fm.
  - destruct (find_debug_path dbg o path missing) as [dpath|] eqn:Fd; cbn [map_err bind]; [|discriminate].
    destruct (open_debug fs dpath) as [d|] eqn:Fo; cbn [map_err bind]; [|discriminate].
    destruct (verify_build_ids o d missing) as [[]|] eqn:Fv; cbn [map_err bind]; [|discriminate].
    pose proof (in_object_spec d m1) as S2. destruct (resolve_in_object d m1) as [m2|e]; cbn [map_err]; [|discriminate].
    intros H s a I. apply ok_inj in H. subst m2. destruct S2 as [S2 T2]. rewrite (S2 s). specialize (G1 s a I). rewrite G1.
    destruct (find_symbol o s) as [x|] eqn:Fs.
    + destruct (T1 s x (names_of_in l s a I) Fs) as [off ->]. reflexivity.
    + unfold find_debug_path in *. destruct (uo_debuglink o) as [[f|]|]; try discriminate. apply ok_inj in Fd. subst dpath. cbn [bind]. rewrite Fo. cbn [bind].
      assert (verify_build_ids o d s = Ok tt) as ->.
      { pose proof (verify_same o d s missing) as V. rewrite Fv in V. cbn in V. destruct (verify_build_ids o d s) as [[]|]; [reflexivity|discriminate]. }
      cbn [bind]. change (find (named s) (uo_dynamic d ++ uo_static d)) with (find_symbol d s). destruct (find_symbol d s) as [y|] eqn:Fy; [|reflexivity].
      destruct (T2 s y G1 Fy) as [off ->]. reflexivity.
  - intros H s a I. apply ok_inj in H. subst m1. pose proof (first_some_none _ _ Fm _ I) as N. cbn [pending_symbol] in N.
    specialize (G1 s a I). cbn [bind]. destruct (find_symbol o s) as [x|] eqn:Fs.
    + destruct (T1 s x (names_of_in l s a I) Fs) as [off E]. rewrite E in G1. now rewrite G1, E.
    + rewrite G1 in N. discriminate.
Qed.

Lemma mapped_err dbg fs path l b e : mapped dbg fs path l = Err (b, e) -> exists s a, In (PSym s a) l /\ resolve_symbol dbg fs path s = Err e.
Proof.
  unfold mapped. destruct (first_some pending_symbol l) as [first|] eqn:Ff; [|discriminate].
  destruct (first_some_in _ _ _ Ff) as ([off|s0 a0] & I0 & E0); [discriminate|]. cbn in E0. apply some_inj in E0. subst s0.
  unfold resolve_symbol. destruct (open_main fs path) as [o|e0]; cbn [map_err bind].
  2:{ intros H. assert (e = _) as -> by (symmetry; exact (f_equal (fun r => match r with Ok _ => e | Err q => snd q end) H)). now exists first, a0. }
  pose proof (in_object_spec o (names_of l)) as S1. destruct (resolve_in_object o (names_of l)) as [m1|e1]; cbn [map_err bind].
  2:{ intros H. assert (e = _) as -> by (symmetry; exact (f_equal (fun r => match r with Ok _ => e | Err q => snd q end) H)). destruct S1 as (k & s & G & F & T). destruct (names_of_only l k) as [a I]; [congruence|]. exists k, a. split; [exact I|]. cbn [bind]. now rewrite F. }
  destruct S1 as [S1 T1].
  assert (forall s a, In (PSym s a) l -> sm_get m1 s = match find_symbol o s with
            | Some x => match translated o x s with Ok off => Some (Some off) | Err _ => Some None end | None => Some None end) as G1.
  { intros s a I. rewrite (S1 s), (names_of_in l s a I). reflexivity. }
  clear Ff. destruct (first_some _ l) as [missing|] eqn:Fm; [|discriminate].
  destruct (first_some_in _ _ _ Fm) as ([off|s1 a1] & I1 & E1); [discriminate|]. cbn [pending_symbol] in E1.
  destruct (sm_get m1 s1) as [[v|]|] eqn:Gm; try discriminate. apply some_inj in E1. subst s1.
  assert (find_symbol o missing = None) as Fn.
  { specialize (G1 missing a1 I1). rewrite Gm in G1. destruct (find_symbol o missing) as [x|] eqn:Fs; [|reflexivity].
    destruct (T1 missing x (names_of_in l missing a1 I1) Fs) as [off E]. rewrite E in G1. discriminate. }
  destruct (find_debug_path dbg o path missing) as [dpath|] eqn:Fd; cbn [map_err bind].
  2:{ intros H. assert (e = _) as -> by (symmetry; exact (f_equal (fun r => match r with Ok _ => e | Err q => snd q end) H)). exists missing, a1. split; [exact I1|]. now rewrite Fn, Fd. }
  destruct (open_debug fs dpath) as [d|] eqn:Fo; cbn [map_err bind].
  2:{ intros H. assert (e = _) as -> by (symmetry; exact (f_equal (fun r => match r with Ok _ => e | Err q => snd q end) H)). exists missing, a1. split; [exact I1|]. rewrite Fn, Fd. cbn [bind]. now rewrite Fo. }
  destruct (verify_build_ids o d missing) as [[]|] eqn:Fv; cbn [map_err bind].
  2:{ intros H. assert (e = _) as -> by (symmetry; exact (f_equal (fun r => match r with Ok _ => e | Err q => snd q end) H)). exists missing, a1. split; [exact I1|]. rewrite Fn, Fd. cbn [bind]. rewrite Fo. cbn [bind]. now rewrite Fv. }
  pose proof (in_object_spec d m1) as S2. destruct (resolve_in_object d m1) as [m2|e2]; cbn [map_err]; [discriminate|].
  intros H. assert (e = _) as -> by (symmetry; exact (f_equal (fun r => match r with Ok _ => e | Err q => snd q end) H)). destruct S2 as (k & s & G & F & T).
  assert (exists a, In (PSym k a) l) as [a I].
  { apply names_of_only. specialize (S1 k). rewrite G in S1. destruct (sm_get (names_of l) k); congruence. }
  exists k, a. split; [exact I|].
  assert (find_symbol o k = None) as Fk.
  { specialize (G1 k a I). rewrite G in G1. destruct (find_symbol o k) as [x|] eqn:Fs; [|reflexivity].
    destruct (T1 k x (names_of_in l k a I) Fs) as [off E]. rewrite E in G1. discriminate. }
  rewrite Fk. unfold find_debug_path in *. destruct (uo_debuglink o) as [[f|]|]; try discriminate. apply ok_inj in Fd. subst dpath. cbn [bind]. rewrite Fo. cbn [bind].
  assert (verify_build_ids o d k = Ok tt) as ->.
  { pose proof (verify_same o d k missing) as V. rewrite Fv in V. cbn in V. destruct (verify_build_ids o d k) as [[]|]; [reflexivity|discriminate]. }
  cbn [bind]. now rewrite F.
Qed.

Lemma finish_alone dbg fs path l m : mapped dbg fs path l = Ok m -> forall p, In p l -> finish m p = alone dbg fs path p.
Proof.
  intros H [off|s a] I; [reflexivity|]. cbn [finish alone]. rewrite (mapped_ok dbg fs path l m H s a I).
  destruct (sm_get m s) as [[v|]|]; reflexivity.
Qed.

Lemma mapM_ext {E A B} (f g : A -> res E B) l : (forall x, In x l -> f x = g x) -> mapM f l = mapM g l.
Proof.
  induction l as [|x l IH]; intros H; [reflexivity|]. cbn [mapM]. rewrite (H x (or_introl eq_refl)). destruct (g x); cbn [bind]; [|reflexivity].
  rewrite IH; [reflexivity|]. intros y I. apply H. now right.
Qed.

Lemma batch_alone dbg fs path l offs : resolve_pending dbg fs path l = Ok offs <-> mapM (alone dbg fs path) l = Ok offs.
Proof.
  rewrite pending_split. destruct (mapped dbg fs path l) as [m|[b e]] eqn:M; cbn [bind].
  - rewrite (mapM_ext _ _ _ (finish_alone dbg fs path l m M)). reflexivity.
  - split; [discriminate|]. intros H. exfalso. destruct (mapped_err _ _ _ _ _ _ M) as (s & a & I & E).
    clear M. revert offs H. induction l as [|p l IH]; [destruct I|]. intros offs H. cbn [mapM] in H.
    destruct I as [->|I].
    + cbn [alone] in H. rewrite E in H. discriminate.
    + destruct (alone dbg fs path p); cbn [bind] in H; [|discriminate]. destruct (mapM (alone dbg fs path) l) as [v|] eqn:Q; [|discriminate].
      exact (IH I v eq_refl).
Qed.

Lemma batch_fails dbg fs path l b e : resolve_pending dbg fs path l = Err (b, e) ->
  exists s a b', In (PSym s a) l /\ alone dbg fs path (PSym s a) = Err (b', e).
Proof.
  rewrite pending_split. destruct (mapped dbg fs path l) as [m|[b0 e0]] eqn:M; cbn [bind]; intros H.
  - rewrite (mapM_ext _ _ _ (finish_alone dbg fs path l m M)) in H. apply mapM_err in H as ([off|s a] & I & E); [discriminate|]. now exists s, a, b.
  - assert (e0 = e) by congruence. subst e0. destruct (mapped_err _ _ _ _ _ _ M) as (s & a & I & E). exists s, a, s. split; [exact I|]. cbn [alone]. now rewrite E.
Qed.

(** * Points *)

Definition cookie_list (l : list point) : list Z := map (fun p => match pt_cookie p with Some c => c | None => 0 end) l.
Lemma collect_some l : forall i v, collect_cookies i (Some v) l = Some (v ++ cookie_list l).
Proof.
  induction l as [|p l IH]; intros i v; cbn [collect_cookies cookie_list map]; [now rewrite app_nil_r|].
  unfold add_cookie. destruct (pt_cookie p); rewrite IH, <- app_assoc; reflexivity.
Qed.
Lemma cookie_zeros l : (forall p, In p l -> pt_cookie p = None) -> cookie_list l = repeat 0 (length l).
Proof.
  unfold cookie_list. induction l as [|p l IH]; intros H; [reflexivity|]. cbn [map length repeat]. rewrite (H p (or_introl eq_refl)), IH; [reflexivity|]. intros q I. apply H. now right.
Qed.
Lemma collect_none l : forall i, collect_cookies i None l =
  if existsb (fun p => match pt_cookie p with Some _ => true | None => false end) l then Some (repeat 0 i ++ cookie_list l) else None.
Proof.
  induction l as [|p l IH]; intros i; [reflexivity|]. cbn [collect_cookies existsb]. unfold add_cookie. destruct (pt_cookie p) as [c|] eqn:E.
  - rewrite collect_some. cbn [orb]. unfold cookie_list. cbn [map]. rewrite E, <- app_assoc. reflexivity.
  - rewrite IH. cbn [orb]. destruct (existsb _ l); [|reflexivity]. f_equal. unfold cookie_list. cbn [map]. rewrite E.
    change (repeat 0 (S i)) with (0 :: repeat 0 i). rewrite repeat_cons, <- app_assoc. reflexivity.
Qed.
Lemma collect_all_none l : (forall p, In p l -> pt_cookie p = None) -> collect_cookies 0 None l = None.
Proof.
  intros H. rewrite collect_none. destruct (existsb _ l) eqn:E; [|reflexivity]. apply existsb_exists in E as (p & I & Hp). rewrite (H p I) in Hp. discriminate.
Qed.
Lemma collect_one l p c : In p l -> pt_cookie p = Some c -> collect_cookies 0 None l = Some (cookie_list l).
Proof.
  intros I E. rewrite collect_none. assert (existsb (fun p => match pt_cookie p with Some _ => true | None => false end) l = true) as ->; [|reflexivity].
  apply existsb_exists. exists p. split; [exact I|now rewrite E].
Qed.

Lemma forall2_length {A B} (R : A -> B -> Prop) l r : Forall2 R l r -> length l = length r.
Proof. induction 1; cbn; congruence. Qed.
Lemma forall2_map_l {A B C} (R : B -> C -> Prop) (f : A -> B) l r : Forall2 R (map f l) r <-> Forall2 (fun x y => R (f x) y) l r.
Proof.
  split.
  - revert r. induction l as [|x l IH]; intros r H; cbn [map] in H; inversion H; subst; constructor; auto.
  - induction 1; constructor; auto.
Qed.

(** What one point asks for. *)
Definition point_at (dbg : list Z -> list Z -> list Z) (fs : files) (path : list Z) (p : point) (off : Z) : Prop :=
  match pt_loc p with
  | LAbsolute o => off = o
  | LSymbol s => resolve_symbol dbg fs path s = Ok off /\ off < 2 ^ 64
  | LSymbolOffset s a => exists base, resolve_symbol dbg fs path s = Ok base /\ off = base + a /\ off < 2 ^ 64
  end.
Lemma add_offset_ok s o a r : add_offset s o a = Ok r <-> r = o + a /\ r < 2 ^ 64.
Proof.
  unfold add_offset. destruct (Z.leb_spec (2 ^ 64) (o + a)); split; try discriminate; try lia.
  - intros H1. apply ok_inj in H1. lia.
  - intros [-> _]. reflexivity.
Qed.
Lemma alone_point dbg fs path p off : alone dbg fs path (pending_of (pt_loc p)) = Ok off <-> point_at dbg fs path p off.
Proof.
  unfold point_at. destruct (pt_loc p) as [s|s a|o]; cbn [pending_of alone].
  - destruct (resolve_symbol dbg fs path s) as [b|]; [|split; [discriminate|intros [? _]; discriminate]]. rewrite add_offset_ok. split.
    + intros [-> H]. split; [f_equal; lia|exact H].
    + intros [E H]. apply ok_inj in E. split; lia.
  - destruct (resolve_symbol dbg fs path s) as [b|]; [|split; [discriminate|intros (c & E & _); discriminate]]. rewrite add_offset_ok. split.
    + intros [-> H]. now exists b.
    + intros (c & E & -> & H). apply ok_inj in E. subst c. auto.
  - split; [intros H; now apply ok_inj in H|now intros ->].
Qed.

Lemma mapM_all {E A B} (f : A -> res E B) l r : mapM f l = Ok r <-> Forall2 (fun x y => f x = Ok y) l r.
Proof.
  split; [apply mapM_ok|]. induction 1 as [|x y l r Hx H IH]; [reflexivity|]. cbn [mapM]. now rewrite Hx, IH.
Qed.

Lemma points_spec dbg fs path first rest r : resolve_points dbg fs path first rest = Ok r ->
  Forall2 (point_at dbg fs path) (first :: rest) (r_offsets r) /\
  ((forall p, In p (first :: rest) -> pt_cookie p = None) -> r_cookies r = None) /\
  (forall p c, In p (first :: rest) -> pt_cookie p = Some c -> r_cookies r = Some (cookie_list (first :: rest))).
Proof.
  unfold resolve_points. destruct rest as [|p2 rest].
  - assert ((match pending_of (pt_loc first) with
        | PAbs o => Ok (One o (pt_cookie first))
        | PSym s additional => match resolve_symbol dbg fs path s with Err e => Err (s, e) | Ok off => bind (add_offset s off additional) (fun o => Ok (One o (pt_cookie first))) end
        end) = bind (alone dbg fs path (pending_of (pt_loc first))) (fun o => Ok (One o (pt_cookie first)))) as E.
    { destruct (pending_of (pt_loc first)) as [o|s a]; cbn [alone bind]; [reflexivity|]. now destruct (resolve_symbol dbg fs path s). }
    rewrite E. destruct (alone dbg fs path (pending_of (pt_loc first))) as [o|] eqn:A; cbn [bind]; intros H; [|discriminate].
    apply ok_inj in H. subst r. cbn [r_offsets r_cookies]. split; [constructor; [now apply alone_point|constructor]|]. split.
    + intros H. now rewrite (H first (or_introl eq_refl)).
    + intros p c [<-|[]] Hc. unfold cookie_list. cbn [map]. now rewrite Hc.
  - destruct (resolve_pending dbg fs path _) as [offs|] eqn:R; cbn [bind]; intros H; [|discriminate]. apply ok_inj in H. subst r. cbn [r_offsets r_cookies].
    apply batch_alone, mapM_all, forall2_map_l in R. split.
    + revert R. generalize (first :: p2 :: rest), offs. induction 1; constructor; auto. now apply alone_point.
    + split; [apply collect_all_none|]. intros p c. apply collect_one.
Qed.
Lemma points_exists dbg fs path first rest offs : Forall2 (point_at dbg fs path) (first :: rest) offs -> exists r, resolve_points dbg fs path first rest = Ok r.
Proof.
  intros H. unfold resolve_points. destruct rest as [|p2 rest].
  - inversion H as [|x y l l' Hx _]; subst. apply alone_point in Hx. destruct (pending_of (pt_loc first)) as [o|s a]; [eauto|]. cbn [alone] in Hx.
    destruct (resolve_symbol dbg fs path s); [|discriminate]. rewrite Hx. cbn [bind]. eauto.
  - assert (resolve_pending dbg fs path (map (fun p => pending_of (pt_loc p)) (first :: p2 :: rest)) = Ok offs) as ->; [|cbn [bind]; eauto].
    apply batch_alone, mapM_all, forall2_map_l. revert H. generalize (first :: p2 :: rest), offs. induction 1; constructor; auto. now apply alone_point.
Qed.

(** One request per point, in order, each with its own cookie. *)
Lemma single_nth offs cs : forall i, length cs = (i + length offs)%nat ->
  single_from i offs (Some cs) = combine offs (map Some (skipn i cs)).
Proof.
  induction offs as [|o offs IH]; intros i H; [reflexivity|]. cbn [single_from]. cbn [length] in H.
  destruct (nth_error cs i) as [c|] eqn:E; [|apply nth_error_None in E; lia].
  assert (skipn i cs = c :: skipn (S i) cs) as ->.
  { clear - E. revert i E. induction cs as [|x cs IH]; intros i E; [now destruct i|]. destruct i; cbn in E |- *; [now injection E as ->|]. now rewrite (IH i E). }
  cbn [map combine]. rewrite (IH (S i)); [reflexivity|lia].
Qed.
Lemma single_none offs : forall i, single_from i offs None = map (fun o => (o, None)) offs.
Proof. induction offs as [|o offs IH]; intros i; [reflexivity|]. cbn [single_from map]. now rewrite IH. Qed.

(** The cookie of a request for a point: its own, or zero when only others
    have one. *)
Definition cookie_for (l : list point) (p : point) : option Z :=
  match pt_cookie p with
  | Some c => Some c
  | None => if existsb (fun q => match pt_cookie q with Some _ => true | None => false end) l then Some 0 else None
  end.
Lemma singles_spec dbg fs path first rest r : resolve_points dbg fs path first rest = Ok r ->
  Forall2 (fun p q => point_at dbg fs path p (fst q) /\ snd q = cookie_for (first :: rest) p) (first :: rest) (single_points r).
Proof.
  intros H. pose proof (points_spec _ _ _ _ _ _ H) as (F & N & C). unfold resolve_points in H. destruct rest as [|p2 rest].
  - assert (exists o, r = One o (pt_cookie first)) as [o ->].
    { destruct (pending_of (pt_loc first)) as [o|s a]; [exists o; now apply ok_inj in H|]. destruct (resolve_symbol dbg fs path s) as [b|]; [|discriminate].
      destruct (add_offset s b a) as [o|]; cbn [bind] in H; [|discriminate]. exists o. now apply ok_inj in H. }
    cbn [single_points r_offsets] in *. inversion F as [|x y l l' Fx _]; subst. constructor; [|constructor]. cbn [fst snd]. split; [exact Fx|].
    unfold cookie_for. cbn [existsb]. now destruct (pt_cookie first).
  - destruct (resolve_pending dbg fs path _) as [offs|] eqn:R; cbn [bind] in H; [|discriminate]. apply ok_inj in H. subst r. cbn [r_offsets r_cookies single_points] in *.
    clear R. set (l := first :: p2 :: rest) in *. unfold cookie_for. rewrite collect_none. destruct (existsb _ l) eqn:E.
    + cbn [repeat app]. pose proof (forall2_length _ _ _ F) as Len. rewrite single_nth; [|unfold cookie_list; rewrite map_length; cbn; exact Len]. cbn [skipn].
      clearbody l. clear E N C. induction F as [|p o l offs Hp F IH]; [constructor|]. cbn [cookie_list map combine]. constructor; [split; [exact Hp|cbn [snd]; now destruct (pt_cookie p)]|]. apply IH. cbn [length] in Len. lia.
    + rewrite single_none. assert (forall p, In p l -> pt_cookie p = None) as Z.
      { intros p I. destruct (pt_cookie p) eqn:Ep; [|reflexivity]. assert (existsb (fun p => match pt_cookie p with Some _ => true | None => false end) l = true); [|congruence].
        apply existsb_exists. exists p. split; [exact I|now rewrite Ep]. }
      clearbody l. clear E N C. induction F as [|p o l offs Hp F IH]; [constructor|]. cbn [map]. constructor; [split; [exact Hp|cbn [snd]; now rewrite (Z p (or_introl eq_refl))]|]. apply IH. intros q I. apply Z. now right.
Qed.

Lemma multi_spec dbg fs path first rest r pid ret : resolve_points dbg fs path first rest = Ok r ->
  let q := multi_link r pid ret in
  Forall2 (point_at dbg fs path) (first :: rest) (mr_offsets q) /\
  (Z.of_nat (length (first :: rest)) < 2 ^ 32 -> mr_cnt q = Z.of_nat (length (first :: rest)) /\ mr_cnt q = Z.of_nat (length (mr_offsets q))) /\
  match mr_cookies q with
  | None => forall p, In p (first :: rest) -> pt_cookie p = None
  | Some cs => Forall2 (fun p c => c = match pt_cookie p with Some c => c | None => 0 end) (first :: rest) cs
  end /\ mr_pid q = pid /\ mr_return q = ret.
Proof.
  intros H. pose proof (points_spec _ _ _ _ _ _ H) as (F & N & C). cbn [multi_link mr_offsets mr_cnt mr_cookies mr_pid mr_return]. split; [exact F|].
  split. { intros L. pose proof (forall2_length _ _ _ F) as E. rewrite <- E. split; apply Z.mod_small; lia. }
  split; [|auto].
  destruct (existsb (fun p => match pt_cookie p with Some _ => true | None => false end) (first :: rest)) eqn:E.
  - apply existsb_exists in E as (p & I & Hp). destruct (pt_cookie p) as [c|] eqn:Ep; [|discriminate]. rewrite (C p c I Ep).
    unfold cookie_list. generalize (first :: rest). intros l. induction l; constructor; auto.
  - assert (forall p, In p (first :: rest) -> pt_cookie p = None) as Z.
    { intros p I. destruct (pt_cookie p) eqn:Ep; [|reflexivity]. assert (existsb (fun p => match pt_cookie p with Some _ => true | None => false end) (first :: rest) = true); [|congruence].
      apply existsb_exists. exists p. split; [exact I|now rewrite Ep]. }
    rewrite (N Z). exact Z.
Qed.

(** * Scope *)

Lemma scope_perf me s : 0 < me < 2 ^ 31 -> (forall pid, s = OneProcess pid -> 0 < pid < 2 ^ 31) ->
  match snd (fst (scope_pids me s)) with p => perf_fires (perf_scope p) end =
  match s with AllProcesses => FiresAll | CallingProcess => FiresCaller | OneProcess pid => FiresOne pid end.
Proof.
  intros M P. destruct s as [| |pid]; [reflexivity|reflexivity|]. cbn [scope_pids fst snd perf_scope]. specialize (P pid eq_refl).
  destruct (Z.ltb_spec pid (2 ^ 31)); [|lia]. unfold perf_fires. destruct (Z.eqb_spec pid (-1)); [lia|]. destruct (Z.eqb_spec pid 0); [lia|]. destruct (Z.ltb_spec 0 pid); [reflexivity|lia].
Qed.
Lemma scope_multi me s : 0 < me < 2 ^ 31 -> (forall pid, s = OneProcess pid -> 0 < pid < 2 ^ 31 /\ pid <> me) ->
  multi_fires me (snd (scope_pids me s)) =
  match s with AllProcesses => FiresAll | CallingProcess => FiresCaller | OneProcess pid => FiresOne pid end.
Proof.
  intros M P. unfold multi_fires. destruct s as [| |pid]; cbn [scope_pids snd]; [reflexivity| |].
  - destruct (Z.eqb_spec me 0); [lia|]. now rewrite Z.eqb_refl.
  - specialize (P pid eq_refl). destruct (Z.eqb_spec pid 0); [lia|]. destruct (Z.eqb_spec pid me); [lia|reflexivity].
Qed.
Lemma scope_maps me s : fst (fst (scope_pids me s)) = match s with AllProcesses => None | CallingProcess => Some me | OneProcess pid => Some pid end.
Proof. now destruct s. Qed.

Lemma batch_forall dbg fs path l offs : resolve_pending dbg fs path l = Ok offs <-> Forall2 (fun p off => alone dbg fs path p = Ok off) l offs.
Proof. rewrite batch_alone. apply mapM_all. Qed.
Lemma points_array dbg fs path first rest r : resolve_points dbg fs path first rest = Ok r ->
  ((forall p, In p (first :: rest) -> pt_cookie p = None) -> r_cookies r = None) /\
  (forall p c, In p (first :: rest) -> pt_cookie p = Some c -> exists cs, r_cookies r = Some cs /\ length cs = length (first :: rest)).
Proof.
  intros H. destruct (points_spec _ _ _ _ _ _ H) as (_ & N & C). split; [exact N|]. intros p c I E. exists (cookie_list (first :: rest)). split; [now apply (C p c)|].
  unfold cookie_list. apply map_length.
Qed.
