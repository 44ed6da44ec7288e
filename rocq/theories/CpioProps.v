(** Claims about the initial file system of the test machine. *)
From Coq Require Import String.
From Verif Require Import Base Text TextParse LogModel TextSplit CpioModel CpioSpec CpioProofs CpioProofs2 CpioProofs3 CpioProofs4 CpioProofs5.
Local Open Scope Z_scope.

Lemma items_facts t : forall ds ino, Forall (fun '(c, d) => has_data c d) ds ->
  map it_ino (items_all ino ds t) = map (fun k => ino + Z.of_nat k) (seq 0 (length ds)) /\ Forall2 (stands_for t) (map fst ds) (items_all ino ds t).
Proof.
  induction ds as [|(c, d) ds IH]; intros ino F; [split; [reflexivity|constructor]|]. destruct (IH (ino + 1) (Forall_inv_tail F)) as (A & B).
  cbn [items_all map length seq fst]. split.
  - rewrite A, <- seq_shift, map_map. cbn [item_of it_ino]. f_equal; [lia|]. apply map_ext. intros k. lia.
  - constructor; [|exact B]. pose proof (Forall_inv F) as D. cbn beta iota in D. repeat split. exact D.
Qed.

(** * C109: what is put into the archive is in the file system *)

(** Appended entries are read back by the kernel in order, numbered from zero. *)
Theorem C109_read : forall l now b b', 0 <= now < 2 ^ 32 -> Forall fits l -> append_all new_builder l now = Ok b -> append b trailer_call 0 = Ok b' ->
  exists items, read_archive (b_out b') = Some items /\ map it_ino items = map Z.of_nat (seq 0 (length l)) /\ Forall2 (stands_for now) l items.
Proof.
  intros l now b b' Hn F A T. destruct (archive_read now b b' l Hn F A T) as (ds & E & D & R). destruct (items_facts now ds 0 D) as (X & Y).
  exists (items_all 0 ds now). split; [exact R|]. rewrite E in Y. split; [|exact Y]. rewrite X, <- E, map_length. apply map_ext. intros k. apply Z.add_0_l.
Qed.
Print Assumptions C109_read.
(** The file system has exactly the directories and files asked for, with their
    contents and permissions. *)
Theorem C109_contents : forall i now out, good i -> 0 <= now -> initramfs i now = Ok out ->
  exists t, boot out = Some t /\ t [] = Some (NDir 493) /\ forall p n, p <> [] -> (t p = Some n <-> wanted i p n).
Proof. exact booted. Qed.
Print Assumptions C109_contents.
(** It is built whenever all files can be read, below 4 GiB, and there are not too
    many. *)
Theorem C109_built : forall i now, good i -> ((exists out, initramfs i now = Ok out) <-> now < 2 ^ 32 /\ readable i /\ Z.of_nat (entries i) + 1 < 2 ^ 32).
Proof. exact built. Qed.
Print Assumptions C109_built.
(** A single entry fails only for its size, its file, or too many entries. *)
Theorem C109_append : forall b c mtime, (exists b', append b c mtime = Ok b') <->
  (exists d, match c_source c with None => d = [] | Some s => source_is s d end) /\ Z.of_nat (length (c_name c)) + 1 < 2 ^ 32 /\ b_inode b + 1 < 2 ^ 32.
Proof.
  intros b c mtime. split.
  - intros (b' & H). apply append_ok in H as (d & D & N & I & _). split; [exists d; exact D|auto].
  - intros ((d & D) & N & I). eexists. apply append_ok. exists d. split; [exact D|]. split; [exact N|]. split; [exact I|reflexivity].
Qed.
Print Assumptions C109_append.

Definition some_source (d : str) : source := {| s_meta := Some (Z.of_nat (length d)); s_data := Some d |}.
Definition some_input (bins : list (str * source)) : input := {|
  i_config_name := Some (txt "config-6.1"); i_config := some_source (txt "CONFIG_BPF=y");
  i_map_name := Some (txt "System.map-6.1"); i_map := some_source (txt "ffffffff T start");
  i_distro := [(txt "init", some_source (txt "first")); (txt "modprobe", some_source (txt "loader"))];
  i_modules := [{| w_rel := []; w_kind := KDir; w_source := some_source [] |};
    {| w_rel := [txt "kernel"]; w_kind := KDir; w_source := some_source [] |};
    {| w_rel := [txt "kernel"; txt "a.ko"]; w_kind := KFile; w_source := some_source (txt "module") |};
    {| w_rel := [txt "build"]; w_kind := KOther; w_source := some_source [] |}];
  i_binaries := [(txt "dev", bins); (txt "release", [(txt "tests", some_source (txt "fast"))])] |}.
Definition look (i : input) (p : path) : option node :=
  match initramfs i 1700000000 with Ok out => match boot out with Some t => t p | None => None end | Err _ => None end.
Example C109_some : look (some_input [(txt "tests", some_source (txt "slow"))]) [txt "bin"; txt "dev-tests"] = Some (NFile 493 (txt "slow")) /\
  look (some_input []) [txt "lib"; txt "modules"; txt "kernel"; txt "a.ko"] = Some (NFile 420 (txt "module")) /\
  look (some_input []) [txt "init"] = Some (NFile 493 (txt "first")).
Proof. vm_compute. auto. Qed.
Lemma component_txt n : forallb (fun c => negb (c =? 47) && negb (c =? 0)) n = true -> n <> [] -> component n.
Proof.
  intros H N. rewrite forallb_forall in H. split; [exact N|]. split; intros I; specialize (H _ I); discriminate H.
Qed.
Fixpoint nodupb {A} (dec : forall x y : A, {x = y} + {x <> y}) (l : list A) : bool :=
  match l with [] => true | x :: l => if in_dec dec x l then false else nodupb dec l end.
Lemma nodupb_ok {A} (dec : forall x y : A, {x = y} + {x <> y}) l : nodupb dec l = true -> NoDup l.
Proof. induction l as [|x l IH]; [constructor|]. cbn [nodupb]. destruct (in_dec dec x l); [discriminate|]. constructor; auto. Qed.
Ltac comps := repeat (apply Forall_cons; [apply component_txt; [reflexivity|discriminate]|]); apply Forall_nil.
Example C109_some_good : good (some_input [(txt "tests", some_source (txt "slow"))]) /\ readable (some_input [(txt "tests", some_source (txt "slow"))]).
Proof.
  split.
  - constructor.
    + split; [apply (nodupb_ok (list_eq_dec Z.eq_dec)); vm_compute; reflexivity|comps].
    + split; [apply (nodupb_ok (list_eq_dec Z.eq_dec)); vm_compute; reflexivity|comps].
    + split; [apply (nodupb_ok path_dec); vm_compute; reflexivity|]. intros a w b E.
      destruct a as [|a0 [|a1 [|a2 [|a3 a]]]].
      * injection E as <- <-. cbn [w_rel w_kind]. split; [comps|reflexivity].
      * injection E as <- <- <-. cbn [w_rel w_kind]. split; [comps|]. eexists. split; [left; reflexivity|]. split; reflexivity.
      * injection E as <- <- <- <-. cbn [w_rel w_kind]. split; [comps|]. eexists. split; [right; left; reflexivity|]. split; reflexivity.
      * injection E as <- <- <- <- <-. cbn [w_rel w_kind]. split; [comps|]. eexists. split; [left; reflexivity|]. split; reflexivity.
      * injection E as _ _ _ _ E. destruct a; discriminate E.
    + split; [apply (nodupb_ok (list_eq_dec Z.eq_dec)); vm_compute; reflexivity|comps].
    + repeat (apply Forall_cons; [cbn; lia|]). apply Forall_nil.
  - assert (S : forall d, Z.of_nat (length d) < 2 ^ 32 -> exists d', source_is (some_source d) d') by (intros d L; exists d; repeat split; exact L).
    unfold readable. split; [apply S; cbn; lia|]. split; [apply S; cbn; lia|]. split; [|split].
    + intros n s [E|[E|[]]]; apply pair_equal_spec in E as [_ <-]; apply S; cbn; lia.
    + intros w [<-|[<-|[<-|[<-|[]]]]] K; try discriminate K. apply S. cbn. lia.
    + intros p l n s [E|[E|[]]]; apply pair_equal_spec in E as [_ <-]; intros [E|[]]; apply pair_equal_spec in E as [_ <-]; eexists; (split; [reflexivity|cbn; lia]).
Qed.

(** Refuted: of two test programs of the same name in a profile only the last one is
    there, without an error. *)
Theorem C109_same_name_refuted : exists i now out t s1 s2 p, In (p, [(txt "tests", s1); (txt "tests", s2)]) (i_binaries i) /\ s_data s1 <> s_data s2 /\
  initramfs i now = Ok out /\ boot out = Some t /\ forall d, s_data s1 = Some d -> forall q, In q [[txt "bin"; p ++ txt "-tests"]] -> t q <> Some (NFile 493 d).
Proof.
  set (i := some_input [(txt "tests", some_source (txt "one")); (txt "tests", some_source (txt "two"))]).
  destruct (initramfs i 1700000000) as [out|e] eqn:E; [|vm_compute in E; discriminate E].
  destruct (boot out) as [t|] eqn:B.
  2:{ exfalso. assert (X : match initramfs i 1700000000 with Ok o => match boot o with Some _ => true | None => false end | Err _ => false end = true) by (vm_compute; reflexivity).
      rewrite E, B in X. discriminate X. }
  exists i, 1700000000, out, t, (some_source (txt "one")), (some_source (txt "two")), (txt "dev").
  split; [left; reflexivity|]. split; [vm_compute; discriminate|]. split; [exact E|]. split; [exact B|].
  intros d D q [<-|[]] H. apply some_inj in D. subst d.
  assert (X : look i [txt "bin"; txt "dev" ++ txt "-tests"] = Some (NFile 493 (txt "two"))) by (vm_compute; reflexivity).
  unfold look in X. rewrite E, B, H in X. apply some_inj in X. discriminate X.
Qed.
Print Assumptions C109_same_name_refuted.
