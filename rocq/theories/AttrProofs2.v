(** Proofs about the attribute macros as a whole. *)
From Coq Require Import String Permutation.
From Verif Require Import Base Text TextParse ObjModel MacroModel ObjProofs6 AttrModel AttrSpec AttrProofs.
Local Open Scope Z_scope.

Lemma args_of t a : parse_args t = Ok a -> exists l, reads t l /\ Permutation (left a) l.
Proof.
  unfold parse_args. destruct (parse_list t) as [l|] eqn:E; [|discriminate]. intros H. apply ok_inj in H. subst a.
  exists l. split; [now apply parse_iff|symmetry; apply left_sort].
Qed.
Lemma args_to t l : reads t l -> exists a, parse_args t = Ok a /\ Permutation (left a) l.
Proof.
  intros R. apply parse_iff in R. unfold parse_args. rewrite R. exists (sort l). split; [reflexivity|symmetry; apply left_sort].
Qed.

Ltac ne := let X := fresh in intros X; vm_compute in X; discriminate X.
Ltac notin := let X := fresh in intros X; cbn [In] in X; repeat (destruct X as [X|X]; [vm_compute in X; discriminate X|]); exact X.

(** One string, perhaps "sleepable". *)
Lemma one_string_iff n mk t name r :
  one_string n mk t (ItFn name) = Ok r <-> exists l v, reads t l /\ only [n] [] l /\ gives l n v /\ r = (name, mk v).
Proof.
  unfold one_string. cbn [item_fn bind]. split.
  - destruct (parse_args t) as [a|e] eqn:P; cbn [bind]; [|discriminate].
    destruct (pop_string n a) as [v a1] eqn:E1. destruct (into_error a1) as [u|e] eqn:I; cbn [bind]; [|discriminate].
    intros H. apply ok_inj in H. destruct (args_of _ _ P) as (l & R & PM). apply into_error_left in I.
    destruct (pop_string_step _ _ _ _ E1) as (G & _ & _ & _ & O). exists l, v. split; [exact R|]. split; [|split; [|now symmetry]].
    + apply (only_perm _ _ _ _ PM). apply O; [intros []|]. now apply only_nil.
    + exact (gives_perm _ _ _ _ PM G).
  - intros (l & v & R & O & G & ->). destruct (args_to _ _ R) as (a & P & PM). rewrite P. cbn [bind].
    destruct (pop_string n a) as [v' a1] eqn:E1. destruct (pop_string_step _ _ _ _ E1) as (G' & _ & _ & O' & _).
    apply (only_perm _ _ _ _ (Permutation_sym PM)) in O. apply (gives_perm _ _ _ _ (Permutation_sym PM)) in G.
    pose proof (gives_same _ _ _ _ _ _ O G' G) as EV. subst v'.
    rewrite (proj2 (into_error_left a1 tt)); [reflexivity|]. apply only_nil. exact (O' _ _ O).
Qed.

Lemma string_sleepable_iff n mk t name r :
  string_sleepable n mk t (ItFn name) = Ok r <->
  exists l v b, reads t l /\ only [n] [txt "sleepable"] l /\ gives l n v /\ flag l (txt "sleepable") b /\ r = (name, mk b v).
Proof.
  unfold string_sleepable. cbn [item_fn bind]. split.
  - destruct (parse_args t) as [a|e] eqn:P; cbn [bind]; [|discriminate].
    destruct (pop_string n a) as [v a1] eqn:E1. destruct (pop_bool (txt "sleepable") a1) as [b a2] eqn:E2.
    destruct (into_error a2) as [u|e] eqn:I; cbn [bind]; [|discriminate].
    intros H. apply ok_inj in H. destruct (args_of _ _ P) as (l & R & PM). apply into_error_left in I.
    destruct (pop_string_step _ _ _ _ E1) as (G & _ & F1 & _ & O). destruct (pop_bool_step _ _ _ _ E2) as (F & _ & _ & _ & O2).
    exists l, v, b. split; [exact R|]. split; [|split; [|split; [|now symmetry]]].
    + apply (only_perm _ _ _ _ PM). apply O; [intros []|]. apply O2; [intros []|]. now apply only_nil.
    + exact (gives_perm _ _ _ _ PM G).
    + apply (flag_perm _ _ _ _ PM). now apply F1.
  - intros (l & v & b & R & O & G & F & ->). destruct (args_to _ _ R) as (a & P & PM). rewrite P. cbn [bind].
    destruct (pop_string n a) as [v' a1] eqn:E1. destruct (pop_bool (txt "sleepable") a1) as [b' a2] eqn:E2.
    destruct (pop_string_step _ _ _ _ E1) as (G' & _ & F1 & O' & _). destruct (pop_bool_step _ _ _ _ E2) as (F' & _ & _ & O2 & _).
    apply (only_perm _ _ _ _ (Permutation_sym PM)) in O. apply (gives_perm _ _ _ _ (Permutation_sym PM)) in G.
    apply (flag_perm _ _ _ _ (Permutation_sym PM)) in F.
    pose proof (gives_same _ _ _ _ _ _ O G' G) as EV. subst v'. apply F1 in F. pose proof (flag_same _ _ _ _ F' F) as EB. subst b'.
    rewrite (proj2 (into_error_left a2 tt)); [reflexivity|]. apply only_nil. exact (O2 _ _ (O' _ _ O)).
Qed.

Lemma tracepoint_iff t name r :
  parse_program AtTracePoint t (ItFn name) = Ok r <->
  exists l n c, reads t l /\ only [txt "name"; txt "category"] [] l /\ gives l (txt "name") n /\ gives l (txt "category") c /\
    match n, c with None, None => r = (name, MTracePoint None) | Some n, Some c => r = (name, MTracePoint (Some (n, c))) | _, _ => False end.
Proof.
  cbn [parse_program item_fn bind]. split.
  - destruct (parse_args t) as [a|e] eqn:P; cbn [bind]; [|discriminate].
    destruct (pop_string (txt "name") a) as [n a1] eqn:E1. destruct (pop_string (txt "category") a1) as [c a2] eqn:E2.
    destruct (into_error a2) as [u|e] eqn:I; cbn [bind]; [|discriminate].
    intros H. destruct (args_of _ _ P) as (l & R & PM). apply into_error_left in I.
    destruct (pop_string_step _ _ _ _ E1) as (G & S1 & _ & _ & O). destruct (pop_string_step _ _ _ _ E2) as (G2 & _ & _ & _ & O2).
    exists l, n, c. split; [exact R|]. split; [|split; [|split]].
    + apply (only_perm _ _ _ _ PM). apply O; [notin|]. apply O2; [intros []|]. now apply only_nil.
    + exact (gives_perm _ _ _ _ PM G).
    + apply (gives_perm _ _ _ _ PM). apply S1; [ne|exact G2].
    + destruct n as [n|], c as [c|]; try discriminate H; apply ok_inj in H; now symmetry.
  - intros (l & n & c & R & O & G & C & M). destruct (args_to _ _ R) as (a & P & PM). rewrite P. cbn [bind].
    destruct (pop_string (txt "name") a) as [n' a1] eqn:E1. destruct (pop_string (txt "category") a1) as [c' a2] eqn:E2.
    destruct (pop_string_step _ _ _ _ E1) as (G1 & S1 & _ & O1 & _). destruct (pop_string_step _ _ _ _ E2) as (G2 & _ & _ & O2 & _).
    apply (only_perm _ _ _ _ (Permutation_sym PM)) in O. apply (gives_perm _ _ _ _ (Permutation_sym PM)) in G.
    apply (gives_perm _ _ _ _ (Permutation_sym PM)) in C. apply S1 in G2; [|ne].
    pose proof (gives_same _ _ _ _ _ _ O G1 G) as EV. subst n'. pose proof (gives_same _ _ _ _ _ _ O G2 C) as EV. subst c'.
    rewrite (proj2 (into_error_left a2 tt)); [|apply only_nil; exact (O2 _ _ (O1 _ _ O))]. cbn [bind].
    destruct n as [n|], c as [c|]; try contradiction; now subst r.
Qed.

Lemma xdp_iff t name r :
  parse_program AtXdp t (ItFn name) = Ok r <->
  exists l b v m, reads t l /\ only [txt "map"] [txt "frags"] l /\ flag l (txt "frags") b /\ gives l (txt "map") v /\
    match v with None => m = None | Some v => (v = txt "cpumap" /\ m = Some false) \/ (v = txt "devmap" /\ m = Some true) end /\ r = (name, MXdp b m).
Proof.
  cbn [parse_program item_fn bind]. split.
  - destruct (parse_args t) as [a|e] eqn:P; cbn [bind]; [|discriminate].
    destruct (pop_bool (txt "frags") a) as [b a1] eqn:E1. destruct (pop_string (txt "map") a1) as [v a2] eqn:E2.
    match goal with |- bind ?x _ = _ -> _ => destruct x as [m|e] eqn:M; cbn [bind]; [|discriminate] end.
    destruct (into_error a2) as [u|e] eqn:I; cbn [bind]; [|discriminate].
    intros H. destruct (args_of _ _ P) as (l & R & PM). apply into_error_left in I.
    destruct (pop_bool_step _ _ _ _ E1) as (F & _ & S1 & _ & O). destruct (pop_string_step _ _ _ _ E2) as (G2 & _ & _ & _ & O2).
    exists l, b, v, m. split; [exact R|]. split; [|split; [|split; [|split]]].
    + apply (only_perm _ _ _ _ PM). apply O; [intros []|]. apply O2; [intros []|]. now apply only_nil.
    + exact (flag_perm _ _ _ _ PM F).
    + apply (gives_perm _ _ _ _ PM). now apply S1.
    + destruct v as [v|]; [|apply ok_inj in M; now symmetry].
      destruct (str_eqb v (txt "cpumap")) eqn:E; [apply ok_inj in M; left; split; [now apply str_eqb_eq|now symmetry]|].
      destruct (str_eqb v (txt "devmap")) eqn:E'; [apply ok_inj in M; right; split; [now apply str_eqb_eq|now symmetry]|discriminate M].
    + apply ok_inj in H. now symmetry.
  - intros (l & b & v & m & R & O & F & G & M & ->). destruct (args_to _ _ R) as (a & P & PM). rewrite P. cbn [bind].
    destruct (pop_bool (txt "frags") a) as [b' a1] eqn:E1. destruct (pop_string (txt "map") a1) as [v' a2] eqn:E2.
    destruct (pop_bool_step _ _ _ _ E1) as (F1 & _ & S1 & O1 & _). destruct (pop_string_step _ _ _ _ E2) as (G2 & _ & _ & O2 & _).
    apply (only_perm _ _ _ _ (Permutation_sym PM)) in O. apply (gives_perm _ _ _ _ (Permutation_sym PM)) in G.
    apply (flag_perm _ _ _ _ (Permutation_sym PM)) in F. apply S1 in G2.
    pose proof (flag_same _ _ _ _ F1 F) as EB. subst b'. pose proof (gives_same _ _ _ _ _ _ O G2 G) as EV. subst v'.
    rewrite (proj2 (into_error_left a2 tt)); [|apply only_nil; exact (O2 _ _ (O1 _ _ O))].
    destruct v as [v|]; [destruct M as [[-> ->] | [-> ->]]|subst m]; reflexivity.
Qed.

Lemma kprobe_iff ret t name r :
  parse_program (AtKProbe ret) t (ItFn name) = Ok r <->
  exists l f o n, reads t l /\ only [txt "function"; txt "offset"] [] l /\ gives l (txt "function") f /\ gives l (txt "offset") o /\
    number_given o n /\ r = (name, MKProbe ret f n).
Proof.
  cbn [parse_program item_fn bind]. split.
  - destruct (parse_args t) as [a|e] eqn:P; cbn [bind]; [|discriminate].
    destruct (pop_string (txt "function") a) as [f a1] eqn:E1. destruct (pop_string (txt "offset") a1) as [o a2] eqn:E2.
    destruct (offset o) as [n|e] eqn:N; cbn [bind]; [|discriminate].
    destruct (into_error a2) as [u|e] eqn:I; cbn [bind]; [|discriminate].
    intros H. destruct (args_of _ _ P) as (l & R & PM). apply into_error_left in I.
    destruct (pop_string_step _ _ _ _ E1) as (G & S1 & _ & _ & O). destruct (pop_string_step _ _ _ _ E2) as (G2 & _ & _ & _ & O2).
    exists l, f, o, n. split; [exact R|]. split; [|split; [|split; [|split]]].
    + apply (only_perm _ _ _ _ PM). apply O; [notin|]. apply O2; [intros []|]. now apply only_nil.
    + exact (gives_perm _ _ _ _ PM G).
    + apply (gives_perm _ _ _ _ PM). apply S1; [ne|exact G2].
    + now apply offset_number.
    + apply ok_inj in H. now symmetry.
  - intros (l & f & o & n & R & O & G & C & N & ->). destruct (args_to _ _ R) as (a & P & PM). rewrite P. cbn [bind].
    destruct (pop_string (txt "function") a) as [f' a1] eqn:E1. destruct (pop_string (txt "offset") a1) as [o' a2] eqn:E2.
    destruct (pop_string_step _ _ _ _ E1) as (G1 & S1 & _ & O1 & _). destruct (pop_string_step _ _ _ _ E2) as (G2 & _ & _ & O2 & _).
    apply (only_perm _ _ _ _ (Permutation_sym PM)) in O. apply (gives_perm _ _ _ _ (Permutation_sym PM)) in G.
    apply (gives_perm _ _ _ _ (Permutation_sym PM)) in C. apply S1 in G2; [|ne].
    pose proof (gives_same _ _ _ _ _ _ O G1 G) as EV. subst f'. pose proof (gives_same _ _ _ _ _ _ O G2 C) as EV. subst o'.
    apply offset_number in N. rewrite N. cbn [bind].
    rewrite (proj2 (into_error_left a2 tt)); [|apply only_nil; exact (O2 _ _ (O1 _ _ O))]. reflexivity.
Qed.

Lemma uprobe_iff ret t name r :
  parse_program (AtUProbe ret) t (ItFn name) = Ok r <->
  exists l p f o n s m, reads t l /\ only [txt "path"; txt "function"; txt "offset"] [txt "sleepable"; txt "multi"] l /\ gives l (txt "path") p /\
    gives l (txt "function") f /\ gives l (txt "offset") o /\ number_given o n /\ flag l (txt "sleepable") s /\ flag l (txt "multi") m /\
    match p, f with
    | None, _ => r = (name, MUProbe ret m s None n)
    | Some p, Some f => r = (name, MUProbe ret m s (Some (p, f)) n)
    | Some _, None => False
    end.
Proof.
  cbn [parse_program item_fn bind]. split.
  - destruct (parse_args t) as [a|e] eqn:P; cbn [bind]; [|discriminate].
    destruct (pop_string (txt "path") a) as [p a1] eqn:E1. destruct (pop_string (txt "function") a1) as [f a2] eqn:E2.
    destruct (pop_string (txt "offset") a2) as [o a3] eqn:E3. destruct (offset o) as [n|e] eqn:N; cbn [bind]; [|discriminate].
    destruct (pop_bool (txt "sleepable") a3) as [s a4] eqn:E4. destruct (pop_bool (txt "multi") a4) as [m a5] eqn:E5.
    destruct (into_error a5) as [u|e] eqn:I; cbn [bind]; [|discriminate].
    intros H. destruct (args_of _ _ P) as (l & R & PM). apply into_error_left in I.
    destruct (pop_string_step _ _ _ _ E1) as (G1 & S1 & F1 & _ & O1). destruct (pop_string_step _ _ _ _ E2) as (G2 & S2 & F2 & _ & O2).
    destruct (pop_string_step _ _ _ _ E3) as (G3 & S3 & F3 & _ & O3). destruct (pop_bool_step _ _ _ _ E4) as (G4 & F4 & S4 & _ & O4).
    destruct (pop_bool_step _ _ _ _ E5) as (G5 & F5 & S5 & _ & O5).
    exists l, p, f, o, n, s, m. split; [exact R|]. split; [|split; [|split; [|split; [|split; [|split; [|split]]]]]].
    + apply (only_perm _ _ _ _ PM). apply O1; [notin|]. apply O2; [notin|]. apply O3; [intros []|]. apply O4; [notin|]. apply O5; [intros []|]. now apply only_nil.
    + exact (gives_perm _ _ _ _ PM G1).
    + apply (gives_perm _ _ _ _ PM). apply S1; [ne|exact G2].
    + apply (gives_perm _ _ _ _ PM). apply S1; [ne|]. apply S2; [ne|exact G3].
    + now apply offset_number.
    + apply (flag_perm _ _ _ _ PM). apply F1, F2, F3. exact G4.
    + apply (flag_perm _ _ _ _ PM). apply F1, F2, F3, F4; [ne|exact G5].
    + destruct p as [p|]; [destruct f as [f|]; [|discriminate H]|]; apply ok_inj in H; now symmetry.
  - intros (l & p & f & o & n & s & m & R & O & GP & GF & GO & N & FS & FM & M). destruct (args_to _ _ R) as (a & P & PM). rewrite P. cbn [bind].
    destruct (pop_string (txt "path") a) as [p' a1] eqn:E1. destruct (pop_string (txt "function") a1) as [f' a2] eqn:E2.
    destruct (pop_string (txt "offset") a2) as [o' a3] eqn:E3.
    destruct (pop_bool (txt "sleepable") a3) as [s' a4] eqn:E4. destruct (pop_bool (txt "multi") a4) as [m' a5] eqn:E5.
    destruct (pop_string_step _ _ _ _ E1) as (G1 & S1 & F1 & O1 & _). destruct (pop_string_step _ _ _ _ E2) as (G2 & S2 & F2 & O2 & _).
    destruct (pop_string_step _ _ _ _ E3) as (G3 & S3 & F3 & O3 & _). destruct (pop_bool_step _ _ _ _ E4) as (G4 & F4 & S4 & O4 & _).
    destruct (pop_bool_step _ _ _ _ E5) as (G5 & F5 & S5 & O5 & _).
    apply (only_perm _ _ _ _ (Permutation_sym PM)) in O. apply (gives_perm _ _ _ _ (Permutation_sym PM)) in GP, GF, GO.
    apply (flag_perm _ _ _ _ (Permutation_sym PM)) in FS, FM.
    apply S1 in G2; [|ne]. apply S2 in G3; [|ne]. apply S1 in G3; [|ne].
    apply F3, F2, F1 in G4. apply F4 in G5; [|ne]. apply F3, F2, F1 in G5.
    pose proof (gives_same _ _ _ _ _ _ O G1 GP) as EV. subst p'. pose proof (gives_same _ _ _ _ _ _ O G2 GF) as EV. subst f'.
    pose proof (gives_same _ _ _ _ _ _ O G3 GO) as EV. subst o'. pose proof (flag_same _ _ _ _ G4 FS) as EV. subst s'.
    pose proof (flag_same _ _ _ _ G5 FM) as EV. subst m'.
    apply offset_number in N. rewrite N. cbn [bind].
    rewrite (proj2 (into_error_left a5 tt)); [|apply only_nil; exact (O5 _ _ (O4 _ _ (O3 _ _ (O2 _ _ (O1 _ _ O)))))]. cbn [bind].
    destruct p as [p|]; [destruct f as [f|]; [|contradiction]|]; now subst r.
Qed.

(** Maps. *)
Lemma map_iff t ident r :
  parse_map t (ItStatic ident) = Ok r <-> exists l v, reads t l /\ only [txt "name"] [] l /\ gives l (txt "name") v /\ r = match v with Some n => n | None => ident end.
Proof.
  unfold parse_map. cbn [item_static bind]. split.
  - destruct (parse_args t) as [a|e] eqn:P; cbn [bind]; [|discriminate].
    destruct (pop_string _ a) as [v a1] eqn:E1. destruct (into_error a1) as [u|e] eqn:I; cbn [bind]; [|discriminate].
    intros H. apply ok_inj in H. destruct (args_of _ _ P) as (l & R & PM). apply into_error_left in I.
    destruct (pop_string_step _ _ _ _ E1) as (G & _ & _ & _ & O). exists l, v. split; [exact R|]. split; [|split; [|now symmetry]].
    + apply (only_perm _ _ _ _ PM). apply O; [intros []|]. now apply only_nil.
    + exact (gives_perm _ _ _ _ PM G).
  - intros (l & v & R & O & G & ->). destruct (args_to _ _ R) as (a & P & PM). rewrite P. cbn [bind].
    destruct (pop_string _ a) as [v' a1] eqn:E1. destruct (pop_string_step _ _ _ _ E1) as (G' & _ & _ & O' & _).
    apply (only_perm _ _ _ _ (Permutation_sym PM)) in O. apply (gives_perm _ _ _ _ (Permutation_sym PM)) in G.
    pose proof (gives_same _ _ _ _ _ _ O G' G) as EV. subst v'.
    rewrite (proj2 (into_error_left a1 tt)); [reflexivity|]. apply only_nil. exact (O' _ _ O).
Qed.
