(** Proofs about program section names. *)
From Coq Require Import String.
From Verif Require Import Base Text ObjModel ObjSpec ObjProofs MacroModel.
Local Open Scope Z_scope.

Lemma split_nonempty s : split_slash s <> [].
Proof. destruct s as [|x s]; cbn [split_slash]; [discriminate|]. destruct (x =? 47); [discriminate|]. destruct (split_slash s); discriminate. Qed.
Lemma split_plain s : no_slash s -> split_slash s = [s].
Proof.
  induction s as [|x s IH]; intros N; cbn [split_slash]; [reflexivity|]. destruct (Z.eqb_spec x 47) as [->|E]; [exfalso; apply N; now left|].
  rewrite IH; [reflexivity|]. intros I. apply N. now right.
Qed.
Lemma split_app s r : no_slash s -> split_slash (s ++ 47 :: r) = s :: split_slash r.
Proof.
  induction s as [|x s IH]; intros N; cbn [app split_slash]; [reflexivity|].
  destruct (Z.eqb_spec x 47) as [->|E]; [exfalso; apply N; now left|]. rewrite IH; [reflexivity|]. intros I. apply N. now right.
Qed.
Lemma split_join l : l <> [] -> Forall no_slash l -> split_slash (join_slash l) = l.
Proof.
  destruct l as [|x l]; [congruence|]. intros _ F. unfold join_slash. revert x F. induction l as [|y l IH]; intros x F.
  - cbn [flat_map]. rewrite app_nil_r. inversion F. now apply split_plain.
  - inversion F as [|? ? F1 F2]. subst. cbn [flat_map]. cbn [app]. rewrite split_app by assumption. f_equal. now apply IH.
Qed.
Lemma join_split s : join_slash (split_slash s) = s.
Proof.
  induction s as [|x s IH]; [reflexivity|]. cbn [split_slash]. destruct (Z.eqb_spec x 47) as [->|E].
  - unfold join_slash at 1. cbn [app]. destruct (split_slash s) as [|p ps] eqn:S; [now elim (split_nonempty s)|]. cbn [flat_map]. unfold join_slash in IH. cbn [app]. now rewrite IH.
  - destruct (split_slash s) as [|p ps] eqn:S; [now elim (split_nonempty s)|]. unfold join_slash in *. cbn [app]. now rewrite IH.
Qed.
Lemma split_no_slash s : Forall no_slash (split_slash s).
Proof.
  induction s as [|x s IH]; cbn [split_slash]; [constructor; [intros []|constructor]|]. destruct (Z.eqb_spec x 47) as [->|E]; [constructor; [intros []|exact IH]|].
  destruct (split_slash s) as [|p ps]; [constructor; [intros [X|[]]; congruence|constructor]|]. inversion IH as [|? ? I1 I2]. subst. constructor; [|exact I2].
  intros [X|X]; [congruence|now apply I1].
Qed.

(** The other spellings of a kind. *)
Definition alias (p : psec) : list (list (list Z)) :=
  match p with
  | PTracePoint => [[txt "tp"]] | PRawTp => [[txt "raw_tp"]] | PCgroupSock 0 => [[txt "cgroup"; txt "sock"]] | _ => []
  end.
Definition spelled (p : psec) (names : list (list Z)) : Prop := names = psec_names p \/ In names (alias p).

Lemma psec_parse p names rest s : psec_ok p -> spelled p names -> takes_name p = true \/ rest = [] -> split_slash s = names ++ rest -> parse_psec s = Ok p.
Proof.
  intros K S T E. unfold parse_psec. rewrite E. clear E.
  destruct S as [->|S].
  - destruct p; cbn [psec_names]; try destruct sleepable; try destruct multi; try destruct frags; try destruct verdict; try destruct set; try destruct migrate;
      try (vm_compute; reflexivity).
    all: cbn [psec_ok takes_name] in *.
    + assert (at_ = 0 \/ at_ = 1 \/ at_ = 2) as [-> | [-> | ->]] by lia; try (vm_compute; reflexivity). destruct T as [T| ->]; [discriminate T|vm_compute; reflexivity].
    + assert (at_ = 0 \/ at_ = 1 \/ at_ = 2) as [-> | [-> | ->]] by lia; try (vm_compute; reflexivity). destruct T as [T| ->]; [discriminate T|vm_compute; reflexivity].
    + destruct at_ as [[|]|]; vm_compute; reflexivity.
    + assert (at_ = 0 \/ at_ = 1 \/ at_ = 2 \/ at_ = 3) as [-> | [-> | [-> | ->]]] by lia; vm_compute; reflexivity.
    + assert (at_ = 0 \/ at_ = 1 \/ at_ = 2 \/ at_ = 3 \/ at_ = 4 \/ at_ = 5 \/ at_ = 6 \/ at_ = 7 \/ at_ = 8 \/ at_ = 9 \/ at_ = 10 \/ at_ = 11) as X by lia.
      repeat (destruct X as [->|X]; [vm_compute; reflexivity|]). subst at_. vm_compute. reflexivity.
    + destruct T as [T| ->]; [discriminate T|vm_compute; reflexivity].
  - destruct p; cbn [alias] in S; try (destruct S as [<-|[]]; vm_compute; reflexivity); try destruct S.
    destruct at_; cbn [In] in S; try (destruct S as [<-|[]]; vm_compute; reflexivity); destruct S.
Qed.

Lemma lookup_in (tab : list (list Z * psec)) k p : lookup_str tab k = Some p -> In (k, p) tab.
Proof. unfold lookup_str. intros H. apply assoc_in in H; [exact H|]. intros. now apply str_eqb_eq. Qed.
Lemma simple_spelled k p : In (k, p) simple_kinds -> psec_ok p /\ spelled p [k] /\ takes_name p = true.
Proof.
  unfold simple_kinds. intros H. cbn [In] in H.
  repeat match type of H with
  | _ \/ _ => destruct H as [H|H]; [apply pair_equal_spec in H; destruct H as [<- <-]; split; [exact I|]; split; [first [left; vm_compute; reflexivity|right; left; reflexivity]|reflexivity]|]
  end. destruct H.
Qed.
Lemma cgroup_spelled k p : In (k, p) cgroup_kinds -> psec_ok p /\ spelled p [txt "cgroup"; k] /\ takes_name p = true.
Proof.
  unfold cgroup_kinds. intros H. cbn [In] in H.
  repeat match type of H with
  | _ \/ _ => destruct H as [H|H]; [apply pair_equal_spec in H; destruct H as [<- <-]; split; [cbn [psec_ok]; first [exact I|lia]|];
      split; [first [left; vm_compute; reflexivity|right; left; reflexivity]|reflexivity]|]
  end. destruct H.
Qed.
Lemma psec_parsed s p : parse_psec s = Ok p ->
  psec_ok p /\ exists names rest, spelled p names /\ (takes_name p = true \/ rest = []) /\ split_slash s = names ++ rest.
Proof.
  unfold parse_psec. destruct (split_slash s) as [|k ps]; [discriminate|].
  destruct (str_eqb k (txt "xdp") || str_eqb k (txt "xdp.frags")) eqn:X.
  { apply orb_true_iff in X. assert (k = txt "xdp" ++ (if str_eqb k (txt "xdp.frags") then txt ".frags" else [])) as E.
    { destruct (str_eqb k (txt "xdp.frags")) eqn:F; [apply str_eqb_eq in F; subst; reflexivity|]. destruct X as [X|X]; [|discriminate]. apply str_eqb_eq in X. now subst. }
    cbv zeta. set (f := str_eqb k (txt "xdp.frags")) in *. clearbody f. unfold second. destruct ps as [|n ps]; cbn [nth_error].
    - intros H. apply ok_inj in H. subst p. split; [cbn; lia|]. exists [k], []. split; [left; cbn [psec_names]; now rewrite E|]. split; [now right|reflexivity].
    - destruct (str_eqb n (txt "cpumap")) eqn:N1; [|destruct (str_eqb n (txt "devmap")) eqn:N2; [|discriminate]]; intros H; apply ok_inj in H; subst p;
        (split; [cbn; lia|]); exists [k; n], ps; (split; [left; cbn [psec_names]; rewrite <- E|split; [now left|reflexivity]]).
      + apply str_eqb_eq in N1. now subst.
      + apply str_eqb_eq in N2. now subst. }
  destruct (str_eqb k (txt "sk_skb")) eqn:K1; [|destruct (str_eqb k (txt "cgroup_skb")) eqn:K2; [|destruct (str_eqb k (txt "cgroup")) eqn:K3; [|destruct (str_eqb k (txt "sk_reuseport")) eqn:K4]]].
  1,2,3: unfold sub, second; destruct ps as [|n ps]; cbn [nth_error need]; [discriminate|];
    match goal with |- need (lookup_str ?t n) = _ -> _ => destruct (lookup_str t n) as [q|] eqn:L end; cbn [need]; [|discriminate]; intros H; apply ok_inj in H; subst q; apply lookup_in in L.
  - apply str_eqb_eq in K1. subst k. cbn [In] in L. destruct L as [L|[L|[]]]; apply pair_equal_spec in L; destruct L as [<- <-];
      (split; [exact I|]); eexists [_; _], ps; (split; [left; cbn [psec_names]; reflexivity|split; [now left|reflexivity]]).
  - apply str_eqb_eq in K2. subst k. cbn [In] in L. destruct L as [L|[L|[]]]; apply pair_equal_spec in L; destruct L as [<- <-];
      (split; [exact I|]); eexists [_; _], ps; (split; [left; cbn [psec_names]; reflexivity|split; [now left|reflexivity]]).
  - apply str_eqb_eq in K3. subst k. apply cgroup_spelled in L. destruct L as (L1 & L2 & L3). split; [exact L1|]. exists [txt "cgroup"; n], ps. split; [exact L2|]. split; [now left|reflexivity].
  - apply str_eqb_eq in K4. subst k. unfold second. destruct ps as [|n ps]; cbn [nth_error].
    + intros H. apply ok_inj in H. subst p. split; [exact I|]. exists [txt "sk_reuseport"], []. split; [now left|]. split; [now right|reflexivity].
    + destruct (str_eqb n (txt "migrate")) eqn:N; [|discriminate]. apply str_eqb_eq in N. subst n. intros H. apply ok_inj in H. subst p. split; [exact I|].
      exists [txt "sk_reuseport"; txt "migrate"], ps. split; [now left|]. split; [now left|reflexivity].
  - destruct (lookup_str simple_kinds k) as [q|] eqn:L; cbn [need]; [|discriminate]. intros H. apply ok_inj in H. subst q. apply lookup_in, simple_spelled in L.
    destruct L as (L1 & L2 & L3). split; [exact L1|]. exists [k], ps. split; [exact L2|]. split; [now left|reflexivity].
Qed.
Lemma psec_spec s p : parse_psec s = Ok p <->
  psec_ok p /\ exists names rest, spelled p names /\ (takes_name p = true \/ rest = []) /\ s = join_slash (names ++ rest) /\ Forall no_slash rest.
Proof.
  split.
  - intros H. apply psec_parsed in H. destruct H as (K & names & rest & S & T & E). split; [exact K|]. exists names, rest. split; [exact S|]. split; [exact T|].
    split; [rewrite <- E; symmetry; apply join_split|]. pose proof (split_no_slash s) as F. rewrite E in F. now apply Forall_app in F.
  - intros (K & names & rest & S & T & -> & F). apply (psec_parse p names rest); auto. apply split_join.
    + destruct S as [->|S].
      * destruct p; try discriminate. all: try (destruct at_ as [[|]|]; discriminate).
      * destruct p; cbn [alias] in S; try (destruct S as [<-|[]]; discriminate); try destruct S. destruct at_; cbn [In] in S; try (destruct S as [<-|[]]; discriminate); destruct S.
    + apply Forall_app. split; [|exact F]. assert (forall l, forallb (fun s => negb (existsb (Z.eqb 47) s)) l = true -> Forall no_slash l) as Q.
      { intros l H. apply Forall_forall. intros x I J. rewrite forallb_forall in H. specialize (H x I). apply negb_true_iff in H.
        assert (existsb (Z.eqb 47) x = true) by (apply existsb_exists; exists 47; auto). congruence. }
      apply Q. destruct S as [->|S].
      * destruct p; cbn [psec_names]; try destruct sleepable; try destruct multi; try destruct frags; try destruct verdict; try destruct set; try destruct migrate; try (vm_compute; reflexivity); cbn [psec_ok] in K.
        { assert (at_ = 0 \/ at_ = 1 \/ at_ = 2) as [-> | [-> | ->]] by lia; vm_compute; reflexivity. }
        { assert (at_ = 0 \/ at_ = 1 \/ at_ = 2) as [-> | [-> | ->]] by lia; vm_compute; reflexivity. }
        { destruct at_ as [[|]|]; vm_compute; reflexivity. }
        { assert (at_ = 0 \/ at_ = 1 \/ at_ = 2 \/ at_ = 3) as [-> | [-> | [-> | ->]]] by lia; vm_compute; reflexivity. }
        { assert (at_ = 0 \/ at_ = 1 \/ at_ = 2 \/ at_ = 3 \/ at_ = 4 \/ at_ = 5 \/ at_ = 6 \/ at_ = 7 \/ at_ = 8 \/ at_ = 9 \/ at_ = 10 \/ at_ = 11) as X by lia.
          repeat (destruct X as [->|X]; [vm_compute; reflexivity|]). subst at_. vm_compute. reflexivity. }
      * destruct p; cbn [alias] in S; try (destruct S as [<-|[]]; vm_compute; reflexivity); try destruct S. destruct at_; cbn [In] in S; try (destruct S as [<-|[]]; vm_compute; reflexivity); destruct S.
Qed.

(** The macros' section names. *)
Definition macro_ok (m : macro) : Prop :=
  match m with MCgroupSock a => 0 <= a <= 3 | MCgroupSockAddr a => 0 <= a <= 11 | _ => True end.
Definition macro_kind (m : macro) : psec :=
  match m with
  | MKProbe ret _ _ => if ret then PKRetProbe else PKProbe
  | MUProbe ret multi s _ _ => if ret then PURetProbe s multi else PUProbe s multi
  | MTracePoint _ => PTracePoint
  | MBtfTracePoint _ => PTpBtf
  | MRawTracePoint _ => PRawTp
  | MFEntry s _ => PFEntry s
  | MFExit s _ => PFExit s
  | MLsm s _ => PLsm s
  | MLsmCgroup _ => PLsmCgroup
  | MXdp f mp => PXdp f match mp with None => 0 | Some false => 1 | Some true => 2 end
  | MCgroupSkb e => PCgroupSkb e
  | MCgroupSock a => PCgroupSock (nth (Z.to_nat a) [1; 2; 0; 3] 0)
  | MCgroupSockAddr a => PCgroupSockAddr (nth (Z.to_nat a) [2; 3; 0; 1; 4; 5; 6; 7; 8; 9; 10; 11] 0)
  | MCgroupSockopt s => PCgroupSockopt s
  | MCgroupSysctl => PCgroupSysctl | MCgroupDevice => PCgroupDevice | MFlowDissector => PFlowDissector
  | MPerfEvent => PPerfEvent | MSkLookup => PSkLookup | MSkMsg => PSkMsg
  | MSkReuseport mg => PSkReuseport mg | MSkSkb v => PSkSkb v
  | MSockOps => PSockOps | MSocketFilter => PSocket | MClassifier => PClassifier
  end.
Definition plain (s : list Z) : bool := negb (existsb (Z.eqb 47) s).
Lemma plain_no_slash s : plain s = true -> no_slash s.
Proof.
  unfold plain. intros H I. apply negb_true_iff in H. assert (existsb (Z.eqb 47) s = true) by (apply existsb_exists; exists 47; auto). congruence.
Qed.
Lemma parse_one k p r : plain k = true -> lookup_str simple_kinds k = Some p -> takes_name p = true ->
  str_eqb k (txt "xdp") = false -> parse_psec (k ++ match r with Some t => 47 :: t | None => [] end) = Ok p.
Proof.
  intros P L T X. pose proof (plain_no_slash _ P) as N. apply lookup_in, simple_spelled in L. destruct L as (L1 & L2 & L3).
  destruct r as [t|].
  - apply (psec_parse p [k] (split_slash t)); auto. now rewrite split_app.
  - apply (psec_parse p [k] []); auto. rewrite app_nil_r. now apply split_plain.
Qed.
Lemma tail_of_some r : tail_of r = match r with Some t => 47 :: t | None => [] end.
Proof. destruct r; reflexivity. Qed.
Ltac one k r := refine (parse_one k _ r _ _ _ _); vm_compute; reflexivity.
Lemma macro_parse m : macro_ok m -> parse_psec (macro_section m) = Ok (macro_kind m).
Proof.
  intros K. destruct m; cbn [macro_section macro_kind]; rewrite ?tail_of_some.
  - destruct function as [f|]; [|destruct ret; vm_compute; reflexivity]. unfold slash. cbn [app].
    destruct ret; [one (txt "kretprobe") (Some (f ++ plus_offset offset))|one (txt "kprobe") (Some (f ++ plus_offset offset))].
  - destruct target as [[path f]|]; [|destruct ret, multi, sleepable; vm_compute; reflexivity]. unfold slash. cbn [app].
    set (t := strip_slash path ++ _). clearbody t.
    destruct ret, multi, sleepable.
    + one (txt "uretprobe.multi.s") (Some t). + one (txt "uretprobe.multi") (Some t). + one (txt "uretprobe.s") (Some t). + one (txt "uretprobe") (Some t).
    + one (txt "uprobe.multi.s") (Some t). + one (txt "uprobe.multi") (Some t). + one (txt "uprobe.s") (Some t). + one (txt "uprobe") (Some t).
  - destruct name_category as [[n c]|]; [|vm_compute; reflexivity]. unfold slash. cbn [app]. one (txt "tracepoint") (Some (c ++ 47 :: n)).
  - one (txt "tp_btf") function.
  - one (txt "raw_tp") tracepoint.
  - destruct sleepable; [one (txt "fentry.s") function|one (txt "fentry") function].
  - destruct sleepable; [one (txt "fexit.s") function|one (txt "fexit") function].
  - destruct sleepable; [one (txt "lsm.s") hook|one (txt "lsm") hook].
  - one (txt "lsm_cgroup") hook.
  - destruct frags, map as [[|]|]; vm_compute; reflexivity.
  - destruct egress as [[|]|]; vm_compute; reflexivity.
  - cbn in K. assert (at_ = 0 \/ at_ = 1 \/ at_ = 2 \/ at_ = 3) as [-> | [-> | [-> | ->]]] by lia; vm_compute; reflexivity.
  - cbn in K. assert (at_ = 0 \/ at_ = 1 \/ at_ = 2 \/ at_ = 3 \/ at_ = 4 \/ at_ = 5 \/ at_ = 6 \/ at_ = 7 \/ at_ = 8 \/ at_ = 9 \/ at_ = 10 \/ at_ = 11) as X by lia.
    repeat (destruct X as [->|X]; [vm_compute; reflexivity|]). subst at_. vm_compute. reflexivity.
  - destruct set; vm_compute; reflexivity.
  - vm_compute; reflexivity.
  - vm_compute; reflexivity.
  - vm_compute; reflexivity.
  - vm_compute; reflexivity.
  - vm_compute; reflexivity.
  - vm_compute; reflexivity.
  - destruct migrate; vm_compute; reflexivity.
  - destruct verdict; vm_compute; reflexivity.
  - vm_compute; reflexivity.
  - vm_compute; reflexivity.
  - vm_compute; reflexivity.
Qed.
Lemma macro_program m size : macro_ok m -> 0 < size -> section_kind (macro_section m) true size = KProgram.
Proof.
  intros K P. assert (from_name (macro_section m) = KUndefined) as E.
  { destruct m; cbn [macro_section]; try destruct ret; try destruct sleepable; try destruct frags; try destruct migrate;
      try destruct name_category as [[n c]|]; try destruct egress as [[|]|]; vm_compute; reflexivity. }
  unfold section_kind. rewrite E. destruct (Z.ltb_spec 0 size); [reflexivity|lia].
Qed.
Lemma macro_context m : match m with
  | MKProbe ret _ _ | MUProbe ret _ _ _ _ => entry_context m = negb ret
  | _ => True end.
Proof.
  destruct m; auto; destruct ret; cbn [entry_context macro_section]; vm_compute; reflexivity.
Qed.
