(** C116: the check of the public interfaces finds every change, and blessing
    records them. *)
From Coq Require Import String.
From Verif Require Import Base Text ApiModel ApiSpec ApiProofs ApiProofs2.
Open Scope Z_scope.

(** The check passes exactly if the nightly compiler is there and the committed
    file of every published package holds its interface, but for carriage
    returns at the ends of lines. *)
Theorem C116_check : forall M target d ps, aligns M -> named ps ->
  snd (public_api M false target d ps) = Fine <->
  ready M /\ Forall (fun p => published p -> up_to_date M d target p) ps.
Proof. exact check_iff. Qed.
Print Assumptions C116_check.

(** It changes no file. *)
Theorem C116_reads_only : forall M target d ps, fst (public_api M false target d ps) = d.
Proof. exact check_untouched. Qed.
Print Assumptions C116_reads_only.

(** Every package that fails is reported once, in order; an early failure hides
    no later one. *)
Theorem C116_all_reported : forall M target d ps, aligns M -> named ps -> ready M ->
  exists qs, picked (fun p => published p /\ ~ up_to_date M d target p) ps qs /\
    map about (errors_of (snd (public_api M false target d ps))) = map p_name qs.
Proof. exact errors_picked. Qed.
Print Assumptions C116_all_reported.

(** A reported change is one, and the report shows lines of the interface with a
    plus and lines of the committed text with a minus, the rest being common. *)
Theorem C116_report : forall M target d ps n t, aligns M -> named ps ->
  In (Changed n t) (errors_of (snd (public_api M false target d ps))) ->
  exists p o api cur, In p ps /\ p_name p = n /\ its_target p target o /\ m_api M n o = Some api /\
    d (file n) = Some cur /\ ~ same_text api cur /\ report api cur t.
Proof. exact changed_report. Qed.
Print Assumptions C116_report.

(** Blessing writes the interface of every published package to its file, *)
Theorem C116_bless : forall M target d ps, aligns M -> named ps -> NoDup (map p_name ps) -> ready M ->
  Forall (fun p => published p -> blessable M target p) ps ->
  exists d', public_api M true target d ps = (d', Fine) /\
    Forall (fun p => published p -> written M d' target p) ps.
Proof. exact blessed. Qed.
Print Assumptions C116_bless.
(** after which the check passes, *)
Theorem C116_bless_then_check : forall M target d ps d', aligns M -> named ps -> NoDup (map p_name ps) -> ready M ->
  Forall (fun p => published p -> blessable M target p) ps ->
  d' = fst (public_api M true target d ps) ->
  public_api M false target d' ps = (d', Fine).
Proof. exact blessed_checks. Qed.
Print Assumptions C116_bless_then_check.
(** touches no other file, whatever happens, *)
Theorem C116_others_kept : forall M b target d ps q, named ps ->
  (forall p, In p ps -> published p -> q <> file (p_name p)) -> fst (public_api M b target d ps) q = d q.
Proof. exact others_untouched. Qed.
Print Assumptions C116_others_kept.
(** and does not succeed if an interface cannot be built or written. *)
Theorem C116_bless_fails : forall M target ps d p, aligns M -> named ps -> In p ps -> published p ->
  ~ blessable M target p -> snd (public_api M true target d ps) <> Fine.
Proof. exact bless_fails. Qed.
Print Assumptions C116_bless_fails.

(** The committed files are those of the published members of the workspace. *)
Theorem C116_committed : forall f,
  In f committed <-> exists p, In p workspace /\ published p /\ f = file (p_name p).
Proof. exact workspace_files. Qed.
Print Assumptions C116_committed.
Theorem C116_workspace : named workspace /\ NoDup (map p_name workspace).
Proof. exact (conj workspace_named workspace_distinct). Qed.
Print Assumptions C116_workspace.

(** A world for the hypotheses: every interface is one line. *)
Definition ex_machine : machine :=
  {| m_installed := No; m_confirm := Yes; m_install := true;
     m_api := fun n t => Some (txt "pub mod " ++ n ++ [10]);
     m_creates := fun _ => true; m_writes := fun _ => None; m_align := naive |}.
Example C116_ex_hyp : aligns ex_machine /\ ready ex_machine /\
  Forall (fun p => published p -> blessable ex_machine None p) workspace.
Proof.
  split; [split; [exact naive_aligned|exact naive_same]|]. split; [right; repeat split|].
  apply Forall_forall. intros p _ _. split; [|split; reflexivity].
  exists (target_for p None). eexists. split; [now apply target_its|reflexivity].
Qed.
Example C116_ex_fails : ~ blessable
  {| m_installed := Yes; m_confirm := No; m_install := false; m_api := fun _ _ => None;
     m_creates := fun _ => true; m_writes := fun _ => None; m_align := naive |} None (member "aya" true false).
Proof. intros ((o & api & _ & G) & _). discriminate G. Qed.
(** A missing file, an old one, and one with carriage returns. *)
Example C116_ex_run :
  snd (public_api ex_machine false None
         (store (store (fun _ => None) (file (txt "b")) (txt "pub mod old" ++ [10]))
            (file (txt "c")) (txt "pub mod c" ++ [13; 10]))
         [member "a" true false; member "x" false false; member "b" true true; member "c" true false]) =
  Wrong [Failed (txt "a") SRead; Changed (txt "b") (txt "+pub mod b" ++ [10] ++ txt "-pub mod old" ++ [10])].
Proof. vm_compute. reflexivity. Qed.
Example C116_ex_newline :
  snd (public_api ex_machine false None (store (fun _ => None) (file (txt "a")) (txt "pub mod a")) [member "a" true false]) =
  Wrong [Changed (txt "a") (txt "+" ++ [10])].
Proof. vm_compute. reflexivity. Qed.
