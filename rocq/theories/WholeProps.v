(** C95: a loaded program is the object's program with every reference
    resolved. *)
From Coq Require Import String.
From Verif Require Import Base Text Insn ObjModel PatchModel PatchSpec LinkModel LinkSpec LinkProofs WholeModel WholeSpec WholeProofs4 WholeProofs5.
Local Open Scope Z_scope.

Theorem C95_programs o maps probe l :
  well_formed o (is_code o) maps -> kernel_known o -> NoDup (map (fun p => (pg_index p, pg_addr p)) (ob_progs o)) -> separate o (is_code o) ->
  finish o maps probe = Ok l ->
  map fst l = ob_progs o /\
  forall p f', In (p, f') l -> Z.of_nat (length (f_ins f')) < 2 ^ 31 ->
    exists f, entry_of o p f /\ complete o (is_code o) maps probe f (f_ins f').
Proof. intros H1 H2 H3 H4. exact (finish_complete o maps H1 H2 H3 H4 probe l). Qed.
Print Assumptions C95_programs.

Theorem C95_missing o maps probe l p f' f k :
  well_formed o (is_code o) maps -> finish o maps probe = Ok l -> In (p, f') l -> In f (ob_funs o) ->
  ~ kernel_missing o f k /\ ~ data_missing o maps f k.
Proof. intros H. exact (nothing_missing o maps H probe l p f' f k). Qed.
Print Assumptions C95_missing.

(** An object: section 1 has a program that uses a map (symbol 0), a function of
    section 2 (symbol 1), a kernel function (symbol 2) and a variable (symbol 3,
    in section 3). *)
Definition I (c d s : Z) (i : Z) : insn := {| code := c; dst := d; src := s; off := 0; imm := i |}.
Definition ex_main : func :=
  {| f_sec := 1; f_addr := 0; f_secoff := 0;
     f_ins := [I 24 1 0 0; I 0 0 0 0; I 133 0 1 (-1); I 133 0 0 113; I 24 2 0 8; I 0 0 0 0; I 133 0 1 (-1); I 149 0 0 0]; f_finfo := []; f_linfo := [] |}.
Definition ex_sub : func := {| f_sec := 2; f_addr := 0; f_secoff := 0; f_ins := [I 149 0 0 0]; f_finfo := []; f_linfo := [] |}.
Definition ex_prog : program := {| pg_name := []; pg_sec := PSocket; pg_index := 1; pg_addr := 0 |}.
Definition sym_in (sec : option nat) (a : Z) (d : bool) (k : symkind) : symbol :=
  {| s_section := sec; s_name := Some [107]; s_address := a; s_size := 8; s_def := d; s_kind := k; s_weak := false |}.
Definition ex_syms (n : nat) : option symbol :=
  match n with
  | 0%nat => Some (sym_in (Some 5%nat) 0 true KData)
  | 1%nat => Some (sym_in (Some 2%nat) 0 true KText)
  | 2%nat => Some (sym_in None 0 false Insn.KUnknown)
  | 3%nat => Some (sym_in (Some 3%nat) 16 true KData)
  | _ => None
  end.
Definition R (o : Z) (n : nat) : reloc := {| r_offset := o; r_size := 32; r_sym := n |}.
Definition ex_obj : object :=
  {| ob_funs := [ex_main; ex_sub]; ob_progs := [ex_prog];
     ob_relocs := fun s => match s with 1%nat => [R 0 0; R 16 1; R 32 3; R 48 2] | _ => [] end;
     ob_syms := ex_syms;
     ob_externs := Some (fun n => if name_eqb n [107] then Some {| x_resolved := true; x_weak := false; x_btf_id := Some 33; x_addr := None |} else None) |}.
Definition ex_maps : list mapinfo :=
  [{| m_fd := 7; m_section := 5; m_symbol := Some 0%nat; m_data_empty := true |};
   {| m_fd := 8; m_section := 3; m_symbol := None; m_data_empty := false |}].

Example C95_ex_code : exists g, finish ex_obj ex_maps false = Ok [(ex_prog, g)] /\
  f_ins g = [I 24 1 1 7; I 0 0 0 0; I 133 0 1 5; I 133 0 0 4; I 24 2 2 8; I 0 0 0 24; I 133 0 2 33; I 149 0 0 0; I 149 0 0 0].
Proof. eexists. split; vm_compute; reflexivity. Qed.

Lemma ex_attached f k r : In f (ob_funs ex_obj) -> attached ex_obj f k r ->
  f = ex_main /\ (k = 0%nat /\ r = R 0 0 \/ k = 2%nat /\ r = R 16 1 \/ k = 4%nat /\ r = R 32 3 \/ k = 6%nat /\ r = R 48 2).
Proof.
  intros [<-|[<-|[]]] [A B]; [|destruct A]. split; [reflexivity|].
  cbn in A. destruct A as [<-|[<-|[<-|[<-|[]]]]]; cbn in B; [left|right; left|right; right; left|right; right; right]; (split; [lia|reflexivity]).
Qed.
Lemma ex_code s : code_section ex_obj s <-> s = 1%nat \/ s = 2%nat.
Proof.
  split.
  - intros (f & [<-|[<-|[]]] & <-); auto.
  - intros [-> | ->]; [exists ex_main|exists ex_sub]; (split; [cbn; auto|reflexivity]).
Qed.

Example C95_ex_formed : well_formed ex_obj (is_code ex_obj) ex_maps.
Proof.
  constructor.
  - repeat constructor; cbn; intuition congruence.
  - intros s. rewrite ex_code. unfold is_code. cbn [ex_obj ob_funs existsb ex_main ex_sub f_sec]. rewrite orb_false_r, orb_true_iff, !Nat.eqb_eq. intuition lia.
  - intros f [<-|[<-|[]]]; cbn; lia.
  - intros [|[|s]]; repeat constructor; cbn; intuition congruence.
  - intros r sym sec f k Hf A (D1 & D2 & D3) K. destruct (ex_attached f k r Hf A) as (_ & [(_ & ->)|[(_ & ->)|[(_ & ->)|(_ & ->)]]]);
      cbn in D1; injection D1 as <-; try discriminate K. apply D3. apply ex_code. cbn in D2. injection D2 as <-. now right.
  - intros f k x r sym sec Hf A (D1 & D2 & D3) X. destruct (ex_attached f k r Hf A) as (-> & [(-> & ->)|[(-> & ->)|[(-> & ->)|(-> & ->)]]]);
      cbn in X; injection X as <-; try reflexivity; exfalso; cbn in D1; injection D1 as <-; cbn in D2; [injection D2 as <-|discriminate D2].
    apply D3. apply ex_code. now right.
  - intros f k x Hf X C. destruct Hf as [<-|[<-|[]]].
    + do 8 (destruct k as [|k]; [cbn in X; injection X as <-; try discriminate C; (eexists; split; [reflexivity|split; [reflexivity|]]; intros r A; destruct (ex_attached _ _ r (or_introl eq_refl) A) as (_ & B); intuition discriminate)|]).
      destruct k; discriminate X.
    + destruct k as [|k]; [injection X as <-; discriminate C|destruct k; discriminate X].
  - intros s r r' sym q A B _. destruct s as [|[|s]]; [destruct A| |destruct A]. cbn in A, B.
    destruct A as [<-|[<-|[<-|[<-|[]]]]], B as [<-|[<-|[<-|[<-|[]]]]]; intros E; discriminate E.
  - intros s r A. destruct s as [|[|s]]; [destruct A| |destruct A]. cbn in A. destruct A as [<-|[<-|[<-|[<-|[]]]]]; cbn; lia.
Qed.
Example C95_ex_known : kernel_known ex_obj.
Proof. intros f k r _ _ _ X. discriminate X. Qed.
Lemma ex_uses f g : In f (ob_funs ex_obj) -> uses ex_obj (is_code ex_obj) f g -> f = ex_main /\ g = ex_sub.
Proof.
  intros Hf (k & x & X & [K N] & G). apply target_names in N. destruct Hf as [<-|[<-|[]]].
  - split; [reflexivity|].
    do 8 (destruct k as [|k]; [cbn in X; injection X as <-; vm_compute in N; destruct G as [<-|[<-|[]]]; try reflexivity; discriminate N|]).
    destruct k; discriminate X.
  - destruct k as [|k]; [injection X as <-; vm_compute in N; discriminate N|destruct k; discriminate X].
Qed.
Lemma ex_needs f g : In f (ob_funs ex_obj) -> needs ex_obj (is_code ex_obj) f g -> g = ex_sub.
Proof.
  intros Hf H. induction H as [f g U|f g h U H IH]; [exact (proj2 (ex_uses f g Hf U))|]. apply IH. destruct U as (k & x & U). apply U.
Qed.
Example C95_ex_separate : separate ex_obj (is_code ex_obj).
Proof.
  split.
  - intros p f g _ Hf _ _ N q [<-|[]] E. rewrite (ex_needs f g Hf N) in E. discriminate E.
  - intros p f g h _ Hf _ _ N1 N2 _. now rewrite (ex_needs f g Hf N1), (ex_needs f h Hf N2).
Qed.
Example C95_ex_missing : kernel_missing {| ob_funs := ob_funs ex_obj; ob_progs := []; ob_relocs := ob_relocs ex_obj; ob_syms := ex_syms;
    ob_externs := Some (fun _ => Some {| x_resolved := false; x_weak := false; x_btf_id := None; x_addr := None |}) |} ex_main 6.
Proof.
  eexists _, (R 48 2), _. split; [reflexivity|]. split; [split; [cbn; auto 6|reflexivity]|]. split.
  - eexists _, _, _. split; [reflexivity|]. split; [reflexivity|]. split; [reflexivity|]. split; reflexivity.
  - split; [reflexivity|]. left. split; reflexivity.
Qed.

(** Without BTF in the object an undefined symbol is not refused: the call is
    taken for a relative one, here of the calling function itself. *)
Definition lost_main : func := {| f_sec := 1; f_addr := 0; f_secoff := 0; f_ins := [I 133 0 1 (-1); I 149 0 0 0]; f_finfo := []; f_linfo := [] |}.
Definition lost : object :=
  {| ob_funs := [lost_main]; ob_progs := [ex_prog]; ob_relocs := fun s => match s with 1%nat => [R 0 2] | _ => [] end; ob_syms := ex_syms; ob_externs := None |}.
Theorem C95_undefined_refuted : exists o p f r g,
  In f (ob_funs o) /\ attached o f 0 r /\ kernel_ref o r /\ (exists sym, ob_syms o (r_sym r) = Some sym /\ s_weak sym = false) /\
  ob_externs o = None /\ finish o [] true = Ok [(p, g)] /\
  (* the copy of the caller starts at 2 *)
  f_ins g = [I 133 0 1 1; I 149 0 0 0; I 133 0 1 (-1); I 149 0 0 0].
Proof.
  exists lost, ex_prog, lost_main, (R 0 2). eexists.
  split; [now left|]. split; [split; [now left|reflexivity]|]. split; [exists (sym_in None 0 false Insn.KUnknown); split; reflexivity|].
  split; [eexists; split; reflexivity|]. split; [reflexivity|]. split; vm_compute; reflexivity.
Qed.
Print Assumptions C95_undefined_refuted.

(** Two program symbols for one address: the function is linked twice, its
    callee included twice. *)
Definition twin : object :=
  {| ob_funs := [{| f_sec := 1; f_addr := 0; f_secoff := 0; f_ins := [I 133 0 1 (-1); I 149 0 0 0]; f_finfo := []; f_linfo := [] |}; ex_sub];
     ob_progs := [ex_prog; {| pg_name := [98]; pg_sec := PSocket; pg_index := 1; pg_addr := 0 |}];
     ob_relocs := fun s => match s with 1%nat => [R 0 1] | _ => [] end; ob_syms := ex_syms; ob_externs := None |}.
Definition single : object := {| ob_funs := ob_funs twin; ob_progs := [ex_prog]; ob_relocs := ob_relocs twin; ob_syms := ex_syms; ob_externs := None |}.
Theorem C95_alias_refuted : exists o o1 p q g1 g2,
  ob_funs o1 = ob_funs o /\ ob_relocs o1 = ob_relocs o /\ ob_syms o1 = ob_syms o /\ ob_externs o1 = ob_externs o /\
  ob_progs o1 = [p] /\ ob_progs o = [p; q] /\
  finish o1 [] true = Ok [(p, g1)] /\ finish o [] true = Ok [(p, g2); (q, g2)] /\ length (f_ins g1) = 3%nat /\ length (f_ins g2) = 4%nat.
Proof.
  exists twin, single, ex_prog. eexists _, _, _. do 6 (split; [reflexivity|]). split; [vm_compute; reflexivity|]. split; [vm_compute; reflexivity|]. split; reflexivity.
Qed.
Print Assumptions C95_alias_refuted.

(** Relocating works exactly when everything that is referred to exists. *)
Theorem C95_works o maps probe :
  well_formed o (is_code o) maps -> kernel_known o -> NoDup (map (fun p => (pg_index p, pg_addr p)) (ob_progs o)) -> separate o (is_code o) ->
  ((exists l, finish o maps probe = Ok l) <-> present o (is_code o) maps).
Proof. intros H1 H2 H3 H4. exact (finish_iff o maps H1 H2 H3 H4 probe). Qed.
Print Assumptions C95_works.
Example C95_ex_present : present ex_obj (is_code ex_obj) ex_maps.
Proof.
  apply (C95_works ex_obj ex_maps false C95_ex_formed C95_ex_known); [repeat constructor; intros []|exact C95_ex_separate|].
  destruct C95_ex_code as (g & E & _). eauto.
Qed.
