(** C114: a loaded program behaves as the object file says. *)
From Coq Require Import String.
From Verif Require Import Base Text Insn ObjModel PatchModel PatchSpec LinkModel LinkSpec LinkProofs WholeModel WholeSpec WholeProofs4 WholeProofs5 WholeProps LoaderModel LoaderSpec ParseModel ParseSpec RunSpec RunProofs RunProofs2 RunSpec2 RunProofs3 RunProofs4.
Local Open Scope Z_scope.

Theorem C114_behaves M o maps probe l p f' :
  well_formed o (is_code o) maps -> kernel_known o -> NoDup (map (fun p => (pg_index p, pg_addr p)) (ob_progs o)) -> separate o (is_code o) ->
  one_map o maps -> few_helpers M ->
  finish o maps probe = Ok l -> In (p, f') l -> Z.of_nat (List.length (f_ins f')) < 2 ^ 31 ->
  (forall f g, entry_of o p f -> g = f \/ needs o (is_code o) f g -> tidy o (is_code o) g) ->
  exists f, entry_of o p f /\ behaves M o (is_code o) maps probe f (f_ins f').
Proof. exact (finish_behaves M o maps probe l p f'). Qed.
Print Assumptions C114_behaves.

(** The object file says one thing. *)
Theorem C114_one M o maps probe place g n s r r' : well_formed o (is_code o) maps -> one_map o maps -> In g (ob_funs o) ->
  oruns M o (is_code o) maps probe place n (Build_oconf g 0 [] s) r -> oruns M o (is_code o) maps probe place n (Build_oconf g 0 [] s) r' -> r' = r.
Proof. intros W O. exact (runs_one_start M o maps probe place W O g n s r r'). Qed.
Print Assumptions C114_one.

(** So do the programs of a loaded object. *)
Theorem C114_loaded M c k o t u e t' u' : few_helpers M -> load c k o t u = (Ok e, t', u') ->
  exists ms fd o1 o2 tb, configured c o ms /\ sent k (with_maps ms o) fd o1 /\ suited k tb o1 o2 /\
    (forall b, tb = Some b -> t' = TParsed b) /\ (tb = None -> uses_target o1 -> unparsed t /\ exists n, next_answer u = Err n) /\
    maps_of c k ms e (u_kernel u) (u_kernel u') /\ programs_of c k o fd e /\ code_behaves M k o2 e.
Proof. exact (load_behaves M c k o t u e t' u'). Qed.
Print Assumptions C114_loaded.

(** So do the programs of a loaded file: from the sections and symbols of an ELF
    file to what the kernel runs. *)
Theorem C114_file M c k e tg u a tg' u' : regular e -> few_helpers M -> load_elf c k e tg u = (Ok a, tg', u') ->
  exists q ms fd o1 o2 tb, parse e = Ok q /\ configured c (q_obj q) ms /\ sent k (with_maps ms (q_obj q)) fd o1 /\ suited k tb o1 o2 /\
    (forall b, tb = Some b -> tg' = TParsed b) /\ (tb = None -> uses_target o1 -> unparsed tg /\ exists n, next_answer u = Err n) /\
    maps_of c k ms a (u_kernel u) (u_kernel u') /\ programs_of c k (q_obj q) fd a /\
    Forall2 framed (p_funs (q_obj q)) (p_funs o2) /\ p_relocs o2 = p_relocs (q_obj q) /\ file_behaves M k o2 a.
Proof. exact (loaded_behaves M c k e tg u a tg' u'). Qed.
Print Assumptions C114_file.

(** * A machine that writes down what happens *)

Inductive happened := HLoad (d : Z) (v : value) | HHelper (n : Z) | HKfunc (n : Z) | HEnter | HLeave | HOther (x : insn).
Definition diary : machine :=
  {| m_state := list happened; m_alu := fun x s => Some (HOther x :: s); m_branch := fun x s => Nat.even (List.length s);
     m_load := fun d v s => HLoad d v :: s; m_helper := fun n s => if n <? 2002000000 then Some (HHelper n :: s) else None;
     m_kfunc := fun n s => Some (HKfunc n :: s); m_enter := fun s => HEnter :: s; m_leave := fun _ s => HLeave :: s |}.
Example C114_ex_helpers : few_helpers diary.
Proof. intros n s B. cbn. destruct (Z.ltb_spec n 2002000000); [lia|reflexivity]. Qed.

Lemma ex_maps_clash sym sec m m' : m = nth 0 ex_maps m -> m' = nth 1 ex_maps m' -> names_map ex_maps sym sec m -> names_map ex_maps sym sec m' -> False.
Proof.
  intros -> -> (_ & N) (_ & N'). cbn [ex_maps nth m_symbol m_section] in N, N'. destruct N' as [N'|(N' & Y)]; [discriminate N'|].
  destruct N as [N|(_ & X)]; [exact (N' _ (or_introl eq_refl) N)|]. rewrite <- X in Y. discriminate Y.
Qed.
Example C114_ex_one : one_map ex_obj ex_maps.
Proof.
  intros f k r sym sec m m' _ _ _ N N'. pose proof (proj1 N) as I. pose proof (proj1 N') as I'. destruct I as [<-|[<-|[]]], I' as [<-|[<-|[]]]; try reflexivity; exfalso.
  - exact (ex_maps_clash _ _ _ _ eq_refl eq_refl N N').
  - exact (ex_maps_clash _ _ _ _ eq_refl eq_refl N' N).
Qed.
Example C114_ex_tidy g : In g (ob_funs ex_obj) -> tidy ex_obj (is_code ex_obj) g.
Proof.
  intros Hg. constructor.
  - intros k x X. destruct Hg as [<-|[<-|[]]]; cbn in X; repeat (destruct k as [|k]; [injection X as <-; cbn; lia|cbn in X]); destruct k; discriminate X.
  - intros k x sec a X (_ & N). apply target_names in N. destruct Hg as [<-|[<-|[]]]; cbn in X;
      repeat (destruct k as [|k]; [injection X as <-; first [right; reflexivity|left; repeat split; fail|vm_compute in N; discriminate N]|cbn in X]); destruct k; discriminate X.
  - intros k x X _ C. destruct Hg as [<-|[<-|[]]]; cbn in X; repeat (destruct k as [|k]; [injection X as <-; first [reflexivity|discriminate C]|cbn in X]); destruct k; discriminate X.
  - intros k x r sym sec X A (D1 & D2 & D3). destruct (ex_attached g k r Hg A) as (-> & [(-> & ->)|[(-> & ->)|[(-> & ->)|(-> & ->)]]]); cbn in X, D1; injection X as <-; injection D1 as <-; cbn; try lia; exfalso; [|discriminate D2]. apply D3. apply ex_code. cbn in D2. injection D2 as <-. now right.
  - intros k r e A (xs & sym & nm & K1 & K2 & K3 & K4 & K5). cbn in K1. injection K1 as <-. cbn in K5. destruct (name_eqb nm [107]); [injection K5 as <-|discriminate K5]. split; cbn; intros v V; [discriminate V|injection V as <-; lia].
Qed.
(** The program of C95 runs as its file says: it loads the map, calls the
    function and then helper 113 (here 4), loads the variable and calls the
    function of the kernel. *)
Example C114_ex_run : exists g, finish ex_obj ex_maps false = Ok [(ex_prog, g)] /\
  kruns diary (f_ins g) 8 (Build_kconf (M := diary) 0 [] (nil : m_state diary)) = Done (M := diary) ([HKfunc 33; HLoad 2 (VVar 8 24); HHelper 4; HLeave; HEnter; HLoad 1 (VMap 7)] : list happened) /\
  behaves diary ex_obj (is_code ex_obj) ex_maps false ex_main (f_ins g).
Proof.
  destruct C95_ex_code as (g & E & C). exists g. split; [exact E|]. split; [rewrite C; reflexivity|].
  destruct (C114_behaves diary ex_obj ex_maps false [(ex_prog, g)] ex_prog g C95_ex_formed C95_ex_known) as (f & (I & S & A) & B); [repeat constructor; intros []|exact C95_ex_separate|exact C114_ex_one|exact C114_ex_helpers|exact E|left; reflexivity|rewrite C; cbn [List.length]; lia| |].
  - intros f h (I & _) [->|N]; [exact (C114_ex_tidy f I)|]. apply C114_ex_tidy. rewrite (ex_needs f h I N). right. now left.
  - destruct I as [<-|[<-|[]]]; [exact B|discriminate S].
Qed.
