(** C96: what [EbpfLoader::load] makes of an object. *)
From Coq Require Import String.
From Verif Require Import Base Text Insn PatchModel LinkModel BtfTypes BtfModel BtfExt CoreModel BtfSanitize ExternModel ExternSpec PinModel UtilModel TypedModel ProgModel ObjModel WholeModel WholeSpec CoreProps LoaderModel LoaderSpec LoaderProofs LoaderProofs2 LoaderProofs3 LoaderProofs4 WholeProofs5.
Local Open Scope Z_scope.

(** Every program and every map of the object, adapted to the kernel. *)
Theorem C96_result c k o t u e t' u' : load c k o t u = (Ok e, t', u') ->
  exists ms fd o1 o2 tb, configured c o ms /\ sent k (with_maps ms o) fd o1 /\ suited k tb o1 o2 /\
    (forall b, tb = Some b -> t' = TParsed b) /\ (tb = None -> uses_target o1 -> unparsed t /\ exists n, next_answer u = Err n) /\
    maps_of c k ms e (u_kernel u) (u_kernel u') /\ programs_of c k o fd e /\ code_complete k o2 e.
Proof. exact (load_ok c k o t u e t' u'). Qed.
Print Assumptions C96_result.

(** If the kernel refuses the BTF, programs that need it are not loaded without
    ... *)
Theorem C96_btf_refused c k o t u ms b e : configured c o ms -> offered k o b -> k_takes k b = Err e -> blocked o -> load c k o t u = (Err (FLoadBtf e), t, u).
Proof. exact (load_refused c k o t u ms b e). Qed.
Print Assumptions C96_btf_refused.
Theorem C96_btf_kinds c k o ms fd o1 e b n : sent k (with_maps ms o) fd o1 -> programs_of c k o fd e -> offered k o b -> k_takes k b = Err n ->
  fd = None /\ p_relos o = [] /\ forall x, In x (e_progs e) -> ~ forced c (ld_prog x) -> ~ needs_btf (ld_kind x).
Proof. intros S P. exact (sent_kinds c k o ms fd o1 e S P b n). Qed.
Print Assumptions C96_btf_kinds.

(** The target BTF is asked for only when needed, *)
Theorem C96_target_step c k o t u r t' u' : load c k o t u = (r, t', u') -> quiet_step t u t' u' \/ asked_step t o u t' u'.
Proof. exact (load_steps c k o t u r t' u'). Qed.
Print Assumptions C96_target_step.
(** once, *)
Theorem C96_target_once c k os t u rs t' u' : load_all c k os t u = (rs, t', u') ->
  exists n, u_btf u' = skipn n (u_btf u) /\ length (u_asked u') = (length (u_asked u) + n)%nat /\ (n <= length os)%nat /\
    (forall b, t = TParsed b -> n = 0%nat /\ t' = t) /\
    (forall i b, (i < n)%nat -> nth_error (u_btf u) i = Some (Ok b) -> n = S i /\ t' = TParsed b).
Proof. exact (load_all_once c k os t u rs t' u'). Qed.
Print Assumptions C96_target_once.
(** and it does not matter whether it was there before. *)
Theorem C96_target_cached c k o t u tb : unparsed t -> next_answer u = Ok tb ->
  fst (fst (load c k o t u)) = fst (fst (load c k o (TParsed tb) u)) /\
  u_kernel (snd (load c k o t u)) = u_kernel (snd (load c k o (TParsed tb) u)).
Proof. exact (load_cached c k o t u tb). Qed.
Print Assumptions C96_target_cached.
(** Without it objects that need it are refused with the error of the source, *)
Theorem C96_target_missing c k o t u ms fd o1 e : configured c o ms -> sent k (with_maps ms o) fd o1 -> unparsed t -> next_answer u = Err e -> needs_target o ->
  exists u', load c k o t u = (Err (FTarget e), t, u') /\ u_kernel u' = u_kernel u.
Proof. exact (load_unavailable c k o t u ms fd o1 e). Qed.
Print Assumptions C96_target_missing.
(** and in others typed symbols are weak and absent. *)
Theorem C96_target_weak k o1 o2 n x : suited k None o1 o2 -> NoDup (map fst (p_externs o1)) -> Forall fresh (p_externs o1) -> typed_extern o1 n x ->
  exists x', In (n, x') (p_externs o2) /\ xd_weak x = true /\ xd_weak x' = true /\ xd_resolved x' = false /\ xd_kernel_id x' = None /\ xd_addr x' = Some 0.
Proof. intros S N F. exact (suited_weak k o1 o2 S N F n x). Qed.
Print Assumptions C96_target_weak.

(** Loading works exactly when each thing it depends on is there. *)
Theorem C96_works c k o t u w : (exists e t' u', load c k o t u = (Ok e, t', u') /\ u_kernel u' = w) <-> exists ms fd o1 tb o2 l, loadable c k o t u ms fd o1 tb o2 l w.
Proof. exact (load_iff c k o t u w). Qed.
Print Assumptions C96_works.
(** The code is there when everything that is referred to exists (C95). *)
Theorem C96_code k o2 l : well_formed (code_of_object o2) (is_code (code_of_object o2)) (map told l) -> kernel_known (code_of_object o2) ->
  NoDup (map (fun p => (pg_index p, pg_addr p)) (p_progs o2)) -> separate (code_of_object o2) (is_code (code_of_object o2)) ->
  ((exists r, finish (code_of_object o2) (map told l) (k_probe k) = Ok r) <-> present (code_of_object o2) (is_code (code_of_object o2)) (map told l)).
Proof. intros W K N S. exact (finish_iff (code_of_object o2) (map told l) W K N S (k_probe k)). Qed.
Print Assumptions C96_code.

(** Most errors are found before any map is created. *)
Theorem C96_early c k o t u e t' u' : load c k o t u = (Err e, t', u') -> early e -> u_kernel u' = u_kernel u.
Proof. exact (load_early c k o t u e t' u'). Qed.
Print Assumptions C96_early.

(** * An object *)

Definition lb : btf := mk NS [new_float (no (txt "x")) 4; new_struct (no (txt "s")) [mem_ (txt "y") 1 0] 4].
Definition xcode : func := prog [mov 1; {| Insn.code := 149; dst := 0; src := 0; off := 0; imm := 0 |}].
Definition xprog : program := {| pg_name := txt "p"; pg_sec := PXdp false 0; pg_index := 0; pg_addr := 0 |}.
Definition defm (ty pin : Z) : mapdef :=
  {| md_type := ty; md_key := 4; md_value := 8; md_entries := 2; md_flags := 0; md_extra := 0; md_pin := pin; md_key_id := 0; md_value_id := 0; md_id := 0 |}.
Definition legacy (ty pin : Z) : ObjModel.omap := {| om_btf := false; om_kind := KMaps; om_section := 5; om_symbol := Some 0%nat; om_def := defm ty pin; om_inner := None; om_data := [] |}.
Definition rod : ObjModel.omap := {| om_btf := false; om_kind := KRodata; om_section := 6; om_symbol := None; om_def := defm 2 0; om_inner := None; om_data := [1; 2; 3; 4; 5; 6; 7; 8] |}.
Definition obj1 (relos : list (Z * list relo)) (maps : list (name * ObjModel.omap)) : pobj :=
  {| p_big := false; p_btf := Some lb; p_relos := relos; p_externs := []; p_ksyms := None; p_progs := [xprog]; p_funs := [xcode];
     p_maps := maps; p_relocs := fun _ => []; p_syms := []; p_infos := [(txt "sec", (0%nat, 16))]; p_offsets := [] |}.
Definition kern (feat : feature -> bool) (takes : res Z Z) (global : bool) : LoaderModel.kernel :=
  {| k_feat := Some feat; k_takes := fun _ => takes; k_global := global; k_probe := true; k_names := true; k_cpumap := true; k_devmap := true;
     k_cpus := Some 4; k_page := 4096; k_text := []; k_stack := 40; k_be := false |}.
Definition conf (ext : list name) : config :=
  {| c_pins := {| l_dir := None; l_paths := [] |}; c_globals := []; c_max := []; c_ext := ext; c_level := 1; c_allow := false |}.
Definition out0 (l : list (res Z btf)) : outside :=
  {| u_btf := l; u_asked := []; u_kernel := {| w_next := 10; w_fail := []; w_maps := []; w_pins := []; w_log := [] |} |}.

Definition ret : insn := {| Insn.code := 149; dst := 0; src := 0; off := 0; imm := 0 |}.
Definition codes (r : res ferr ebpf) : list (list insn) := match r with Ok e => map (fun x => f_ins (ld_fun x)) (e_progs e) | Err _ => [] end.
(** The member exists in the target, the target BTF is asked for once. *)
Definition field_y : list (Z * list relo) := [(no (txt "sec"), [rel 2 2 (txt "0:0")])].
Example C96_ex_twice :
  let '(rs, t, u) := load_all (conf []) (kern (fun _ => true) (Ok 7) true) [obj1 field_y [(txt "m", legacy 1 1); (txt ".rodata", rod)]; obj1 field_y []] TSystem (out0 [Ok lb; Err 5]) in
  map codes rs = [[[mov 1; ret]]; [[mov 1; ret]]] /\ t = TParsed lb /\ u_asked u = [AskSystem] /\
  map (fun r => match r with Ok e => map (fun m => (fst (mk_def (fst m)), mk_fd (fst m), snd m)) (e_maps e) | Err _ => [] end) rs =
    [[(txt "m", 10, VHashMap); (txt ".rodata", 11, VArray)]; []] /\
  w_pins (u_kernel u) = [(txt "/sys/fs/bpf/m", 10)].
Proof. vm_compute. repeat split. Qed.
Example C96_ex_skipped :
  match fst (fst (load (conf []) (kern (fun _ => true) (Ok 7) false) (obj1 [] [(txt "m", legacy 1 0); (txt ".rodata", rod)]) TSystem (out0 []))) with
  | Ok e => map (fun m => fst (mk_def (fst m))) (e_maps e) = [txt "m"] /\ map (fun x => (ld_name x, ld_kind x, ld_btf x)) (e_progs e) = [(Some (txt "p"), KXdp A_XDP, Some 7)]
  | Err _ => False
  end.
Proof. vm_compute. split; reflexivity. Qed.
Lemma lb_offered feat : sanitize feat (fun n => option_map snd (assoc str_eqb n [(txt "sec", (0%nat, 16))])) (fun n => assoc str_eqb n []) lb = Ok lb ->
  forall takes global relos maps, offered (kern feat takes global) (obj1 relos maps) lb.
Proof.
  intros S takes global relos maps. exists lb, feat, lb. split; [reflexivity|]. split; [reflexivity|]. split; [vm_compute; lia|]. split; [left; split; reflexivity|exact S].
Qed.
Example C96_ex_refused : exists b, offered (kern (fun _ => true) (Err 22) true) (obj1 field_y []) b /\ blocked (obj1 field_y []) /\
  load (conf []) (kern (fun _ => true) (Err 22) true) (obj1 field_y []) TSystem (out0 [Ok lb]) = (Err (FLoadBtf 22), TSystem, out0 [Ok lb]).
Proof.
  exists lb. split; [apply lb_offered; vm_compute; reflexivity|]. split; [right; discriminate|]. vm_compute. reflexivity.
Qed.
Example C96_ex_missing : exists u', load (conf []) (kern (fun _ => true) (Ok 7) true) (obj1 field_y []) TSource (out0 [Err 2]) = (Err (FTarget 2), TSource, u') /\
  u_asked u' = [AskSource false] /\ needs_target (obj1 field_y []).
Proof. eexists. split; [vm_compute; reflexivity|]. split; [reflexivity|]. left. discriminate. Qed.

(** * What goes wrong *)

(** A program made an extension by the caller needs BTF, too, but is loaded
    without if the kernel refuses the object's. *)
Theorem C96_forced_refuted : exists c k o t u e t' u' b n x,
  load c k o t u = (Ok e, t', u') /\ offered k o b /\ k_takes k b = Err n /\ In x (e_progs e) /\ needs_btf (ld_kind x) /\ ld_btf x = None.
Proof.
  exists (conf [txt "p"]), (kern (fun _ => true) (Err 22) true), (obj1 [] []), TSystem, (out0 []).
  eexists _, _, _, lb, 22, _. split; [vm_compute; reflexivity|]. split; [apply lb_offered; vm_compute; reflexivity|]. split; [reflexivity|].
  split; [left; reflexivity|]. split; [left; reflexivity|reflexivity].
Qed.
Print Assumptions C96_forced_refuted.

(** An object that fails to load because of a map of a kind that is not
    supported leaves its maps pinned. *)
Theorem C96_leftover_refuted : exists c k o t u e t' u' path id,
  load c k o t u = (Err e, t', u') /\ e = FTyped (EUnsupported 33) /\ w_pins (u_kernel u) = [] /\ w_pins (u_kernel u') = [(path, id)].
Proof.
  exists (conf []), (kern (fun _ => true) (Ok 7) true), (obj1 [] [(txt "m", legacy 33 1)]), TSystem, (out0 []).
  eexists _, _, _, _, _. split; [vm_compute; reflexivity|]. split; [reflexivity|]. split; reflexivity.
Qed.
Print Assumptions C96_leftover_refuted.

(** CO-RE relocation uses the BTF as changed for the running kernel: where that
    kernel does not know floating point types, a member of such a type "does not
    exist" although the target BTF is that of the object. *)
Theorem C96_sanitized_refuted : exists c k1 k2 o t u b,
  p_btf o = Some b /\ t = TParsed b /\ p_relos o = field_y /\
  (* a kernel that knows them and one that does not *)
  codes (fst (fst (load c k1 o t u))) = [[mov 1; ret]] /\
  codes (fst (fst (load c k2 o t u))) = [[mov 0; ret]] /\
  k2 = kern (fun f => match f with FFloat => false | _ => true end) (Ok 7) true.
Proof.
  exists (conf []), (kern (fun _ => true) (Ok 7) true), (kern (fun f => match f with FFloat => false | _ => true end) (Ok 7) true), (obj1 field_y []), (TParsed lb), (out0 []), lb.
  split; [reflexivity|]. split; [reflexivity|]. split; [reflexivity|]. split; [vm_compute; reflexivity|]. split; [vm_compute; reflexivity|reflexivity].
Qed.
Print Assumptions C96_sanitized_refuted.
