(** What loading an object with [EbpfLoader::load] should do. *)
From Coq Require Import Permutation.
From Verif Require Import Base Text Insn PatchModel LinkModel BtfTypes BtfModel BtfExt CoreModel BtfSanitize ExternModel PinModel UtilModel TypedModel ProgModel ObjModel WholeModel WholeSpec LoaderModel.
Local Open Scope Z_scope.

(** * The object's own BTF *)

(** The object with its globals set. *)
Definition configured (c : config) (o : pobj) (ms : list (name * ObjModel.omap)) : Prop :=
  patch_map_data (p_syms o) (p_maps o) (c_globals c) = Ok ms.

(** There is no BTF for the kernel: the object has none or an empty one, or the
    kernel does not know BTF. *)
Definition no_btf (k : kernel) (o : pobj) : Prop :=
  p_btf o = None \/ k_feat k = None \/ exists b, p_btf o = Some b /\ (length (b_types b) <= 1)%nat.
(** [b'] is the BTF for the kernel: the object's, made acceptable. *)
Definition offered (k : kernel) (o : pobj) (b' : btf) : Prop :=
  exists b feat b1, p_btf o = Some b /\ k_feat k = Some feat /\ (1 < length (b_types b))%nat /\
    (p_externs o = [] /\ b1 = b \/ p_externs o <> [] /\ exists ds pl, p_ksyms o = Some (ds, pl) /\ fixup_ksyms b ds pl = Ok b1) /\
    sanitize feat (fun n => option_map snd (assoc str_eqb n (p_infos o))) (fun n => assoc str_eqb n (p_offsets o)) b1 = Ok b'.

(** Programs the kernel does not take without the BTF of the object: those that
    attach to something by its BTF. *)
Definition needs_btf (p : kind) : Prop :=
  p = KExtension \/ p = KFEntry \/ p = KFExit \/ p = KLsm \/ p = KLsmCgroup \/ p = KBtfTracePoint \/ p = KIter.
(** ... in an object file. *)
Definition section_needs_btf (s : psec) : Prop := needs_btf (fst (of_section false s)).
Definition forced (c : config) (p : program) : Prop := In (pg_name p) (c_ext c).

(** The load must not go on without BTF in the kernel. *)
Definition blocked (o : pobj) : Prop := (exists p, In p (p_progs o) /\ section_needs_btf (pg_sec p)) \/ p_relos o <> [].

(** How the object [o1] goes on and which BTF descriptor its programs get: the
    kernel takes the BTF or it does not matter. *)
Inductive sent (k : kernel) (o : pobj) : option Z -> pobj -> Prop :=
| sent_none : no_btf k o -> sent k o None o
| sent_taken b fd : offered k o b -> k_takes k b = Ok fd -> sent k o (Some fd) (with_btf (Some b) o)
| sent_refused b e : offered k o b -> k_takes k b = Err e -> ~ blocked o -> sent k o None (with_btf (Some b) o).

(** * The target BTF *)

Definition typed_extern (o : pobj) (n : list Z) (x : xdesc) : Prop := p_btf o <> None /\ In (n, x) (p_externs o) /\ xd_type x <> None.
(** The object refers to types or typed symbols of the kernel. *)
Definition uses_target (o : pobj) : Prop := p_relos o <> [] \/ exists n x, typed_extern o n x.
(** It cannot do without. *)
Definition needs_target (o : pobj) : Prop := p_relos o <> [] \/ exists n x, typed_extern o n x /\ xd_weak x = false.
(** The answer to the next question, and whom it goes to. *)
Definition next_answer (u : outside) : res Z btf := match u_btf u with a :: _ => a | [] => Err 0 end.
Definition question (t : target) (o : pobj) : asked := match t with TSource => AskSource (p_big o) | _ => AskSystem end.

(** No target BTF has been read yet. *)
Definition unparsed (t : target) : Prop := forall b, t <> TParsed b.

(** What asking does to the loader and the outside. *)
Definition asked_step (t : target) (o : pobj) (u : outside) (t' : target) (u' : outside) : Prop :=
  unparsed t /\ uses_target o /\ u_asked u' = u_asked u ++ [question t o] /\ u_btf u' = tl (u_btf u) /\
  match next_answer u with Ok tb => t' = TParsed tb | Err _ => t' = t end.
Definition quiet_step (t : target) (u : outside) (t' : target) (u' : outside) : Prop :=
  t' = t /\ u_asked u' = u_asked u /\ u_btf u' = u_btf u.

(** * Maps *)

(** Maps for variables exist on kernels with global data only. *)
Definition variables (m : name * ObjModel.omap) : Prop := om_kind (snd m) = KBss \/ om_kind (snd m) = KDataS \/ om_kind (snd m) = KRodata.
Definition exists_on (k : kernel) (m : name * ObjModel.omap) : Prop := variables m -> k_global k = true.
Definition of_maps (m : name * ObjModel.omap) : Prop := md_type (om_def (snd m)) = 12 \/ md_type (om_def (snd m)) = 13.

(** What the map is created as. *)
Record created_as (c : config) (k : kernel) (m : name * ObjModel.omap) (pm : PinModel.omap) : Prop := {
  ca_name : o_name pm = fst m;
  ca_type : h_type (o_shape pm) = md_type (om_def (snd m));
  ca_key : h_key (o_shape pm) = md_key (om_def (snd m));
  ca_flags : h_flags (o_shape pm) = md_flags (om_def (snd m));
  ca_sizes : map_sizes (md_type (om_def (snd m))) (assoc str_eqb (fst m) (c_max c)) (md_entries (om_def (snd m))) (md_value (om_def (snd m)))
               (k_cpus k) (k_page k) (k_cpumap k) (k_devmap k) = Ok (h_entries (o_shape pm), h_value (o_shape pm));
  ca_data : o_data pm = om_data (snd m);
  ca_frozen : o_rodata pm = true <-> om_kind (snd m) = KRodata;
  ca_pinned : o_pinned pm = true <-> md_pin (om_def (snd m)) <> 0;
  (* a map of maps is created with a map of the inner definition, others without *)
  ca_inner : (of_maps m -> exists d, om_inner (snd m) = Some d /\
                o_inner pm = Some (Some {| h_type := md_type d; h_key := md_key d; h_value := md_value d; h_entries := md_entries d; h_flags := md_flags d |})) /\
             (~ of_maps m -> o_inner pm = None) }.

(** * The result *)

(** The object [o1] adapted to the kernel is [o2]; [tb] the target BTF, if it was
    needed and found. *)
Record suited (k : kernel) (tb : option btf) (o1 o2 : pobj) : Prop := {
  su_progs : p_progs o2 = p_progs o1; su_relocs : p_relocs o2 = p_relocs o1; su_syms : p_syms o2 = p_syms o1;
  su_maps : p_maps o2 = p_maps o1; su_btf : p_btf o2 = p_btf o1;
  (* CO-RE relocations are applied *)
  su_core : forall b t, tb = Some t -> p_btf o1 = Some b -> p_relos o1 <> [] ->
    relocate_btf (k_stack k) (k_be k) b t (map (fun i => (fst i, fst (snd i))) (p_infos o1)) (p_relos o1) (p_funs o1) = Ok (p_funs o2);
  su_funs : p_relos o1 = [] \/ p_btf o1 = None -> p_funs o2 = p_funs o1;
  (* kernel symbols are resolved *)
  su_externs : forall b, p_btf o1 = Some b -> resolve_externs (k_stack k) b tb (k_text k) (p_externs o1) = Ok (p_externs o2);
  su_needed : needs_target o1 -> tb <> None }.

(** The programs of the result: each program of the object once, with its name if
    the kernel takes names, as the kind its section says or as an extension, and
    with BTF [fd]. *)
Record programs_of (c : config) (k : kernel) (o : pobj) (fd : option Z) (e : ebpf) : Prop := {
  po_all : map ld_prog (e_progs e) = p_progs o;
  po_name : forall x, In x (e_progs e) -> ld_name x = (if k_names k then Some (pg_name (ld_prog x)) else None);
  po_forced : forall x, In x (e_progs e) -> forced c (ld_prog x) -> ld_kind x = KExtension /\ ld_flags x = 0;
  po_kind : forall x, In x (e_progs e) -> ~ forced c (ld_prog x) -> of_section false (pg_sec (ld_prog x)) = (ld_kind x, ld_flags x);
  po_btf : forall x, In x (e_progs e) -> ld_btf x = fd;
  po_level : forall x, In x (e_progs e) -> ld_level x = c_level c }.

(** The maps of the result: each map of the object once if it exists on this
    kernel, maps of maps after the others. *)
Record maps_of (c : config) (k : kernel) (maps : list (name * ObjModel.omap)) (e : ebpf) (w w' : PinModel.world) : Prop := {
  mo_all : forall m, In m (map mk_def (map fst (e_maps e))) <-> In m maps /\ exists_on k m;
  mo_once : NoDup (map fst maps) -> NoDup (map fst (map mk_def (map fst (e_maps e))));
  mo_order : exists a b, map fst (e_maps e) = a ++ b /\ Forall (fun m => ~ of_maps (mk_def m)) a /\ Forall (fun m => of_maps (mk_def m)) b;
  mo_made : forall m, In m (map fst (e_maps e)) -> created_as c k (mk_def m) (mk_map m);
  mo_kernel : PinModel.load_maps (c_pins c) (map mk_map (map fst (e_maps e))) w = (Ok (map (fun m => (mk_map m, mk_fd m)) (map fst (e_maps e))), w');
  mo_kind : forall m v, In (m, v) (e_maps e) -> parse_map (o_shape (mk_map m)) (c_allow c) = Ok v }.

(** What relocation is told of a map. *)
Definition told (m : made) : mapinfo :=
  {| m_fd := mk_fd m; m_section := om_section (snd (mk_def m)); m_symbol := om_symbol (snd (mk_def m));
     m_data_empty := match om_data (snd (mk_def m)) with [] => true | _ => false end |}.
(** The code of each program is complete in the sense of [WholeSpec]. *)
Definition code_of_object (o : pobj) : WholeModel.object :=
  {| ob_funs := p_funs o; ob_progs := p_progs o; ob_relocs := p_relocs o; ob_syms := fun n => nth_error (p_syms o) n;
     ob_externs := match p_btf o with
                   | Some _ => Some (fun n => match xget n (p_externs o) with
                                              | Some x => Some {| x_resolved := xd_resolved x; x_weak := xd_weak x; x_btf_id := xd_kernel_id x; x_addr := xd_addr x |}
                                              | None => None end)
                   | None => None end |}.
Definition code_complete (k : kernel) (o2 : pobj) (e : ebpf) : Prop :=
  let o := code_of_object o2 in
  let maps := map told (map fst (e_maps e)) in
  well_formed o (is_code o) maps -> kernel_known o -> NoDup (map (fun p => (pg_index p, pg_addr p)) (p_progs o2)) -> separate o (is_code o) ->
  forall x, In x (e_progs e) -> Z.of_nat (length (f_ins (ld_fun x))) < 2 ^ 31 ->
    exists f, entry_of o (ld_prog x) f /\ complete o (is_code o) maps (k_probe k) f (f_ins (ld_fun x)).

(** Errors found before any map is created. *)
Definition early (e : ferr) : Prop :=
  match e with
  | FGlobals _ | FBtf _ | FLoadBtf _ | FTarget _ | FCore _ | FKsyms _ | FMapType _ | FPanic => True
  | FSize _ | FMap _ | FReloc _ | FTyped _ => False
  end.

(** * When an object loads *)

(** The target BTF: what was read before or the answer of its source, none if it
    is not needed or there is none. *)
Definition target_is (t : target) (u : outside) (o : pobj) (tb : option btf) : Prop :=
  (uses_target o -> (forall b, t = TParsed b -> tb = Some b) /\ (unparsed t -> match next_answer u with Ok b => tb = Some b | Err _ => tb = None end)) /\
  (~ uses_target o -> tb = None).

(** The maps to create, and the maps of maps to create after them. *)
Inductive sorted_maps (k : kernel) : list (name * ObjModel.omap) -> list (name * ObjModel.omap) -> list (name * ObjModel.omap) -> Prop :=
| sm_nil : sorted_maps k [] [] []
| sm_skip m ms a b : ~ exists_on k m -> sorted_maps k ms a b -> sorted_maps k (m :: ms) a b
| sm_plain m ms a b : exists_on k m -> ~ of_maps m -> sorted_maps k ms a b -> sorted_maps k (m :: ms) (m :: a) b
| sm_outer m ms a b : exists_on k m -> of_maps m -> sorted_maps k ms a b -> sorted_maps k (m :: ms) a (m :: b).
(** Each is created, or opened if it is pinned. *)
Inductive creation (c : config) (k : kernel) : list (name * ObjModel.omap) -> PinModel.world -> list made -> PinModel.world -> Prop :=
| cr_nil w : creation c k [] w [] w
| cr_map m ms w x w1 l w2 : mk_def x = m -> created_as c k m (mk_map x) -> PinModel.load_map (c_pins c) (mk_map x) w = (Ok (mk_fd x), w1) ->
    creation c k ms w1 l w2 -> creation c k (m :: ms) w (x :: l) w2.

(** Everything loading depends on. *)
Record loadable (c : config) (k : kernel) (o : pobj) (t : target) (u : outside)
    (ms : list (name * ObjModel.omap)) (fd : option Z) (o1 : pobj) (tb : option btf) (o2 : pobj) (l : list made) (w : PinModel.world) : Prop := {
  lo_globals : configured c o ms;
  lo_sent : sent k (with_maps ms o) fd o1;
  lo_target : target_is t u o1 tb;
  lo_suited : suited k tb o1 o2;
  lo_types : forall m, In m ms -> exists_on k m -> 0 <= md_type (om_def (snd m)) <= 33;
  lo_maps : exists a b, sorted_maps k ms a b /\ creation c k (a ++ b) (u_kernel u) l w;
  lo_code : exists r, finish (code_of_object o2) (map told l) (k_probe k) = Ok r;
  lo_kinds : forall x, In x l -> exists v, parse_map (o_shape (mk_map x)) (c_allow c) = Ok v }.
