(** [EbpfLoader::load]: aya/src/bpf.rs:450-886, from the parsed object to the
    programs and maps handed to the caller.

    The steps it is made of are those of the other models: globals and helpers
    [ObjModel], BTF [BtfSanitize], CO-RE relocation [CoreModel], kernel symbols
    [ExternModel], sizes of maps [UtilModel], pinning and creation of maps
    [PinModel], relocation [WholeModel], kinds of programs [ProgModel], kinds of
    maps [TypedModel].

    Simplifications: the order of hash maps is the order of lists; a map's
    descriptor is the number of the map; the BTF of maps is left out; the answer
    of a feature probe does not change. *)
From Coq Require Import String.
From Verif Require Import Base Text Insn PatchModel LinkModel BtfTypes BtfModel BtfExt CoreModel BtfSanitize ExternModel PinModel UtilModel TypedModel ProgModel ObjModel WholeModel.
Local Open Scope Z_scope.

(** [Object] after parsing, obj.rs:36-66.  [p_relos]: the CO-RE relocations of
    .BTF.ext, empty if the object has none; [p_externs], [p_ksyms]: the externs
    of its BTF, and the number of their section and of the placeholder;
    [p_infos]: [section_infos]; [p_offsets]: [symbol_offset_by_name]. *)
Record pobj := {
  p_big : bool; p_btf : option btf; p_relos : list (Z * list relo); p_externs : xmap; p_ksyms : option (Z * option Z);
  p_progs : list program; p_funs : list func; p_maps : list (name * ObjModel.omap);
  p_relocs : nat -> list reloc; p_syms : list symbol; p_infos : list (list Z * (nat * Z)); p_offsets : list (list Z * Z) }.
Definition with_btf (b : option btf) (o : pobj) : pobj :=
  {| p_big := p_big o; p_btf := b; p_relos := p_relos o; p_externs := p_externs o; p_ksyms := p_ksyms o; p_progs := p_progs o; p_funs := p_funs o;
     p_maps := p_maps o; p_relocs := p_relocs o; p_syms := p_syms o; p_infos := p_infos o; p_offsets := p_offsets o |}.
Definition with_maps (m : list (name * ObjModel.omap)) (o : pobj) : pobj :=
  {| p_big := p_big o; p_btf := p_btf o; p_relos := p_relos o; p_externs := p_externs o; p_ksyms := p_ksyms o; p_progs := p_progs o; p_funs := p_funs o;
     p_maps := m; p_relocs := p_relocs o; p_syms := p_syms o; p_infos := p_infos o; p_offsets := p_offsets o |}.
Definition settled (fs : list func) (x : xmap) (o : pobj) : pobj :=
  {| p_big := p_big o; p_btf := p_btf o; p_relos := p_relos o; p_externs := x; p_ksyms := p_ksyms o; p_progs := p_progs o; p_funs := fs;
     p_maps := p_maps o; p_relocs := p_relocs o; p_syms := p_syms o; p_infos := p_infos o; p_offsets := p_offsets o |}.

(** What the kernel and the machine answer.  [k_feat]: [FEATURES.btf()];
    [k_takes]: BPF_BTF_LOAD, a descriptor or an error number; [k_text]:
    /proc/kallsyms; [k_stack]: see [CoreModel]. *)
Record kernel := {
  k_feat : option (feature -> bool); k_takes : btf -> res Z Z;
  k_global : bool; k_probe : bool; k_names : bool; k_cpumap : bool; k_devmap : bool;
  k_cpus : option Z; k_page : Z; k_text : list Z; k_stack : nat; k_be : bool }.

(** [EbpfLoader], bpf.rs:75-84, without [btf]. *)
Record config := {
  c_pins : PinModel.loader; c_globals : list (name * list Z * bool); c_max : list (name * Z);
  c_ext : list name; c_level : Z; c_allow : bool }.
(** [TargetBtf], bpf.rs:86-98: where the target BTF comes from. *)
Inductive target := TSystem | TParsed (b : btf) | TSource.

(** Who is asked for the target BTF; the callback is given a parser for the
    byte order of the object. *)
Inductive asked := AskSystem | AskSource (big : bool).
(** [u_btf]: the answers to come; [u_asked]: the questions so far. *)
Record outside := { u_btf : list (res Z btf); u_asked : list asked; u_kernel : PinModel.world }.
Definition with_kernel (w : PinModel.world) (u : outside) : outside := {| u_btf := u_btf u; u_asked := u_asked u; u_kernel := w |}.
Definition ask_btf (q : asked) (u : outside) : res Z btf * outside :=
  match u_btf u with
  | [] => (Err 0, {| u_btf := []; u_asked := u_asked u ++ [q]; u_kernel := u_kernel u |})
  | a :: r => (a, {| u_btf := r; u_asked := u_asked u ++ [q]; u_kernel := u_kernel u |})
  end.

Inductive ferr :=
| FGlobals (e : oerr) | FBtf (e : berr) | FLoadBtf (e : Z) | FTarget (e : Z) | FCore (e : rerr) | FKsyms (e : kerr)
| FMapType (ty : Z) | FSize (e : size_err) | FMap (e : PinModel.merr) | FReloc (e : werr) | FTyped (e : TypedModel.merr) | FPanic.
Definition failing {E A} (c : E -> ferr) (r : res E A) : res ferr A := match r with Ok a => Ok a | Err e => Err (c e) end.

(** [has_btf_relocations], obj.rs:502-507; [has_typed_ksyms] and
    [has_strong_typed_ksyms], extern_types.rs:9-14, 34-38 and 442-458. *)
Definition has_relos (o : pobj) : bool := match p_relos o with [] => false | _ => true end.
Definition with_externs (o : pobj) : bool := match p_btf o with Some _ => true | None => false end.
Definition has_typed (o : pobj) : bool := with_externs o && existsb (fun kx => match xd_type (snd kx) with Some _ => true | None => false end) (p_externs o).
Definition has_strong (o : pobj) : bool := with_externs o && strong_typed (p_externs o).

(** [Object::fixup_and_sanitize_btf], btf.rs:941-965, and the start of
    [fixup_and_sanitize], 483-489. *)
Definition sane (k : kernel) (o : pobj) : res ferr (option btf) :=
  match p_btf o, k_feat k with
  | Some b, Some feat =>
      if Nat.ltb (length (b_types b)) 2 then Ok None
      else
        bind (match p_externs o, p_ksyms o with
              | [], _ => Ok b
              | _, None => Err FPanic
              | _, Some (ds, place) => failing FBtf (fixup_ksyms b ds place)
              end) (fun b =>
        bind (failing FBtf (sanitize feat (fun n => option_map snd (assoc str_eqb n (p_infos o))) (fun n => assoc str_eqb n (p_offsets o)) b)) (fun b =>
        Ok (Some b)))
  | _, _ => Ok None
  end.

(** bpf.rs:476-484: programs for which BTF is truly needed, by section. *)
Definition btf_section (s : psec) : bool :=
  match s with
  | PExtension | PFEntry _ | PFExit _ | PLsm _ | PLsmCgroup | PTpBtf | PIter _ => true
  | _ => false
  end.
(** bpf.rs:464-527: the object's BTF goes to the kernel. *)
Definition upload (k : kernel) (o : pobj) : res ferr (pobj * option Z) :=
  bind (sane k o) (fun b =>
  match b with
  | None => Ok (o, None)
  | Some b =>
      let o := with_btf (Some b) o in
      match k_takes k b with
      | Ok fd => Ok (o, Some fd)
      | Err e => if existsb (fun p => btf_section (pg_sec p)) (p_progs o) || has_relos o then Err (FLoadBtf e) else Ok (o, None)
      end
  end).

(** [Object::relocate_btf], relocation.rs:220-262, and
    [Object::resolve_externs], extern_types.rs:17-31: nothing without BTF. *)
Definition relocated (k : kernel) (tb : btf) (o : pobj) : res ferr (list func) :=
  match p_btf o, p_relos o with
  | Some b, _ :: _ => failing FCore (relocate_btf (k_stack k) (k_be k) b tb (map (fun i => (fst i, fst (snd i))) (p_infos o)) (p_relos o) (p_funs o))
  | _, _ => Ok (p_funs o)
  end.
Definition resolved (k : kernel) (tb : option btf) (o : pobj) : res ferr xmap :=
  match p_btf o with
  | Some b => failing FKsyms (resolve_externs (k_stack k) b tb (k_text k) (p_externs o))
  | None => Ok (p_externs o)
  end.
Definition settle (k : kernel) (tb : option btf) (o : pobj) : res ferr pobj :=
  bind (match tb with Some tb => relocated k tb o | None => Ok (p_funs o) end) (fun fs =>
  bind (resolved k tb (settled fs (p_externs o) o)) (fun x => Ok (settled fs x o))).

(** bpf.rs:532-539. *)
Definition get_target (t : target) (big : bool) (u : outside) : res Z btf * outside :=
  match t with
  | TSystem => ask_btf AskSystem u
  | TParsed b => (Ok b, u)
  | TSource => ask_btf (AskSource big) u
  end.
(** bpf.rs:529-574.  The target BTF is kept even if what follows fails. *)
Definition adapt (k : kernel) (o : pobj) (t : target) (u : outside) : res ferr pobj * target * outside :=
  if has_relos o || has_typed o then
    match get_target t (p_big o) u with
    | (Ok tb, u) => (settle k (Some tb) o, TParsed tb, u)
    | (Err e, u) => if has_relos o || has_strong o then (Err (FTarget e), t, u) else (settle k None o, t, u)
    end
  else (settle k None o, t, u).

(** bpf.rs:576-607: the maps that are created, those of maps last. *)
Definition is_map_of_maps (ty : Z) : bool := (ty =? 12) || (ty =? 13).
Definition is_data (s : skind) : bool := match s with KBss | KDataS | KRodata => true | _ => false end.
Definition wanted (k : kernel) (m : name * ObjModel.omap) : bool := negb (is_data (om_kind (snd m))) || k_global k.
Definition outer (m : name * ObjModel.omap) : bool := is_map_of_maps (md_type (om_def (snd m))).
Fixpoint typed_maps (ms : list (name * ObjModel.omap)) : res ferr unit :=
  match ms with
  | [] => Ok tt
  | m :: ms => match map_type_of (md_type (om_def (snd m))) with None => Err (FMapType (md_type (om_def (snd m)))) | Some _ => typed_maps ms end
  end.
Definition ordered (ms : list (name * ObjModel.omap)) : list (name * ObjModel.omap) := filter (fun m => negb (outer m)) ms ++ filter outer ms.

(** bpf.rs:611-640: sizes; what remains is [PinModel.load_map].  The inner map
    is created with the sizes of its definition. *)
Definition shape_of (d : mapdef) : shape :=
  {| h_type := md_type d; h_key := md_key d; h_value := md_value d; h_entries := md_entries d; h_flags := md_flags d |}.
Definition sized (c : config) (k : kernel) (m : name * ObjModel.omap) : res ferr PinModel.omap :=
  let d := om_def (snd m) in
  bind (failing FSize (map_sizes (md_type d) (assoc str_eqb (fst m) (c_max c)) (md_entries d) (md_value d) (k_cpus k) (k_page k) (k_cpumap k) (k_devmap k))) (fun ev =>
  Ok {| o_name := fst m;
        o_shape := {| h_type := md_type d; h_key := md_key d; h_value := snd ev; h_entries := fst ev; h_flags := md_flags d |};
        o_data := om_data (snd m); o_rodata := match om_kind (snd m) with KRodata => true | _ => false end;
        o_pinned := negb (md_pin d =? 0);
        o_inner := if outer m then Some (option_map shape_of (om_inner (snd m))) else None |}).

(** A map of the result: its definition in the object, what it was created as,
    its descriptor. *)
Record made := { mk_def : name * ObjModel.omap; mk_map : PinModel.omap; mk_fd : Z }.
Fixpoint make_maps (c : config) (k : kernel) (ms : list (name * ObjModel.omap)) (w : PinModel.world) : res ferr (list made) * PinModel.world :=
  match ms with
  | [] => (Ok [], w)
  | m :: ms =>
      match sized c k m with
      | Err e => (Err e, w)
      | Ok pm =>
          match PinModel.load_map (c_pins c) pm w with
          | (Err e, w) => (Err (FMap e), w)
          | (Ok fd, w) =>
              match make_maps c k ms w with
              | (Err e, w) => (Err e, w)
              | (Ok r, w) => (Ok ({| mk_def := m; mk_map := pm; mk_fd := fd |} :: r), w)
              end
          end
      end
  end.

(** bpf.rs:680-684. *)
Definition info_of (m : made) : mapinfo :=
  {| m_fd := mk_fd m; m_section := om_section (snd (mk_def m)); m_symbol := om_symbol (snd (mk_def m));
     m_data_empty := match om_data (snd (mk_def m)) with [] => true | _ => false end |}.
Definition whole (o : pobj) : WholeModel.object :=
  {| ob_funs := p_funs o; ob_progs := p_progs o; ob_relocs := p_relocs o; ob_syms := fun n => nth_error (p_syms o) n;
     ob_externs := match p_btf o with Some _ => Some (fun n => option_map to_extern (xget n (p_externs o))) | None => None end |}.

(** bpf.rs:693-873: a program of the result. *)
Record loaded := { ld_prog : program; ld_name : option name; ld_kind : kind; ld_flags : Z; ld_btf : option Z; ld_level : Z; ld_fun : func }.
Definition dress (c : config) (k : kernel) (fd : option Z) (pf : program * func) : loaded :=
  let kf := of_section (existsb (str_eqb (pg_name (fst pf))) (c_ext c)) (pg_sec (fst pf)) in
  {| ld_prog := fst pf; ld_name := if k_names k then Some (pg_name (fst pf)) else None; ld_kind := fst kf; ld_flags := snd kf;
     ld_btf := fd; ld_level := c_level c; ld_fun := snd pf |}.

(** [Ebpf], bpf.rs:889-892. *)
Record ebpf := { e_maps : list (made * variant); e_progs : list loaded }.

(** bpf.rs:874-878. *)
Definition classify (c : config) (ms : list made) : res ferr (list (made * variant)) :=
  mapM (fun m => bind (failing FTyped (parse_map (o_shape (mk_map m)) (c_allow c))) (fun v => Ok (m, v))) ms.

(** bpf.rs:576-886, once the object is adapted to the kernel. *)
Definition build (c : config) (k : kernel) (fd : option Z) (o : pobj) (w : PinModel.world) : res ferr ebpf * PinModel.world :=
  match typed_maps (filter (wanted k) (p_maps o)) with
  | Err e => (Err e, w)
  | Ok _ =>
      match make_maps c k (ordered (filter (wanted k) (p_maps o))) w with
      | (Err e, w) => (Err e, w)
      | (Ok ms, w) =>
          (bind (failing FReloc (finish (whole o) (map info_of ms) (k_probe k))) (fun l =>
           bind (classify c ms) (fun vs =>
           Ok {| e_maps := vs; e_progs := map (dress c k fd) l |})), w)
      end
  end.

(** bpf.rs:461-886, for the parsed object [o]. *)
Definition load (c : config) (k : kernel) (o : pobj) (t : target) (u : outside) : res ferr ebpf * target * outside :=
  match bind (failing FGlobals (patch_map_data (p_syms o) (p_maps o) (c_globals c))) (fun ms => upload k (with_maps ms o)) with
  | Err e => (Err e, t, u)
  | Ok (o, fd) =>
      match adapt k o t u with
      | (Err e, t, u) => (Err e, t, u)
      | (Ok o, t, u) => let (r, w) := build c k fd o (u_kernel u) in (r, t, with_kernel w u)
      end
  end.

(** One loader, several objects. *)
Fixpoint load_all (c : config) (k : kernel) (os : list pobj) (t : target) (u : outside) : list (res ferr ebpf) * target * outside :=
  match os with
  | [] => ([], t, u)
  | o :: os => let '(r, t, u) := load c k o t u in let '(rs, t, u) := load_all c k os t u in (r :: rs, t, u)
  end.
