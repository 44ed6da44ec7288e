(** Model of the resolution of kernel symbols: aya-obj/src/extern_types.rs and
    the collection of externs in aya-obj/src/btf/extern_types.rs:73-160.

    Simplifications.  The hash map of externs is a list with distinct names; its
    order stands for the iteration order, which is arbitrary.  The texts of
    errors are reduced to the symbol name.  Reading /proc/kallsyms itself does
    not fail; its contents are an argument.  [ExternType] has one value (Ksym)
    and is left out. *)
From Verif Require Import Base Text TextParse Insn PatchModel BtfTypes BtfModel CoreSpec.
Local Open Scope Z_scope.

(** [ExternDesc], extern_types.rs:366-395; the fields patching reads are those
    of [PatchModel.extern]. *)
Record xdesc := { xd_btf : Z; xd_weak : bool; xd_resolved : bool; xd_kernel_id : option Z; xd_addr : option Z;
  xd_type : option Z; xd_essential : option (list Z) }.
Definition to_extern (x : xdesc) : extern :=
  {| x_resolved := xd_resolved x; x_weak := xd_weak x; x_btf_id := xd_kernel_id x; x_addr := xd_addr x |}.
Definition xmap := list (list Z * xdesc).

Inductive kerr :=
| KTypedNeedsKernelBtf
| KVariableNotFound (n : list Z)
| KFunctionNotFound (n : list Z)
| KIncompatibleFunction (n : list Z)
| KIncompatibleVariable (n : list Z)
| KInvalidExternType (n : list Z)
| KAmbiguous (n : list Z) (a b : Z)
| KKallsymsParse
| KBtf (e : berr)
| KStackOverflow.

(** [ExternDesc::new], extern_types.rs:397-415, with the type id set by
    [process_datasec_entry], btf/extern_types.rs:115-123. *)
Definition new_desc (n : list Z) (btf_id : Z) (weak : bool) (ty : option Z) : xdesc :=
  {| xd_btf := btf_id; xd_weak := weak; xd_resolved := false; xd_kernel_id := None; xd_addr := None;
     xd_type := ty; xd_essential := split_once n |}.

(** [process_datasec_entry], btf/extern_types.rs:82-126; [weak_of] is the symbol
    table looked up by name ([find_symbol_by_name], 129-136). *)
Definition process_entry (b : btf) (weak_of : list Z -> option bool) (id : Z) : res berr (list Z * xdesc) :=
  bind (type_by_id (b_types b) id) (fun t =>
  bind (match t with
        | TFunc h => bind (string_at b (h_name h)) (fun n => Ok (n, true, h_third h))
        | TVar h _ => bind (string_at b (h_name h)) (fun n => Ok (n, false, h_third h))
        | _ => Err BInvalidDatasec
        end) (fun nft =>
  let '(n, is_func, ty) := nft in
  match weak_of n with
  | None => Err BInvalidSymbolName
  | Some weak =>
      bind (resolve_type (b_types b) ty) (fun rid =>
      Ok (n, new_desc n id weak (if negb is_func && (rid =? 0) then None else Some rid)))
  end)).

Fixpoint xget (n : list Z) (m : xmap) : option xdesc :=
  match m with
  | [] => None
  | (k, x) :: m => if str_eqb k n then Some x else xget n m
  end.
Definition xset (n : list Z) (f : xdesc -> xdesc) (m : xmap) : xmap :=
  map (fun kx => if str_eqb (fst kx) n then (fst kx, f (snd kx)) else kx) m.

(** [ksym_addr = Some(a); is_resolved = true], extern_types.rs:156-157. *)
Definition set_addr (a : Z) (x : xdesc) : xdesc :=
  {| xd_btf := xd_btf x; xd_weak := xd_weak x; xd_resolved := true; xd_kernel_id := xd_kernel_id x; xd_addr := Some a;
     xd_type := xd_type x; xd_essential := xd_essential x |}.
(** extern_types.rs:78-81. *)
Definition set_kernel_id (id : Z) (x : xdesc) : xdesc :=
  {| xd_btf := xd_btf x; xd_weak := xd_weak x; xd_resolved := true; xd_kernel_id := Some id; xd_addr := xd_addr x;
     xd_type := xd_type x; xd_essential := xd_essential x |}.
(** extern_types.rs:99-105. *)
Definition null_weak (x : xdesc) : xdesc :=
  if negb (xd_resolved x) && xd_weak x
  then {| xd_btf := xd_btf x; xd_weak := xd_weak x; xd_resolved := xd_resolved x; xd_kernel_id := xd_kernel_id x;
          xd_addr := Some 0; xd_type := xd_type x; xd_essential := xd_essential x |}
  else x.

Definition mem (n : list Z) (l : list (list Z)) : bool := existsb (str_eqb n) l.

(** Address text and symbol name of a line, extern_types.rs:126-132. *)
Definition kent (line : list Z) : option (list Z * list Z) :=
  match ws_words line with
  | a :: _ :: n :: _ => Some (a, n)
  | _ => None
  end.

(** One line, extern_types.rs:124-159. *)
Definition kline_step (req : list (list Z)) (line : list Z) (m : xmap) : res kerr xmap :=
  match kent line with
  | None => Ok m
  | Some (s, n) =>
      if negb (mem n req) then Ok m
      else
        match hex_u64 s with
        | None => Err KKallsymsParse
        | Some a =>
            if a =? 0 then Ok m
            else
              match xget n m with
              | None => Ok m
              | Some x =>
                  if xd_resolved x then
                    match xd_addr x with
                    | Some b => if b =? a then Ok m else Err (KAmbiguous n b a)
                    | None => Ok m
                    end
                  else Ok (xset n (set_addr a) m)
              end
        end
  end.
Fixpoint klines (req : list (list Z)) (ls : list (list Z)) (m : xmap) : res kerr xmap :=
  match ls with
  | [] => Ok m
  | l :: ls => bind (kline_step req l m) (klines req ls)
  end.

(** The check after the listing, extern_types.rs:163-168. *)
Fixpoint strong_missing (m : xmap) : option (list Z) :=
  match m with
  | [] => None
  | (n, x) :: m => if negb (xd_resolved x) && negb (xd_weak x) then Some n else strong_missing m
  end.

(** [resolve_kallsyms_from_reader], extern_types.rs:111-175. *)
Definition resolve_kallsyms (text : list Z) (req : list (list Z)) (m : xmap) : res kerr xmap :=
  bind (klines req (lines text) m) (fun m' =>
  match strong_missing m' with
  | Some n => Err (KVariableNotFound n)
  | None => Ok m'
  end).

(** [unresolved_typeless_ksym_vars], extern_types.rs:178-193. *)
Definition wanted (x : xdesc) : bool := negb (xd_resolved x) && match xd_type x with None => true | Some _ => false end.
Definition requested (m : xmap) : list (list Z) := map fst (filter (fun kx => wanted (snd kx)) m).

(** [resolve_typeless_externs], extern_types.rs:89-108. *)
Definition resolve_typeless (text : list Z) (m : xmap) : res kerr xmap :=
  bind (match requested m with [] => Ok m | req => resolve_kallsyms text req m end) (fun m' =>
  Ok (map (fun kx => (fst kx, null_weak (snd kx))) m')).

(** [resolve_extern_function] and [resolve_extern_variable],
    extern_types.rs:197-296.  [stack] bounds the recursion of the comparison of
    types, as in [BtfModel.compat]. *)
Definition resolve_one (stack : nat) (local kernel : btf) (lookup : list Z) (k : bkind) (missing incompatible : kerr)
    (x : xdesc) : res kerr (option Z) :=
  match id_by_type_name_kind kernel lookup k with
  | Err _ => if xd_weak x then Ok None else Err missing
  | Ok id =>
      match type_by_id (b_types kernel) id with
      | Err e => Err (KBtf e)
      | Ok t =>
          match (match t, k with
                 | TFunc h, KFunc => Some (h_third h)
                 | TVar h _, KVar => Some (h_third h)
                 | _, _ => None
                 end) with
          | None => Err (KBtf (BUnexpectedBtfType id))
          | Some kid =>
              match xd_type x with
              | None => Err (KBtf BPanic)
              | Some lid =>
                  match compat stack (b_types local) (b_types kernel) lid kid with
                  | CStack => Err KStackOverflow
                  | CRes (Err e) => Err (KBtf e)
                  | CRes (Ok true) => Ok (Some id)
                  | CRes (Ok false) => if xd_weak x then Ok None else Err incompatible
                  end
              end
          end
      end
  end.
Definition lookup_name (n : list Z) (x : xdesc) : list Z :=
  match xd_essential x with Some e => e | None => n end.

(** Body of the first loop of [resolve_typed_externs], extern_types.rs:50-69. *)
Definition typed_one (stack : nat) (local kernel : btf) (n : list Z) (x : xdesc) : res kerr (option Z) :=
  match xd_type x with
  | None => Ok None
  | Some _ =>
      match type_by_id (b_types local) (xd_btf x) with
      | Err e => Err (KBtf e)
      | Ok (TFunc _) =>
          let ln := lookup_name n x in
          resolve_one stack local kernel ln KFunc (KFunctionNotFound ln) (KIncompatibleFunction ln) x
      | Ok (TVar _ _) => resolve_one stack local kernel n KVar (KVariableNotFound n) (KIncompatibleVariable n) x
      | Ok _ => Err (KInvalidExternType n)
      end
  end.
Fixpoint collect_typed (stack : nat) (local kernel : btf) (m : xmap) : res kerr (list (list Z * Z)) :=
  match m with
  | [] => Ok []
  | (n, x) :: m =>
      bind (typed_one stack local kernel n x) (fun r =>
      bind (collect_typed stack local kernel m) (fun rest =>
      Ok (match r with Some id => (n, id) :: rest | None => rest end)))
  end.

(** [resolve_typed_externs], extern_types.rs:41-86. *)
Definition resolve_typed (stack : nat) (local kernel : btf) (m : xmap) : res kerr xmap :=
  bind (collect_typed stack local kernel m) (fun rs =>
  Ok (fold_left (fun m r => xset (fst r) (set_kernel_id (snd r)) m) rs m)).

(** [has_strong_typed_ksyms], extern_types.rs:441-462: the flag is set when a
    strong typed extern is inserted. *)
Definition strong_typed (m : xmap) : bool :=
  existsb (fun kx => match xd_type (snd kx) with Some _ => negb (xd_weak (snd kx)) | None => false end) m.

(** [resolve_externs], extern_types.rs:17-31, for an object that has BTF. *)
Definition resolve_externs (stack : nat) (local : btf) (kernel : option btf) (text : list Z) (m : xmap) : res kerr xmap :=
  bind (match kernel with
        | Some k => resolve_typed stack local k m
        | None => if strong_typed m then Err KTypedNeedsKernelBtf else Ok m
        end) (resolve_typeless text).
