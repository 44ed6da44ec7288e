(** How the bindings of the kernel's helpers are generated:
    /repo/xtask/src/codegen/helpers.rs and the part of
    /repo/xtask/src/codegen/aya_ebpf_bindings.rs that uses it (lines 101-130);
    and what a generated function does. Rust source is modelled as far as
    the generator looks at it: names and types are texts, attributes, safety
    and lifetimes are left out. *)
From Coq Require Import String.
From Verif Require Import Base Text TextSplit.
Open Scope Z_scope.

(** A type as syn parses it: a path of segments with generic arguments, a
    function pointer, or something else. A generic argument is a type or, as
    [None], something else (a lifetime, a constant). Parameters of function
    pointers have a name or none. *)
Inductive ty :=
| TPath (segments : list (list Z * generics))
| TFn (inputs : list (option (list Z) * list Z)) (output : list Z)
| TOther (t : list Z)
with generics := GNone | GAngle (args : list (option ty)) | GParen.

(** Items of a file: foreign modules with statics and other things, and
    everything else. [INothing] is the empty token stream. *)
Inductive foreign := FStatic (name : list Z) (t : ty) | FOther (t : list Z).
Inductive item := IForeign (l : list foreign) | IOther (t : list Z) | INothing.

(** The generator panics on helpers without the expected type (expect), on
    parameters without a name (unwrap) and on a path without segments, which
    syn does not produce. *)
Inductive panic := PSignature | PUnnamed | PNoSegment.

(** struct Helper (99-105). *)
Record helper := { h_ident : list Z; h_inputs : list (option (list Z) * list Z); h_output : list Z; h_index : Z }.

(** helper_from_item (32-57). *)
Definition last_segment (l : list (list Z * generics)) : option (list Z * generics) := match rev l with [] => None | x :: _ => Some x end.
Definition helper_from_item (name : list Z) (t : ty) (index : Z) : res panic (option helper) :=
  match t with
  | TPath segs =>
      match last_segment segs with
      | None => Err PNoSegment
      | Some (_, GAngle (Some (TFn i o) :: _)) => Ok (Some {| h_ident := name; h_inputs := i; h_output := o; h_index := index |})
      | Some _ => Ok None
      end
  | _ => Ok None
  end.

(** extract_helpers (9-30): the helpers so far determine the next number. *)
Fixpoint extract_module (at_ : nat) (l : list foreign) (acc : list nat * list helper) : res panic (list nat * list helper) :=
  match l with
  | [] => Ok acc
  | FStatic name t :: r =>
      if starts_with (txt "bpf_") name
      then bind (helper_from_item name t (Z.of_nat (length (snd acc)) + 1)) (fun o =>
             match o with
             | None => Err PSignature
             | Some h => extract_module at_ r (fst acc ++ [at_], snd acc ++ [h])
             end)
      else extract_module at_ r acc
  | FOther _ :: r => extract_module at_ r acc
  end.
Fixpoint extract_from (at_ : nat) (items : list item) (acc : list nat * list helper) : res panic (list nat * list helper) :=
  match items with
  | [] => Ok acc
  | IForeign l :: r => bind (extract_module at_ l acc) (extract_from (S at_) r)
  | _ :: r => extract_from (S at_) r acc
  end.
Definition extract_helpers (items : list item) : res panic (list nat * list helper) := extract_from 0 items ([], []).

(** A generated function (73-96): parameters, result, the type of the pointer
    the number is transmuted to, the number, and the names passed on. *)
Record wrapper := { w_name : list Z; w_params : list (list Z * list Z); w_ret : list Z;
                    w_fun : list (list Z * list Z); w_fun_ret : list Z; w_number : Z; w_args : list (list Z) }.

Definition named (p : option (list Z) * list Z) : res panic (list Z * list Z) :=
  match p with (Some n, t) => Ok (n, t) | (None, _) => Err PUnnamed end.
Definition expand_helper (h : helper) : res panic wrapper :=
  bind (mapM named (h_inputs h)) (fun ps =>
  Ok {| w_name := h_ident h; w_params := ps; w_ret := h_output h; w_fun := ps; w_fun_ret := h_output h; w_number := h_index h;
        w_args := map fst ps |}).

(** expand_helpers (59-71). *)
Definition expand_helpers (l : list helper) : res panic (list wrapper) :=
  mapM expand_helper (filter (fun h => negb (str_eqb (h_ident h) (txt "bpf_trace_printk"))) l).

(** codegen (aya_ebpf_bindings.rs 101-107): the new functions, and the other
    bindings with the items the helpers were in replaced by nothing. *)
Fixpoint blank (l : list nat) (items : list item) : list item :=
  match l with [] => items | i :: r => blank r (upd i INothing items) end.
Definition codegen (items : list item) : res panic (list wrapper * list item) :=
  bind (extract_helpers items) (fun x =>
  bind (expand_helpers (snd x)) (fun ws => Ok (ws, blank (fst x) items))).

(** Calling a generated function: a call to the number with the values of the
    parameters named, if there are as many values as parameters. *)
Fixpoint value_of (n : list Z) (ps : list (list Z * list Z)) (args : list Z) : option Z :=
  match ps, args with
  | (m, _) :: ps, a :: args => if str_eqb n m then Some a else value_of n ps args
  | _, _ => None
  end.
Fixpoint values (ns : list (list Z)) (ps : list (list Z * list Z)) (args : list Z) : option (list Z) :=
  match ns with
  | [] => Some []
  | n :: r => match value_of n ps args, values r ps args with Some a, Some l => Some (a :: l) | _, _ => None end
  end.
Definition calls (w : wrapper) (args : list Z) : option (Z * list Z) :=
  if (length args =? length (w_params w))%nat
  then match values (w_args w) (w_params w) args with
       | Some l => if (length l =? length (w_fun w))%nat then Some (w_number w, l) else None
       | None => None
       end
  else None.
