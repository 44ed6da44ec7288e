(** Model of iterating maps and kernel objects and of per-CPU values:
    aya/src/maps/mod.rs [MapKeys], [MapIter], [PerCpuValues] and
    aya/src/sys/bpf.rs [iter_obj_ids].

    A system call is an answer that may depend on the number of calls made
    before it, so the kernel may change between calls in any way. *)
From Verif Require Import Base.
Local Open Scope Z_scope.

(** * Keys *)

(** aya/src/maps/mod.rs:1043-1047 [MapKeys]; [ks_calls] counts the system
    calls made. *)
Record keys (K : Type) := { ks_err : bool; ks_key : option K; ks_calls : nat }.
Arguments ks_err {K}. Arguments ks_key {K}. Arguments ks_calls {K}.

(** aya/src/maps/mod.rs:1050-1056. *)
Definition keys_new {K} : keys K := {| ks_err := false; ks_key := None; ks_calls := 0 |}.

(** aya/src/maps/mod.rs:1062-1082 [MapKeys::next].  [next n k]: the answer of
    the [n]th call, [Ok None] for ENOENT (aya/src/sys/bpf.rs:405-409). *)
Definition keys_next {K} (next : nat -> option K -> res Z (option K)) (st : keys K) : option (res Z K) * keys K :=
  if ks_err st then (None, st)
  else match next (ks_calls st) (ks_key st) with
       | Err e => (Some (Err e), {| ks_err := true; ks_key := ks_key st; ks_calls := S (ks_calls st) |})
       | Ok k => (match k with Some k => Some (Ok k) | None => None end,
                  {| ks_err := false; ks_key := k; ks_calls := S (ks_calls st) |})
       end.

(** * Entries *)

(** Outcome of looking a key up: the value, [MapError::KeyNotFound], another
    error. *)
Inductive got (V : Type) := GFound (v : V) | GMissing | GFailed (e : Z).
Arguments GFound {V}. Arguments GMissing {V}. Arguments GFailed {V}.

(** aya/src/maps/mod.rs:1105-1117 [MapIter::next]; [None] when [fuel] keys in
    a row were missing (the loop of the code is not bounded). *)
Fixpoint iter_next {K V} (fuel : nat) (next : nat -> option K -> res Z (option K)) (get : nat -> K -> got V) (st : keys K)
    : option (option (res Z (K * V)) * keys K) :=
  match fuel with
  | O => None
  | S fuel =>
      match keys_next next st with
      | (Some (Ok k), st) =>
          let st' := {| ks_err := ks_err st; ks_key := ks_key st; ks_calls := S (ks_calls st) |} in
          match get (ks_calls st) k with
          | GFound v => Some (Some (Ok (k, v)), st')
          | GMissing => iter_next fuel next get st'
          | GFailed e => Some (Some (Err e), st')
          end
      | (Some (Err e), st) => Some (Some (Err e), st)
      | (None, st) => Some (None, st)
      end
  end.

(** Polling an iterator [n] times. *)
Fixpoint poll {S A} (f : S -> A * S) (n : nat) (st : S) : list A * S :=
  match n with
  | O => ([], st)
  | Datatypes.S n => let (a, st) := f st in let (l, st) := poll f n st in (a :: l, st)
  end.

(** * Object ids *)

(** aya/src/sys/bpf.rs:1490-1506 [iter_obj_ids]: the id to continue from,
    [None] after the end; [ids_calls] counts the system calls made. *)
Record ids := { ids_current : option Z; ids_calls : nat }.
Definition ids_new : ids := {| ids_current := Some 0; ids_calls := 0 |}.
Definition ids_next (next : nat -> Z -> res Z (option Z)) (st : ids) : option (res Z Z) * ids :=
  match ids_current st with
  | None => (None, st)
  | Some id =>
      let r := next (ids_calls st) id in
      (match r with Ok (Some n) => Some (Ok n) | Ok None => None | Err e => Some (Err e) end,
       {| ids_current := match r with Ok (Some n) => Some n | _ => None end; ids_calls := S (ids_calls st) |})
  end.

(** * Per-CPU values *)

(** A value is its bytes, all of the same length [size]; the buffer is the
    list of its bytes.  Reads and writes outside the buffer would be undefined
    behaviour: the model stops with [Err tt]. *)

(** [usize::next_multiple_of(8)]. *)
Definition next_multiple_of_8 (n : nat) : nat := if (n mod 8 =? 0)%nat then n else (n + (8 - n mod 8))%nat.

(** aya/src/maps/mod.rs:1162-1173 [TryFrom<Vec<T>>]. *)
Definition try_from (nr_cpus : nat) (values : list (list Z)) : res unit (list (list Z)) :=
  if (length values =? nr_cpus)%nat then Ok values else Err tt.

(** aya/src/maps/mod.rs:1177-1183 [alloc_kernel_mem]. *)
Definition alloc_kernel_mem (nr_cpus size : nat) : list Z := repeat 0 (nr_cpus * next_multiple_of_8 size).

(** aya/src/maps/mod.rs:1199-1208 [build_kernel_mem]. *)
Fixpoint write_values (stride i : nat) (values : list (list Z)) (mem : list Z) : res unit (list Z) :=
  match values with
  | [] => Ok mem
  | v :: values =>
      if (i * stride + length v <=? length mem)%nat then write_values stride (S i) values (splice (i * stride) v mem)
      else Err tt
  end.
Definition build_kernel_mem (nr_cpus size : nat) (values : list (list Z)) : res unit (list Z) :=
  write_values (next_multiple_of_8 size) 0 values (alloc_kernel_mem nr_cpus size).

(** aya/src/maps/mod.rs:1185-1197 [from_kernel_mem]; [fuel] iterations. *)
Fixpoint read_values (fuel size stride offset : nat) (mem : list Z) : res unit (list (list Z)) :=
  if (offset <? length mem)%nat then
    match fuel with
    | O => Err tt
    | S fuel =>
        if (offset + size <=? length mem)%nat then
          bind (read_values fuel size stride (offset + stride) mem) (fun r => Ok (slice offset size mem :: r))
        else Err tt
    end
  else Ok [].
Definition from_kernel_mem (size : nat) (mem : list Z) : res unit (list (list Z)) :=
  read_values (length mem) size (next_multiple_of_8 size) 0 mem.
