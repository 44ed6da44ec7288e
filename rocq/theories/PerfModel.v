(** Model of the perf buffer reader, [PerfBuffer::try_fold]
    (/repo/aya/src/maps/perf/perf_buffer.rs:201-314), against a byte-level
    model of the shared data pages.

    Simplifications: [usize] is 64 bits; memory is read sequentially
    consistently, one snapshot per iteration of the [while] loop (the kernel
    may write between iterations); the callback is a function of its
    accumulator, with unwinding as an explicit outcome.  The
    [debug_assert]s (lines 231, 256, 294) are release-profile no-ops. *)
From Verif Require Import Base RingBufModel.
Local Open Scope Z_scope.

(** PERF_RECORD_SAMPLE and PERF_RECORD_LOST (kernel uapi, lines 246, 279). *)
Definition T_SAMPLE : Z := 9.
Definition T_LOST : Z := 2.

(** [PerfEvent], perf_buffer.rs:75-95. *)
Inductive pevent := Sample (head tail : list Z) | Lost (count : Z).

(** A raw read of [n] bytes at offset [o] of the data pages; [None] when the
    range leaves the mapping (undefined behaviour in the code). *)
Definition raw_read (size : Z) (m : Z -> Z) (o n : Z) : option (list Z) :=
  if (0 <=? o) && (0 <=? n) && (o + n <=? size) then Some (rd_range size m o (Z.to_nat n)) else None.

(** The payload slices, perf_buffer.rs:253-277. *)
Definition read_sample (size : Z) (m : Z -> Z) (start : Z) : option pevent :=
  match raw_read size m ((start + 8) mod size) 4 with
  | None => None
  | Some sb =>
      let n := le_dec sb in
      let s0 := (start + 8 + 4) mod size in
      if size <=? s0 + n then
        match raw_read size m s0 (size - s0), raw_read size m 0 (s0 + n - size) with
        | Some h, Some t => Some (Sample h t)
        | _, _ => None
        end
      else
        match raw_read size m s0 n with
        | Some h => Some (Sample h [])
        | None => None
        end
  end.

(** The count of a LOST record, perf_buffer.rs:279-291. *)
Definition read_lost (size : Z) (m : Z -> Z) (start : Z) : option pevent :=
  match raw_read size m ((start + 8 + 8) mod size) 8 with
  | None => None
  | Some cb => Some (Lost (le_dec cb))
  end.

(** One iteration of the loop up to the callback, perf_buffer.rs:229-302:
    the new local tail and the event, if the record is of a known type. *)
Definition perf_iter (size : Z) (m : Z -> Z) (tail : Z) : option (Z * option pevent) :=
  let start := tail mod size in
  match raw_read size m start 8 with
  | None => None
  | Some hdr =>
      let ty := le_dec (slice 0 4 hdr) in
      let sz := le_dec (slice 6 2 hdr) in
      let tail' := u64 (tail + sz) in
      if ty =? T_SAMPLE then
        match read_sample size m start with
        | Some e => Some (tail', Some e)
        | None => None
        end
      else if ty =? T_LOST then
        match read_lost size m start with
        | Some e => Some (tail', Some e)
        | None => None
        end
      else Some (tail', None)
  end.

(** What the callback does: [ControlFlow::Continue], [ControlFlow::Break], or
    unwind. *)
Inductive flow (B C : Type) := Go (c : C) | Break (b : B) | Unwind.
Arguments Go {B C} c.
Arguments Break {B C} b.
Arguments Unwind {B C}.

(** How [try_fold] ends.  [FBad] is an out-of-bounds read, [FFuel] means the
    given number of iterations did not suffice. *)
Inductive fin (B C : Type) := FDone (c : C) | FBreak (b : B) | FUnwind | FBad | FFuel.
Arguments FDone {B C} c.
Arguments FBreak {B C} b.
Arguments FUnwind {B C}.
Arguments FBad {B C}.
Arguments FFuel {B C}.

Section Fold.
Context {B C : Type}.
Variable f : C -> pevent -> flow B C.

(** The [while] loop, perf_buffer.rs:228-311; [mems i] is the memory during
    iteration [i]. *)
Fixpoint fold_loop (fuel : nat) (size : Z) (mems : nat -> Z -> Z) (i : nat) (head tail : Z) (acc : C)
  : Z * fin B C :=
  if tail =? head then (tail, FDone acc)
  else
    match fuel with
    | O => (tail, FFuel)
    | S fuel =>
        match perf_iter size (mems i) tail with
        | None => (tail, FBad)
        | Some (tail', None) => fold_loop fuel size mems (S i) head tail' acc
        | Some (tail', Some e) =>
            match f acc e with
            | Go acc' => fold_loop fuel size mems (S i) head tail' acc'
            | Break b => (tail', FBreak b)
            | Unwind => (tail', FUnwind)
            end
        end
    end.

(** [try_fold]: the outcome and what the guard (lines 216-226) writes to
    [data_tail] when the scope is left by any path. *)
Definition try_fold (fuel : nat) (size : Z) (mems : nat -> Z -> Z) (head tail : Z) (acc : C)
  : option Z * fin B C :=
  let (t, r) := fold_loop fuel size mems 0 head tail acc in
  ((if t =? tail then None else Some t), r).
End Fold.

(** [PerfBuffer::open]'s size check, perf_buffer.rs:111-125: the size of the
    data area, or [None] for a page count that is not a power of two. *)
Definition is_pow2 (n : Z) : bool := (0 <? n) && (n =? 2 ^ Z.log2 n).
Definition open_size (page_size page_count : Z) : option Z :=
  if is_pow2 page_count then Some (page_size * page_count) else None.
