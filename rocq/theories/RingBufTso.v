(** Wake-up protocol of the ring buffer reader under store-buffer memory.

    /repo/aya/src/maps/ring_buf.rs:239-254 ([consume]), 326-402
    ([ProducerData::next], [data_available]), against the kernel's
    [bpf_ringbuf_commit] (environment).

    Simplifications: positions count records instead of bytes (the byte layout
    is the subject of [RingBufModel.v]); memory is total store order: every
    store of the reader goes to a FIFO store buffer and reaches memory later,
    a SeqCst fence waits until the buffer is empty, loads read memory.  The
    kernel producer publishes reservations in order; its stores may also be
    delayed until its atomic [xchg] of the record header, which is a full
    barrier; after the [xchg] it reads the consumer position and notifies iff
    it equals the position of the record just committed.  Producers run
    concurrently on any number of CPUs. *)
From Verif Require Import Base.

Inductive hstat := HBusy | HData | HDiscard.

(** Program counter of the reader inside [next()]. *)
Inductive pc :=
| PCheck      (* top of the loop: data_available, ring_buf.rs:381 *)
| PFence1     (* fence, ring_buf.rs:385 *)
| PLoad       (* load_producer_pos, ring_buf.rs:388 *)
| PRead       (* read_item, ring_buf.rs:347 *)
| PFence2     (* fence, ring_buf.rs:354 *)
| PHold       (* next() returned an item, not dropped yet *)
| PAsleep.    (* next() returned None; the caller waits for readiness *)

Record tso := {
  nres : nat;            (* reservations made by producers, in lock order *)
  vis : nat;             (* producer_pos as visible in memory *)
  st : list hstat;       (* record headers *)
  cmem : nat;            (* consumer_pos in memory *)
  cbuf : list nat;       (* reader's store buffer, oldest first *)
  inflight : list nat;   (* committed records whose producer has not yet read consumer_pos *)
  ntf : bool;            (* a notification is pending *)
  tpos : nat; nw : bool; cache : nat; tpc : pc;
  got : list nat         (* records returned by next(), latest first *)
}.

Inductive label :=
| LReserve | LPublish | LXchg (i : nat) (discard : bool) | LCheckNotify (i : nat)   (* producers *)
| LFlush                                                                           (* reader's store buffer drains *)
| LReader                                                                          (* next instruction of the reader *)
| LWake | LRetry.                                                                  (* caller *)

Fixpoint remove1 (i : nat) (l : list nat) : list nat :=
  match l with [] => [] | x :: r => if Nat.eqb i x then r else x :: remove1 i r end.

Definition with_reader (s : tso) (b : list nat) (p : nat) (w : bool) (c : nat) (q : pc) (g : list nat) : tso :=
  {| nres := nres s; vis := vis s; st := st s; cmem := cmem s; cbuf := b; inflight := inflight s;
     ntf := ntf s; tpos := p; nw := w; cache := c; tpc := q; got := g |}.

(** [fenced = true] is the code; [false] drops the two fences. *)
Definition reader_step (fenced : bool) (s : tso) : option tso :=
  match tpc s with
  | PCheck =>
      if Nat.eqb (tpos s) (cache s)
      then Some (with_reader s (cbuf s) (tpos s) (nw s) (cache s) (if nw s then PFence1 else PLoad) (got s))
      else Some (with_reader s (cbuf s) (tpos s) (nw s) (cache s) PRead (got s))
  | PFence1 =>
      match cbuf s, fenced with
      | _ :: _, true => None
      | _, _ => Some (with_reader s (cbuf s) (tpos s) false (cache s) PLoad (got s))
      end
  | PLoad =>
      Some (with_reader s (cbuf s) (tpos s) (nw s) (vis s)
              (if Nat.eqb (tpos s) (vis s) then PAsleep else PRead) (got s))
  | PRead =>
      match nth_error (st s) (tpos s) with
      | Some HBusy =>
          Some (with_reader s (cbuf s) (tpos s) (nw s) (cache s) (if nw s then PFence2 else PAsleep) (got s))
      | Some HDiscard =>    (* consume, 239-254 *)
          Some (with_reader s (cbuf s ++ [S (tpos s)]) (S (tpos s)) true (cache s) PCheck (got s))
      | Some HData => Some (with_reader s (cbuf s) (tpos s) (nw s) (cache s) PHold (tpos s :: got s))
      | None => None
      end
  | PFence2 =>
      match cbuf s, fenced with
      | _ :: _, true => None
      | _, _ => Some (with_reader s (cbuf s) (tpos s) false (cache s) PCheck (got s))
      end
  | PHold =>                 (* drop the item: consume; then next() again *)
      Some (with_reader s (cbuf s ++ [S (tpos s)]) (S (tpos s)) true (cache s) PCheck (got s))
  | PAsleep => None
  end.

Definition tstep (fenced : bool) (s : tso) (l : label) : option tso :=
  match l with
  | LReserve =>
      Some {| nres := S (nres s); vis := vis s; st := st s ++ [HBusy]; cmem := cmem s; cbuf := cbuf s;
              inflight := inflight s; ntf := ntf s; tpos := tpos s; nw := nw s; cache := cache s; tpc := tpc s; got := got s |}
  | LPublish =>
      if Nat.ltb (vis s) (nres s) then
        Some {| nres := nres s; vis := S (vis s); st := st s; cmem := cmem s; cbuf := cbuf s;
                inflight := inflight s; ntf := ntf s; tpos := tpos s; nw := nw s; cache := cache s; tpc := tpc s; got := got s |}
      else None
  | LXchg i d =>
      match nth_error (st s) i with
      | Some HBusy =>
          Some {| nres := nres s; vis := Nat.max (vis s) (S i);
                  st := upd i (if d then HDiscard else HData) (st s); cmem := cmem s; cbuf := cbuf s;
                  inflight := i :: inflight s; ntf := ntf s; tpos := tpos s; nw := nw s; cache := cache s; tpc := tpc s; got := got s |}
      | _ => None
      end
  | LCheckNotify i =>
      if existsb (Nat.eqb i) (inflight s) then
        Some {| nres := nres s; vis := vis s; st := st s; cmem := cmem s; cbuf := cbuf s;
                inflight := remove1 i (inflight s); ntf := if Nat.eqb (cmem s) i then true else ntf s;
                tpos := tpos s; nw := nw s; cache := cache s; tpc := tpc s; got := got s |}
      else None
  | LFlush =>
      match cbuf s with
      | [] => None
      | p :: r =>
          Some {| nres := nres s; vis := vis s; st := st s; cmem := p; cbuf := r;
                  inflight := inflight s; ntf := ntf s; tpos := tpos s; nw := nw s; cache := cache s; tpc := tpc s; got := got s |}
      end
  | LReader => reader_step fenced s
  | LWake =>
      match tpc s with
      | PAsleep => if ntf s then
          Some {| nres := nres s; vis := vis s; st := st s; cmem := cmem s; cbuf := cbuf s;
                  inflight := inflight s; ntf := false; tpos := tpos s; nw := nw s; cache := cache s; tpc := PCheck; got := got s |}
          else None
      | _ => None
      end
  | LRetry =>
      match tpc s with
      | PAsleep => Some (with_reader s (cbuf s) (tpos s) (nw s) (cache s) PCheck (got s))
      | _ => None
      end
  end.

(** [RingBuf::new] on a map with [n] records already consumed: both positions
    equal, nothing pending. *)
Definition tinit (n : nat) : tso :=
  {| nres := n; vis := n; st := repeat HData n; cmem := n; cbuf := []; inflight := []; ntf := false;
     tpos := n; nw := false; cache := n; tpc := PCheck; got := [] |}.

Fixpoint truns (fenced : bool) (s : tso) (ls : list label) : option tso :=
  match ls with
  | [] => Some s
  | l :: r => match tstep fenced s l with Some s' => truns fenced s' r | None => None end
  end.
