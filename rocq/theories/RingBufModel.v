(** Model of the user-space ring buffer reader,
    /repo/aya/src/maps/ring_buf.rs, against a byte-level model of the shared
    memory and of the kernel producer.

    Simplifications: [usize] is 64 bits and wraps; the memory is read
    sequentially consistently at the granularity of one iteration of the
    [while] loop in [ProducerData::next] (weak memory is the subject of
    [RingBufTso.v]); the mapping of the data pages twice in a row is modelled
    by reading at [offset mod size] for offsets below [2 * size]. *)
From Verif Require Import Base.
Local Open Scope Z_scope.

(** BPF_RINGBUF_HDR_SZ, BPF_RINGBUF_BUSY_BIT, BPF_RINGBUF_DISCARD_BIT
    (kernel uapi constants used at ring_buf.rs:246,424,428,431). *)
Definition HDR_SZ : Z := 8.
Definition BUSY_BIT : Z := 2 ^ 31.
Definition DISCARD_BIT : Z := 2 ^ 30.

(** [(HDR_SZ + len).next_multiple_of(8)], ring_buf.rs:246. *)
Definition rec_len (len : Z) : Z := (HDR_SZ + len + 7) / 8 * 8.

(** Shared memory: [mem o] is the byte at offset [o] of the data pages. *)
Record shm := { mem : Z -> Z; cpos : Z; ppos : Z }.

(** [ConsumerPos] (ring_buf.rs:222) and [ProducerData::pos_cache] (265). *)
Record cons := { pos : Z; needs_wakeup : bool; pos_cache : Z }.

(** [RingBuf::new]: consumer position first, then producer position
    (ring_buf.rs:98-111, 229-237, 312). *)
Definition new_cons (m : shm) : cons :=
  {| pos := cpos m; needs_wakeup := false; pos_cache := ppos m |}.

Definition rd (size : Z) (m : Z -> Z) (o : Z) : Z := m (o mod size).
Definition rd_range (size : Z) (m : Z -> Z) (o : Z) (n : nat) : list Z :=
  map (fun i => rd size m (o + Z.of_nat i)) (seq 0 n).

(** The closure [must_get_data], ring_buf.rs:411-415; [None] is the panic. *)
Definition must_get (size : Z) (m : Z -> Z) (o len : Z) : option (list Z) :=
  if o + len <=? 2 * size then Some (rd_range size m o (Z.to_nat len)) else None.

(** [Item], ring_buf.rs:363-367, plus the panic outcome. *)
Inductive item := Busy | Discard (len : Z) | Data (d : list Z) | ItemPanic.

(** [read_item], ring_buf.rs:404-436, with [mask = size - 1] (317). *)
Definition read_item (size : Z) (m : Z -> Z) (p : Z) : item :=
  let mask := size - 1 in
  let offset := Z.land p mask in
  match must_get size m offset 4 with
  | None => ItemPanic
  | Some hb =>
      let header := le_dec hb in
      if negb (Z.land header BUSY_BIT =? 0) then Busy
      else
        let len := Z.land header mask in
        if negb (Z.land header DISCARD_BIT =? 0) then Discard len
        else match must_get size m (offset + HDR_SZ) len with
             | None => ItemPanic
             | Some d => Data d
             end
  end.

(** [ConsumerPos::consume], ring_buf.rs:239-254. *)
Definition consume (c : cons) (m : shm) (len : Z) : cons * shm :=
  let p := u64 (pos c + rec_len len) in
  ({| pos := p; needs_wakeup := true; pos_cache := pos_cache c |},
   {| mem := mem m; cpos := p; ppos := ppos m |}).

(** [data_available], ring_buf.rs:369-402 (the fence is a no-op here). *)
Definition data_available (c : cons) (m : shm) : cons * bool :=
  let c1 := if pos c =? pos_cache c
            then {| pos := pos c; needs_wakeup := false; pos_cache := ppos m |}
            else c in
  (c1, negb (pos c1 =? pos_cache c1)).

Inductive outcome := Continue | RNone | RItem (d : list Z) | RPanic.

(** One iteration of the loop in [ProducerData::next], ring_buf.rs:346-361. *)
Definition next_iter (size : Z) (c : cons) (m : shm) : cons * shm * outcome :=
  let (c1, avail) := data_available c m in
  if avail then
    match read_item size (mem m) (pos c1) with
    | Busy =>
        if needs_wakeup c1
        then ({| pos := pos c1; needs_wakeup := false; pos_cache := pos_cache c1 |}, m, Continue)
        else (c1, m, RNone)
    | Discard len => let (c2, m2) := consume c1 m len in (c2, m2, Continue)
    | Data d => (c1, m, RItem d)
    | ItemPanic => (c1, m, RPanic)
    end
  else (c1, m, RNone).

(** [next] on a quiescent ring: iterate until a result; [None] = out of fuel. *)
Fixpoint next (size : Z) (fuel : nat) (c : cons) (m : shm) : option (cons * shm * outcome) :=
  match fuel with
  | O => None
  | S f => match next_iter size c m with
           | (c', m', Continue) => next size f c' m'
           | r => Some r
           end
  end.

(** ** The kernel producer (environment; linux kernel/bpf/ringbuf.c, not part
    of /repo).  [__bpf_ringbuf_reserve] refuses when the new producer position
    is more than [size - 1] bytes ahead of the published consumer position;
    otherwise it writes the header with the busy bit and advances the producer
    position.  [bpf_ringbuf_commit] replaces the header. *)
Inductive status := Reserved | Committed | Discarded.

(** The log of reservations: what the eBPF side did, in reservation order.
    [r_at] is the producer position at reservation time, [r_content] the bytes
    of the reserved area. *)
Record rentry := { r_at : Z; r_len : Z; r_status : status; r_content : list Z }.

Definition header_of (e : rentry) : Z :=
  match r_status e with
  | Reserved => r_len e + BUSY_BIT
  | Committed => r_len e
  | Discarded => r_len e + DISCARD_BIT
  end.

(** Write bytes [l] at (unwrapped) offset [o]. *)
Fixpoint wr_range (size : Z) (m : Z -> Z) (o : Z) (l : list Z) : Z -> Z :=
  match l with
  | [] => m
  | b :: r => wr_range size (fun x => if x =? o mod size then b else m x) (o + 1) r
  end.

Record sys := {
  sz : Z;
  shared : shm;
  reader : cons;
  holding : option (list Z);     (* the outstanding RingBufItem, if any *)
  log : list rentry;             (* every reservation ever made *)
  delivered : list (list Z)      (* every item ever returned by next() *)
}.

Inductive op :=
| OReserve (len : Z) (pgoff : list Z)       (* eBPF: reserve(len); [pgoff] = the 4 bytes after the length word *)
| OWrite (i : nat) (off : nat) (b : Z)      (* eBPF: store a byte into reservation [i] *)
| OCommit (i : nat) (discard : bool)        (* eBPF: submit / discard reservation [i] *)
| ONextIter                                 (* user: one loop iteration of next() *)
| ODrop                                     (* user: drop the outstanding item *)
| OReopen.                                  (* user: open the same map again *)

Definition set_shared (s : sys) (m : shm) : sys :=
  {| sz := sz s; shared := m; reader := reader s; holding := holding s; log := log s; delivered := delivered s |}.

Definition reserve (s : sys) (len : Z) (pgoff : list Z) : sys :=
  let m := shared s in
  let new := u64 (ppos m + rec_len len) in
  if (0 <=? len) && (len <? 2 ^ 30) && (rec_len len <=? sz s) && (u64 (new - cpos m) <=? sz s - 1)
  then
    let e := {| r_at := ppos m; r_len := len; r_status := Reserved;
                r_content := rd_range (sz s) (mem m) (ppos m + HDR_SZ) (Z.to_nat len) |} in
    {| sz := sz s;
       shared := {| mem := wr_range (sz s) (mem m) (ppos m) (le_enc 4 (header_of e) ++ firstn 4 pgoff);
                    cpos := cpos m; ppos := new |};
       reader := reader s; holding := holding s;
       log := log s ++ [e]; delivered := delivered s |}
  else s.

Definition write_byte (s : sys) (i off : nat) (b : Z) : sys :=
  match nth_error (log s) i with
  | Some e =>
      match r_status e with
      | Reserved =>
          if (off <? length (r_content e))%nat then
            let m := shared s in
            {| sz := sz s;
               shared := {| mem := wr_range (sz s) (mem m) (r_at e + HDR_SZ + Z.of_nat off) [b];
                            cpos := cpos m; ppos := ppos m |};
               reader := reader s; holding := holding s;
               log := upd i {| r_at := r_at e; r_len := r_len e; r_status := Reserved;
                               r_content := upd off b (r_content e) |} (log s);
               delivered := delivered s |}
          else s
      | _ => s
      end
  | None => s
  end.

Definition commit (s : sys) (i : nat) (discard : bool) : sys :=
  match nth_error (log s) i with
  | Some e =>
      match r_status e with
      | Reserved =>
          let e' := {| r_at := r_at e; r_len := r_len e;
                       r_status := if discard then Discarded else Committed;
                       r_content := r_content e |} in
          let m := shared s in
          {| sz := sz s;
             shared := {| mem := wr_range (sz s) (mem m) (r_at e) (le_enc 4 (header_of e'));
                          cpos := cpos m; ppos := ppos m |};
             reader := reader s; holding := holding s;
             log := upd i e' (log s); delivered := delivered s |}
      | _ => s
      end
  | None => s
  end.

(** [next()] borrows the reader mutably for as long as the item lives, so it
    cannot be called while an item is outstanding. *)
Definition step (s : sys) (o : op) : sys * option outcome :=
  match o with
  | OReserve len pg => (reserve s len pg, None)
  | OWrite i off b => (write_byte s i off b, None)
  | OCommit i d => (commit s i d, None)
  | ONextIter =>
      match holding s with
      | Some _ => (s, None)
      | None =>
          match next_iter (sz s) (reader s) (shared s) with
          | (c', m', r) =>
              ({| sz := sz s; shared := m'; reader := c';
                  holding := match r with RItem d => Some d | _ => None end;
                  log := log s;
                  delivered := match r with RItem d => delivered s ++ [d] | _ => delivered s end |},
               Some r)
          end
      end
  | ODrop =>
      match holding s with
      | None => (s, None)
      | Some d =>
          match consume (reader s) (shared s) (Z.of_nat (length d)) with
          | (c', m') => ({| sz := sz s; shared := m'; reader := c'; holding := None;
                            log := log s; delivered := delivered s |}, None)
          end
      end
  | OReopen =>
      match holding s with
      | Some _ => (s, None)
      | None => ({| sz := sz s; shared := shared s; reader := new_cons (shared s); holding := None;
                    log := log s; delivered := delivered s |}, None)
      end
  end.

Fixpoint run (s : sys) (ops : list op) : sys :=
  match ops with
  | [] => s
  | o :: r => run (fst (step s o)) r
  end.

(** A freshly created map whose positions start at any common value [p]. *)
Definition init (size p : Z) (m : Z -> Z) : sys :=
  let sh := {| mem := m; cpos := u64 p; ppos := u64 p |} in
  {| sz := size; shared := sh; reader := new_cons sh; holding := None; log := []; delivered := [] |}.
