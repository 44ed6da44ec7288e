(** Ring buffers between programs and user space: what the helpers do to the
    shared memory, and what a program has sent. *)
From Verif Require Import Base RingBufModel RingBufSpec EmitModel.
Local Open Scope Z_scope.

(** * The kernel *)

(** __bpf_ringbuf_reserve, on positions and memory alone: an address in the data
    pages, which are mapped twice in a row; [pg]: the second word of the header. *)
Definition krec (len : Z) : Z := 8 * ((len + 15) / 8).
Definition kreserve (pg : Z -> Z) (size len : Z) (m : shm) : Z * shm :=
  if 2 ^ 30 - 1 <? len then (0, m)
  else if size <? krec len then (0, m)
  else if size - 1 <? (ppos m + krec len - cpos m) mod 2 ^ 64 then (0, m)
  else (ppos m mod size + 8,
        {| mem := wr_range size (mem m) (ppos m) (le_enc 4 (len + 2 ^ 31) ++ le_enc 4 (pg (ppos m)));
           cpos := cpos m; ppos := (ppos m + krec len) mod 2 ^ 64 |}).
(** bpf_ringbuf_commit: finds the header in front of the record, removes the
    busy bit, and sets the discard bit. *)
Definition kcommit (size ptr : Z) (discard : bool) (m : shm) : shm :=
  let len := le_dec (rd_range size (mem m) (ptr - 8) 4) in
  let len := Z.lxor len (2 ^ 31) in
  let len := if discard then Z.lor len (2 ^ 30) else len in
  {| mem := wr_range size (mem m) (ptr - 8) (le_enc 4 len); cpos := cpos m; ppos := ppos m |}.
(** A store. *)
Definition kstore (size ptr : Z) (data : list Z) (m : shm) : shm :=
  {| mem := wr_range size (mem m) ptr data; cpos := cpos m; ppos := ppos m |}.

Definition with_shm (s : sys) (m : shm) : sys :=
  {| sz := sz s; shared := m; reader := reader s; holding := holding s; log := log s; delivered := delivered s |}.

(** bpf_ringbuf_reserve: flags must be 0; bpf_ringbuf_output: only those for
    wake-ups. *)
Definition kernel_ring (pg : Z -> Z) : ring sys :=
  {| g_reserve := fun len flags s =>
       if flags =? 0 then let (p, m) := kreserve pg (sz s) len (shared s) in (p, with_shm s m) else (0, s);
     g_submit := fun ptr _ s => with_shm s (kcommit (sz s) ptr false (shared s));
     g_discard := fun ptr _ s => with_shm s (kcommit (sz s) ptr true (shared s));
     g_output := fun data flags s =>
       if (0 <=? flags) && (flags <? 4) then
         let (p, m) := kreserve pg (sz s) (Z.of_nat (length data)) (shared s) in
         if p =? 0 then (-11, s) else (0, with_shm s (kcommit (sz s) p false (kstore (sz s) p data m)))
       else (-22, s) |}.

(** * Programs and user space *)

(** The state is that of RingBufModel without its log. *)
Definition emit (pg : Z -> Z) (c : ecall) (s : sys) : eresult * sys :=
  let H := kernel_ring pg in
  match c with
  | EReserveBytes size flags => reserve_bytes H size flags s
  | EReserve size align flags => reserve_typed H size align flags s
  | EWrite ptr off b => (EUnit, with_shm s (kstore (sz s) (ptr + Z.of_nat off) [b] (shared s)))
  | ESubmit ptr flags => submit H ptr flags s
  | EDiscard ptr flags => discard H ptr flags s
  | EOutput data align flags => output H data align flags s
  end.

(** A program's call, or user space calling [next], dropping an item, opening
    the map anew. *)
Inductive eop := EProg (c : ecall) | ENext | EDrop | EReopen.

(** * What has been sent *)

(** An entry in order of reservation; bytes not written are unknown. *)
Record sent := { s_ptr : Z; s_status : status; s_bytes : list (option Z) }.
Definition open_at (ptr : Z) (e : sent) : bool :=
  (s_ptr e =? ptr) && match s_status e with Reserved => true | _ => false end.
Fixpoint change (ptr : Z) (f : sent -> sent) (l : list sent) : list sent :=
  match l with [] => [] | e :: l => if open_at ptr e then f e :: l else e :: change ptr f l end.
Definition written (off : nat) (b : Z) (e : sent) : sent :=
  {| s_ptr := s_ptr e; s_status := s_status e; s_bytes := upd off (Some b) (s_bytes e) |}.
Definition finished (st : status) (e : sent) : sent := {| s_ptr := s_ptr e; s_status := st; s_bytes := s_bytes e |}.
Definition record (c : ecall) (r : eresult) (l : list sent) : list sent :=
  match c, r with
  | (EReserveBytes size _ | EReserve size _ _), EEntry ptr =>
      l ++ [{| s_ptr := ptr; s_status := Reserved; s_bytes := repeat None (Z.to_nat size) |}]
  | EWrite ptr off b, _ => change ptr (written off b) l
  | ESubmit ptr _, _ => change ptr (finished Committed) l
  | EDiscard ptr _, _ => change ptr (finished Discarded) l
  | EOutput data _ _, EOk => l ++ [{| s_ptr := 0; s_status := Committed; s_bytes := map Some data |}]
  | _, _ => l
  end.

(** What types and the verifier ensure: entries are used while they are open,
    stores are inside. *)
Definition ecall_ok (l : list sent) (c : ecall) : Prop :=
  match c with
  | EReserveBytes size _ | EReserve size _ _ => 0 <= size < 2 ^ 64
  | EWrite ptr off b => exists e, In e l /\ open_at ptr e = true /\ (off < length (s_bytes e))%nat
  | ESubmit ptr _ | EDiscard ptr _ => exists e, In e l /\ open_at ptr e = true
  | EOutput data align _ => True
  end.

Definition eop_ok (l : list sent) (o : eop) : Prop := match o with EProg c => ecall_ok l c | _ => True end.
Definition estep (pg : Z -> Z) (o : eop) (x : sys * list sent) : sys * list sent :=
  let (s, l) := x in
  match o with
  | EProg c => let (r, s) := emit pg c s in (s, record c r l)
  | ENext => (fst (step s ONextIter), l)
  | EDrop => (fst (step s ODrop), l)
  | EReopen => (fst (step s OReopen), l)
  end.
Fixpoint eruns (pg : Z -> Z) (ops : list eop) (x : sys * list sent) : sys * list sent :=
  match ops with [] => x | o :: ops => eruns pg ops (estep pg o x) end.
Fixpoint eops_ok (pg : Z -> Z) (ops : list eop) (x : sys * list sent) : Prop :=
  match ops with [] => True | o :: ops => eop_ok (snd x) o /\ eops_ok pg ops (estep pg o x) end.

(** The contents user space should get: those of submitted entries in front of
    the first one still open. *)
Fixpoint due (l : list sent) : list (list (option Z)) :=
  match l with
  | [] => []
  | e :: l => match s_status e with Reserved => [] | Discarded => due l | Committed => s_bytes e :: due l end
  end.
(** Known bytes are the same. *)
Definition agrees (x : list (option Z)) (d : list Z) : Prop := Forall2 (fun o b => o = None \/ o = Some b) x d.
(** Alignments entries have. *)
Definition aligned (align : Z) : Prop := align = 1 \/ align = 2 \/ align = 4 \/ align = 8.
