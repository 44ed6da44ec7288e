(** What the kernel writes into a perf buffer and what a reader must make of
    it.  Record layouts: include/uapi/linux/perf_event.h, as cited in
    perf_buffer.rs:280-284 and aya's comments. *)
From Verif Require Import Base RingBufModel RingBufSpec PerfModel.
Local Open Scope Z_scope.

(** A record: a sample with its payload and the kernel's padding, a LOST
    record with its id, count and trailing bytes, or a record of any other
    type. *)
Inductive prec :=
| RSample (misc : Z) (payload pad : list Z)
| RLost (misc id count : Z) (extra : list Z)
| ROther (type misc : Z) (body : list Z).

Definition body (r : prec) : list Z :=
  match r with
  | RSample _ p pad => le_enc 4 (Z.of_nat (length p)) ++ p ++ pad
  | RLost _ id c extra => le_enc 8 id ++ le_enc 8 c ++ extra
  | ROther _ _ b => b
  end.
Definition ptype (r : prec) : Z :=
  match r with RSample _ _ _ => T_SAMPLE | RLost _ _ _ _ => T_LOST | ROther t _ _ => t end.
Definition pmisc (r : prec) : Z :=
  match r with RSample m _ _ => m | RLost m _ _ _ => m | ROther _ m _ => m end.
Definition plen (r : prec) : nat := 8 + length (body r).
(** The bytes of a record in the buffer. *)
Definition penc (r : prec) : list Z :=
  le_enc 4 (ptype r) ++ le_enc 2 (pmisc r) ++ le_enc 2 (Z.of_nat (plen r)) ++ body r.
Definition pencs (rs : list prec) : list Z := concat (map penc rs).

(** Records the kernel can write: padded to 8 bytes, length in a [u16]. *)
Definition prec_ok (r : prec) : bool :=
  (Z.of_nat (plen r) <? 2 ^ 16) && (Z.of_nat (plen r) mod 8 =? 0) &&
  match r with
  | RSample _ _ _ => true
  | RLost _ _ c _ => (0 <=? c) && (c <? 2 ^ 64)
  | ROther t _ _ => (0 <=? t) && (t <? 2 ^ 32) && negb (t =? T_SAMPLE) && negb (t =? T_LOST)
  end.

(** What a record says, and what an event handed to the callback says. *)
Inductive pview := VSample (payload : list Z) | VLost (count : Z).
Definition rec_view (r : prec) : option pview :=
  match r with
  | RSample _ p _ => Some (VSample p)
  | RLost _ _ c _ => Some (VLost c)
  | ROther _ _ _ => None
  end.
Definition ev_view (e : pevent) : pview :=
  match e with Sample h t => VSample (h ++ t) | Lost c => VLost c end.
Definition views (rs : list prec) : list pview :=
  flat_map (fun r => match rec_view r with Some v => [v] | None => [] end) rs.

(** The data pages hold the records [rs] starting at position [pos]. *)
Definition holds (size : Z) (m : Z -> Z) (pos : Z) (rs : list prec) : Prop :=
  rd_range size m pos (length (pencs rs)) = pencs rs.

(** A correct fold over [rs]: each record in order, unknown ones skipped,
    stopping where the callback says so.  [folds rs acc used rest out]. *)
Section Folds.
Context {B C : Type}.
Variable f : C -> pevent -> flow B C.
Inductive folds : list prec -> C -> list prec -> list prec -> fin B C -> Prop :=
| fo_end acc : folds [] acc [] [] (FDone acc)
| fo_skip r rs acc used rest o :
    rec_view r = None -> folds rs acc used rest o -> folds (r :: rs) acc (r :: used) rest o
| fo_go r rs e acc acc' used rest o :
    rec_view r = Some (ev_view e) -> f acc e = Go acc' ->
    folds rs acc' used rest o -> folds (r :: rs) acc (r :: used) rest o
| fo_break r rs e acc b :
    rec_view r = Some (ev_view e) -> f acc e = Break b -> folds (r :: rs) acc [r] rs (FBreak b)
| fo_unwind r rs e acc :
    rec_view r = Some (ev_view e) -> f acc e = Unwind -> folds (r :: rs) acc [r] rs FUnwind.
End Folds.

(** * A buffer in use: the kernel appends records at any time, the reader
    folds with callbacks of its choice. *)
Record psys := {
  p_size : Z; p_mem : Z -> Z;
  p_head : Z; p_tail : Z;              (* data_head, data_tail *)
  p_log : list prec;                   (* everything the kernel has written *)
  p_out : list pevent;                 (* everything callbacks have been given *)
  p_bad : bool                         (* an out-of-bounds read or a hang happened *)
}.

(** The kernel writes a record if it fits without touching unread bytes. *)
Definition kwrite (s : psys) (r : prec) : psys :=
  if prec_ok r && (u64 (p_head s - p_tail s) + Z.of_nat (plen r) <=? p_size s) then
    {| p_size := p_size s;
       p_mem := wr_range (p_size s) (p_mem s) (p_head s) (penc r);
       p_head := u64 (p_head s + Z.of_nat (plen r)); p_tail := p_tail s;
       p_log := p_log s ++ [r]; p_out := p_out s; p_bad := p_bad s |}
  else s.
Definition kwrites (s : psys) (rs : list prec) : psys := fold_left kwrite rs s.

(** A callback that remembers what it was given and decides from that
    whether to go on. *)
Definition recording (d : list pevent -> bool) (acc : list pevent) (e : pevent)
  : flow (list pevent) (list pevent) :=
  if d (acc ++ [e]) then Go (acc ++ [e]) else Break (acc ++ [e]).

Inductive pop :=
| PWrite (r : prec)
(** A fold with callback [d]; before iteration [i] the kernel writes the
    [i]-th batch of [w], later batches after the fold. *)
| PFold (d : list pevent -> bool) (w : list (list prec)).

Definition pstep (s : psys) (o : pop) : psys :=
  match o with
  | PWrite r => kwrite s r
  | PFold d w =>
      let mems := fun i => p_mem (kwrites s (concat (firstn (S i) w))) in
      let r := try_fold (recording d) (Z.to_nat (p_size s)) (p_size s) mems (p_head s) (p_tail s) [] in
      let s' := kwrites s (concat w) in
      {| p_size := p_size s'; p_mem := p_mem s'; p_head := p_head s';
         p_tail := match fst r with Some t => t | None => p_tail s' end;
         p_log := p_log s';
         p_out := p_out s' ++ match snd r with FDone l => l | FBreak l => l | _ => [] end;
         p_bad := p_bad s' || match snd r with FBad => true | FFuel => true | _ => false end |}
  end.
Definition prun (s : psys) (ops : list pop) : psys := fold_left pstep ops s.

(** A fresh buffer with both positions anywhere. *)
Definition pinit (size : Z) (m : Z -> Z) (start : Z) : psys :=
  {| p_size := size; p_mem := m; p_head := start; p_tail := start; p_log := []; p_out := []; p_bad := false |}.

(** Power-of-two data areas of whole pages; positions of 8-byte aligned records. *)
Definition perf_size_ok (size : Z) : Prop := exists e, 3 <= e <= 40 /\ size = 2 ^ e.
