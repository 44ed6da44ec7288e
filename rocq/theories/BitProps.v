(** C115: the bit fields of the kernel structures are read and written where
    the C compiler of the kernel puts them. *)
From Coq Require Import String.
From Verif Require Import Base Text BitModel BitSpec BitProofs BitProofs2.
Open Scope Z_scope.

(** Reading gives the value of the field, on both byte orders and with or
    without the debug assertions. *)
Theorem C115_get : forall dbg be s o w,
  bytes_ok s = true -> inside (length s) o w -> (0 < w)%nat ->
  get dbg be s o w = Some (value be s o w).
Proof. exact get_value. Qed.
Print Assumptions C115_get.

(** Writing replaces the field, cutting the value to its width, and changes no
    other bit. *)
Theorem C115_set : forall dbg be s o w v,
  bytes_ok s = true -> inside (length s) o w -> (0 < w)%nat ->
  exists s', set dbg be s o w v = Some s' /\ replaced be s o w v s'.
Proof. exact set_replaced. Qed.
Print Assumptions C115_set.

(** There is only one such unit. *)
Theorem C115_one : forall be s o w v s1 s2,
  replaced be s o w v s1 -> replaced be s o w v s2 -> s1 = s2.
Proof. exact replaced_one. Qed.
Print Assumptions C115_one.

(** In it the field has the value and every field apart from it is as before. *)
Theorem C115_value : forall be s o w v s',
  bytes_ok s = true -> inside (length s) o w -> replaced be s o w v s' ->
  value be s' o w = v mod 2 ^ Z.of_nat w.
Proof. exact replaced_value. Qed.
Print Assumptions C115_value.
Theorem C115_other : forall be s o w v s' o' w',
  bytes_ok s = true -> inside (length s) o w -> inside (length s) o' w' ->
  apart o w o' w' -> replaced be s o w v s' ->
  value be s' o' w' = value be s o' w'.
Proof. exact replaced_other. Qed.
Print Assumptions C115_other.

(** A field that does not fit the unit panics, instead of touching other
    memory. *)
Theorem C115_get_outside : forall dbg be s o w,
  (8 * length s < o + w)%nat -> (0 < w)%nat -> get dbg be s o w = None.
Proof. exact get_outside. Qed.
Print Assumptions C115_get_outside.
Theorem C115_set_outside : forall dbg be s o w v,
  (8 * length s < o + w)%nat -> (0 < w)%nat -> set dbg be s o w v = None.
Proof. exact set_outside. Qed.
Print Assumptions C115_set_outside.

(** Through a raw pointer the result is the same, and no byte outside the unit
    changes. *)
Theorem C115_raw_get : forall be m p s o w,
  holds m p s -> inside (length s) o w -> (0 < w)%nat ->
  forall dbg, get dbg be s o w = Some (raw_get be m p o w).
Proof. exact raw_get_same. Qed.
Print Assumptions C115_raw_get.
Theorem C115_raw_set : forall be m p s o w v,
  holds m p s -> inside (length s) o w -> (0 < w)%nat ->
  forall dbg s', set dbg be s o w v = Some s' ->
  holds (raw_set be m p o w v) p s' /\
  forall a, ~ p <= a < p + Z.of_nat (length s) -> raw_set be m p o w v a = m a.
Proof. exact raw_set_same. Qed.
Print Assumptions C115_raw_set.

(** The fields of the four units are the kernel's, in its order and with its
    widths, and the declarations fill the units. *)
Theorem C115_tables :
  map (fun u => (fst u, map (fun f => (f_name f, (f_off f, f_width f))) (snd u))) units
  = map (fun d => (fst d, laid_out 0 (snd d))) decls /\
  Forall (fun d => fold_right (fun nw a => snd nw + a)%nat 0%nat (snd d)
                   = (8 * fst d)%nat) decls.
Proof. exact units_decls. Qed.
Print Assumptions C115_tables.

(** Every getter gives the value of its field; the Rust type loses nothing. *)
Theorem C115_read : forall dbg be size fs s f,
  In (size, fs) units -> In f fs -> length s = size -> bytes_ok s = true ->
  read_field dbg be s f = Some (value be s (f_off f) (f_width f)).
Proof. exact unit_read. Qed.
Print Assumptions C115_read.

(** Every setter replaces its field; its getter then gives the value cut to
    the width, and the other getters give what they gave. *)
Theorem C115_write : forall dbg be size fs s f v,
  In (size, fs) units -> In f fs -> length s = size -> bytes_ok s = true ->
  exists s', write_field dbg be s f v = Some s' /\
    replaced be s (f_off f) (f_width f) v s' /\
    read_field dbg be s' f = Some (v mod 2 ^ Z.of_nat (f_width f)) /\
    forall g, In g fs -> f_name g <> f_name f ->
      read_field dbg be s' g = read_field dbg be s g.
Proof. exact unit_write. Qed.
Print Assumptions C115_write.

(** A unit made by [new_bitfield_1] holds exactly the given values. *)
Theorem C115_new : forall dbg be size fs vs, In (size, fs) units ->
  exists s, new_unit dbg be size fs vs = Some s /\ length s = size /\
    bytes_ok s = true /\
    number be s
    = total be size (map (fun fv => (f_off (fst fv), f_width (fst fv), snd fv))
                         (combine fs vs)) /\
    forall f v, In (f, v) (combine fs vs) ->
      read_field dbg be s f = Some (v mod 2 ^ Z.of_nat (f_width f)).
Proof.
  exact (fun dbg be size fs vs U =>
    new_unit_total dbg be size fs vs (proj1 (units_fine size fs U))
                   (proj2 (units_fine size fs U))).
Qed.
Print Assumptions C115_new.

(** The register byte of an instruction: the destination is the low half on a
    little-endian target and the high half on a big-endian one. *)
Theorem C115_insn : forall dbg be d r,
  new_unit dbg be insn_size insn_fields [d; r]
  = Some [if be then 16 * (d mod 16) + r mod 16 else d mod 16 + 16 * (r mod 16)].
Proof. exact insn_byte. Qed.
Print Assumptions C115_insn.

(** Examples.  [inherit], [freq] and [precise_ip = 2] of a [perf_event_attr]. *)
Example C115_ex_inherit :
  set true false (repeat 0 8) 1 1 1 = Some [2; 0; 0; 0; 0; 0; 0; 0].
Proof. vm_compute. reflexivity. Qed.
Example C115_ex_freq :
  set true false [2; 0; 0; 0; 0; 0; 0; 0] 10 1 1 = Some [2; 4; 0; 0; 0; 0; 0; 0].
Proof. vm_compute. reflexivity. Qed.
Example C115_ex_precise :
  set true false (repeat 0 8) 15 2 2 = Some [0; 0; 1; 0; 0; 0; 0; 0]
  /\ set true true (repeat 0 8) 15 2 2 = Some [0; 1; 0; 0; 0; 0; 0; 0]
  /\ get true true [0; 1; 0; 0; 0; 0; 0; 0] 15 2 = Some 2.
Proof. vm_compute. repeat split. Qed.
Example C115_ex_cut : set false false [0] 4 4 31 = Some [240].
Proof. vm_compute. reflexivity. Qed.
Example C115_ex_inside : inside 8 15 2 /\ apart 15 2 17 1.
Proof. unfold inside, apart. lia. Qed.
Example C115_ex_outside : get false false [255] 6 3 = None.
Proof. vm_compute. reflexivity. Qed.
Example C115_ex_raw :
  raw_get false (fun a => if a =? 7 then 165 else 0) 7 4 4 = 10
  /\ raw_set true (fun _ => 0) 7 0 4 3 7 = 48.
Proof. vm_compute. split; reflexivity. Qed.
