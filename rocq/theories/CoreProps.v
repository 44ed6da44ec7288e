(** Property theorems C20 to C23 and C56 to C59: CO-RE relocations. *)
From Coq Require Import String.
From Verif Require Import Base Text Insn LinkModel BtfTypes BtfModel BtfExt CoreModel CoreSpec
  CoreProofs CoreProofs2 CoreProofs3 CoreProofs4 CoreProofs5.
Local Open Scope Z_scope.

(** Small BTFs for the examples: names are looked up in the string table. *)
Definition mk (names : list (list Z)) (ts : list btype) : btf :=
  fold_left (fun b t => fst (add_type b t)) ts (fold_left (fun b n => fst (add_string b n)) names btf_new).
Fixpoint name_off (names : list (list Z)) (n : list Z) (o : Z) : Z :=
  match names with
  | [] => 0
  | m :: r => if str_eqb m n then o else name_off r n (o + Z.of_nat (length m) + 1)
  end.
Definition NS : list (list Z) :=
  [txt "s"; txt "x"; txt "y"; txt "u32"; txt "u64"; txt "0"; txt "0:0"; txt "0:1"; txt "sec"; txt "s___v2"; txt "1:1";
   txt "0:1:0"; txt "0:1:1"; txt "e"].
Definition no (n : list Z) : Z := name_off NS n 1.
Definition u32t := new_int (no (txt "u32")) 4 0 0.
Definition u64t := new_int (no (txt "u64")) 8 0 0.
Definition mem_ (n : list Z) (t off : Z) : member := {| m_name := match n with [] => 0 | _ => no n end; m_type := t; m_off := off |}.
(** A struct with bitfields. *)
Definition kstruct (n : list Z) (ms : list member) (size : Z) : btype :=
  TStruct {| h_name := no n; h_info := 2 ^ 31 + kind_info KStruct + vlen_bits ms; h_third := size |} ms.
Definition bits (n : list Z) (t off size : Z) : member := mem_ n t (size * 2 ^ 24 + off).
Definition rel (k type : Z) (acc : list Z) : relo :=
  {| rl_kind := k; rl_ins_off := 0; rl_type := type; rl_access := no acc; rl_number := 0 |}.
Definition prog (ins : list insn) : func :=
  {| f_sec := 0; f_addr := 0; f_secoff := 0; f_ins := ins; f_finfo := []; f_linfo := [] |}.
Definition run (lb tb : btf) (r : relo) (ins : list insn) : res rerr (list func) :=
  relocate_btf 40 false lb tb [(txt "sec", 0%nat)] [(no (txt "sec"), [r])] [prog ins].
Definition ldx (o : Z) : insn := {| code := 97; dst := 1; src := 2; off := o; imm := 0 |}. (* *(u32 * ) *)
Definition mov (v : Z) : insn := {| code := 183; dst := 1; src := 0; off := 0; imm := v |}.

(** * C20 *)
(** The byte offset, byte size, shift and sign values computed for one field
    make the load-shift-shift sequence produce the field's value, for any
    memory content, both byte orders, bitfields and plain fields. *)
Theorem C20_reads_the_field :
  forall be b s info m mid mty size vo vs vl vr vg,
    last_member b s info m ->
    resolve_type (b_types b) (m_type m) = Ok mid -> type_by_id (b_types b) mid = Ok mty ->
    size_of mty = Some size -> word_size size -> c_encoding mty ->
    0 <= sp_bit s -> sp_bit s + 256 < 2 ^ 32 ->
    0 <= member_bit_field_size info m <= 64 -> (member_bit_field_size info m = 0 -> sp_bit s mod 8 = 0) ->
    compute_field be b FByteOffset (Some s) = Ok vo -> compute_field be b FByteSize (Some s) = Ok vs ->
    compute_field be b FLShift64 (Some s) = Ok vl -> compute_field be b FRShift64 (Some s) = Ok vr ->
    compute_field be b FSigned (Some s) = Ok vg ->
    word_size (v_value vs) /\ v_value vo * 8 <= sp_bit s /\
    sp_bit s + declared_bits info m size <= (v_value vo + v_value vs) * 8 /\
    forall mem, bytes_ok mem = true -> v_value vo + v_value vs <= Z.of_nat (length mem) ->
      shifts (v_value vg =? 1) (v_value vl) (v_value vr) (load be mem (v_value vo) (v_value vs)) =
      field_reg be (c_signed mty) mem (sp_bit s) (declared_bits info m size).
Proof. exact field_sequence. Qed.
Print Assumptions C20_reads_the_field.

(** The values exist unless the field crosses an aligned 8-byte boundary. *)
Theorem C20_values_exist :
  forall be b s info m mid mty size k,
    last_member b s info m -> class_of k = CField ->
    resolve_type (b_types b) (m_type m) = Ok mid -> type_by_id (b_types b) mid = Ok mty ->
    size_of mty = Some size -> word_size size ->
    0 <= sp_bit s -> sp_bit s + 256 < 2 ^ 32 -> 0 <= member_bit_field_size info m <= 64 ->
    sp_bit s mod 64 + member_bit_field_size info m <= 64 ->
    exists v, compute_field be b k (Some s) = Ok v.
Proof. exact field_computed. Qed.
Print Assumptions C20_values_exist.

(** The unit loaded for a bitfield: an aligned word of at most 8 bytes, the
    smallest one not below the declared type that holds the field. *)
Theorem C20_load_unit :
  forall bit bs size, 0 <= bit -> 1 <= bs -> bit + bs < 2 ^ 32 -> word_size size ->
    match load_unit bit bs size with
    | Ok (o, n) => word_size n /\ size <= n /\ o mod n = 0 /\ 0 <= o /\ o * 8 <= bit /\ bit + bs <= (o + n) * 8 /\
                   bit / 8 < o + n /\
                   (forall n', word_size n' -> size <= n' -> n' < n -> bit / 8 / n' * n' * 8 + n' * 8 < bit + bs)
    | Err e => e = RBtf BInvalidTypeInfo /\ 64 < bit mod 64 + bs
    end.
Proof. exact load_unit_spec. Qed.
Print Assumptions C20_load_unit.

Definition bf : btf := mk NS [u32t; kstruct (txt "s") [bits (txt "x") 1 5 3; bits (txt "y") 1 30 7] 8].
Definition bf_spec (i bit : Z) : spec :=
  {| sp_root := 2; sp_parts := [0; i]; sp_bit := bit;
     sp_acc := [{| ac_type := 2; ac_index := 0; ac_name := None |}; {| ac_type := 2; ac_index := i; ac_name := Some [] |}] |}.
Example C20_example :
  last_member bf (bf_spec 1 30) (2 ^ 31 + kind_info KStruct + 2) (bits (txt "y") 1 30 7) /\
  map (fun k => compute_field false bf k (Some (bf_spec 1 30))) [FByteOffset; FByteSize; FLShift64; FRShift64; FSigned] =
  map Ok [only 0; only 8; only 27; only 57; only 0] /\
  shifts false 27 57 (load false [0; 0; 0; 128; 21; 0; 0; 0; 9] 0 8) = field_reg false false [0; 0; 0; 128; 21; 0; 0; 0; 9] 30 7 /\
  field_bits false [0; 0; 0; 128; 21; 0; 0; 0; 9] 30 7 = 86.
Proof.
  split; [exists {| ac_type := 2; ac_index := 1; ac_name := Some [] |}, [], (nth 2 (b_types bf) TUnknown),
            [bits (txt "x") 1 5 3; bits (txt "y") 1 30 7]; vm_compute; auto|]. vm_compute. auto.
Qed.

(** A bitfield of a 16-byte type is accepted although no 8-byte load covers it:
    the shift count wraps (an arithmetic overflow abort in a debug build) and
    the sequence reads something else. *)
Theorem C20_wide_storage_refuted :
  exists b s vl mem, compute_field false b FLShift64 (Some s) = Ok vl /\
    compute_field false b FByteOffset (Some s) = Ok (only 0) /\ compute_field false b FByteSize (Some s) = Ok (only 16) /\
    compute_field false b FRShift64 (Some s) = Ok (only 60) /\
    v_value vl = 2 ^ 64 - 40 /\
    shifts false (v_value vl) 60 (load false mem 0 16) <> field_bits false mem 100 4.
Proof.
  exists (mk NS [new_int (no (txt "u64")) 16 0 0; kstruct (txt "s") [bits (txt "x") 1 100 4] 16]), (bf_spec 0 100).
  exists (only (2 ^ 64 - 40)), (repeat 0 12 ++ [240; 0; 0; 0]). vm_compute. repeat split; discriminate.
Qed.
Print Assumptions C20_wide_storage_refuted.

(** An integer whose encoding is a combination the code does not know is
    taken as signed, whatever its sign bit says. *)
Theorem C20_odd_encoding_refuted :
  exists b s t, type_by_id (b_types b) 1 = Ok t /\ c_signed t = false /\
    compute_field false b FSigned (Some s) = Ok (only 1).
Proof.
  exists (mk NS [new_int (no (txt "u32")) 4 6 0; kstruct (txt "s") [bits (txt "x") 1 0 4] 16]), (bf_spec 0 0), (new_int (no (txt "u32")) 4 6 0).
  vm_compute. auto.
Qed.
Print Assumptions C20_odd_encoding_refuted.

(** A bitfield of a member type without a size aborts. *)
Theorem C20_unsized_bitfield_refuted :
  exists b s, compute_field false b FByteOffset (Some s) = Err RPanic.
Proof.
  exists (mk NS [new_struct (no (txt "s")) [] 0; kstruct (txt "s") [bits (txt "x") 1 0 4] 16]), (bf_spec 0 0).
  vm_compute. reflexivity.
Qed.
Print Assumptions C20_unsized_bitfield_refuted.

(** * C21 *)
(** Everything but the instruction (and the second slot of the LD class) is
    unchanged. *)
Theorem C21_frame :
  forall lb tb c ins idx ins' x, apply_at lb tb c ins idx = Ok ins' -> zget idx ins = Some x ->
    List.length ins' = List.length ins /\
    forall j, j <> Z.to_nat idx -> (is_ld_class (code x) = true -> j <> S (Z.to_nat idx)) ->
      nth_error ins' j = nth_error ins j.
Proof.
  intros lb tb c ins idx ins' x H Hx. split; [eapply apply_length; eauto|].
  intros j H1 H2. eapply apply_frame; eauto.
Qed.
Print Assumptions C21_frame.

(** Loads and stores get the value as offset, if it fits, and the width of the
    target field. *)
Theorem C21_memory :
  forall lb tb c ins idx ins' x t, apply_at lb tb c ins idx = Ok ins' -> zget idx ins = Some x ->
    c_target c = Some t -> is_mem_class (code x) = true -> 0 <= v_value t ->
    v_value t <= 32767 /\
    exists cd, nth_error ins' (Z.to_nat idx) = Some (set_code cd (set_off (v_value t) x)) /\
      Z.land cd 7 = Z.land (code x) 7 /\ Z.land cd 224 = Z.land (code x) 224 /\
      (v_size (c_local c) = v_size t -> cd = code x) /\
      (v_size (c_local c) <> v_size t -> insn_width cd = v_size t).
Proof. exact apply_mem. Qed.
Print Assumptions C21_memory.

(** Arithmetic instructions get the low 32 bits as immediate, 64-bit loads the
    whole value. *)
Theorem C21_immediate :
  (forall lb tb c ins idx ins' x t, apply_at lb tb c ins idx = Ok ins' -> zget idx ins = Some x ->
     c_target c = Some t -> is_alu_class (code x) = true ->
     src x = 0 /\ nth_error ins' (Z.to_nat idx) = Some (set_imm (i32 (v_value t)) x)) /\
  (forall lb tb c ins idx ins' x t, apply_at lb tb c ins idx = Ok ins' -> zget idx ins = Some x ->
     c_target c = Some t -> is_ld_class (code x) = true ->
     exists y, nth_error ins (S (Z.to_nat idx)) = Some y /\
       nth_error ins' (Z.to_nat idx) = Some (set_imm (i32 (v_value t)) x) /\
       nth_error ins' (S (Z.to_nat idx)) = Some (set_imm (i32 (Z.shiftr (v_value t) 32)) y)) /\
  (forall v, 0 <= v < 2 ^ 64 -> u32 (i32 v) + 2 ^ 32 * u32 (i32 (Z.shiftr v 32)) = v).
Proof. split; [exact apply_alu|]. split; [exact apply_ld|exact halves]. Qed.
Print Assumptions C21_immediate.

(** Without a target value the instruction, both slots of a 64-bit load,
    becomes a call of a helper that does not exist. *)
Theorem C21_poison :
  (forall lb tb c ins idx x, zget idx ins = Some x -> c_target c = None ->
     (code x = LDDW_CODE -> idx + 1 < Z.of_nat (List.length ins)) -> exists ins', apply_at lb tb c ins idx = Ok ins') /\
  (forall lb tb c ins idx ins' x, apply_at lb tb c ins idx = Ok ins' -> zget idx ins = Some x ->
     c_target c = None ->
     nth_error ins' (Z.to_nat idx) = Some poison /\
     (code x = LDDW_CODE -> nth_error ins' (S (Z.to_nat idx)) = Some poison)) /\
  (insn_is_helper_call poison = true /\ imm poison = 195896080).
Proof. split; [exact apply_poison_total|]. split; [exact apply_poison|]. vm_compute. auto. Qed.
Print Assumptions C21_poison.

Definition l1 : btf := mk NS [u32t; new_struct (no (txt "s")) [mem_ (txt "x") 1 0; mem_ (txt "y") 1 32] 8].
Definition k1 : btf := mk NS [u32t; u64t; new_struct (no (txt "s")) [mem_ (txt "y") 2 64; mem_ (txt "x") 1 128] 24].
(** The field moved and grew: offset 8, 8-byte load. *)
Example C21_example :
  run l1 k1 (rel 0 2 (txt "0:1")) [ldx 4; mov 7] =
  Ok [prog [{| code := 121; dst := 1; src := 2; off := 8; imm := 0 |}; mov 7]] /\
  run l1 (mk NS [u32t]) (rel 0 2 (txt "0:1")) [ldx 4; mov 7] = Ok [prog [poison; mov 7]] /\
  run l1 (mk NS [u32t]) (rel 2 2 (txt "0:1")) [mov 9] = Ok [prog [mov 0]] /\
  run l1 k1 (rel 2 2 (txt "0:1")) [mov 9] = Ok [prog [mov 1]].
Proof. vm_compute. auto. Qed.

(** A value of more than 32 bits is cut down silently in a 32-bit immediate. *)
Theorem C21_immediate_overflow_refuted :
  exists lb tb c ins ins' t y, apply_at lb tb c ins 0 = Ok ins' /\ c_target c = Some t /\
    nth_error ins' 0 = Some y /\ v_value t = 2 ^ 32 + 5 /\ imm y = 5.
Proof.
  exists l1, l1, {| c_local := only 0; c_target := Some (only (2 ^ 32 + 5)) |}, [mov 1], [mov 5], (only (2 ^ 32 + 5)), (mov 5).
  vm_compute. auto.
Qed.
Print Assumptions C21_immediate_overflow_refuted.

(** The operand check looks at the source register, not at the operand bit: an
    arithmetic instruction on register 0 is "patched" without effect. *)
Theorem C21_register_operand_refuted :
  exists lb tb c x ins', apply_at lb tb c [x] 0 = Ok ins' /\ c_target c <> None /\
    is_alu_class (code x) = true /\ Z.land (code x) 8 = 8.
Proof.
  exists l1, l1, {| c_local := only 0; c_target := Some (only 5) |}, {| code := 15; dst := 1; src := 0; off := 0; imm := 0 |}.
  eexists. split; [vm_compute; reflexivity|]. vm_compute. repeat split; discriminate.
Qed.
Print Assumptions C21_register_operand_refuted.

(** Every instruction of the LD class is taken for a 64-bit load: relocating a
    packet load overwrites the immediate of the instruction that follows. *)
Theorem C21_packet_load_refuted :
  exists lb tb c x y ins', code x = 32 /\ apply_at lb tb c [x; y] 0 = Ok ins' /\ y = mov 7 /\
    nth_error ins' 1 = Some (mov 0).
Proof.
  exists l1, l1, {| c_local := only 0; c_target := Some (only 5) |}, {| code := 32; dst := 0; src := 0; off := 0; imm := 0 |}, (mov 7).
  eexists. split; [reflexivity|]. split; [vm_compute; reflexivity|]. vm_compute. auto.
Qed.
Print Assumptions C21_packet_load_refuted.

(** A plain field that is a bitfield on the other side aborts the load. *)
Theorem C21_bitfield_mismatch_refuted :
  exists lb tb r ins, run lb tb r ins = Err RPanic.
Proof.
  exists l1, (mk NS [u32t; kstruct (txt "s") [bits (txt "y") 1 0 3] 8]), (rel 0 2 (txt "0:1")), [ldx 4].
  vm_compute. reflexivity.
Qed.
Print Assumptions C21_bitfield_mismatch_refuted.

(** A type that does not exist is an error for type id and type size
    relocations, where the instruction should have been poisoned. *)
Theorem C21_missing_type_refuted :
  exists lb tb ins, run lb tb (rel 7 2 (txt "0")) ins = Err RMissingTarget /\
    run lb tb (rel 9 2 (txt "0")) ins = Err RMissingTarget.
Proof. exists l1, (mk NS [u32t]), [mov 1]. vm_compute. auto. Qed.
Print Assumptions C21_missing_type_refuted.

(** * C22 *)
(** Candidates: exactly the target types of a fitting kind with the same
    essential name. *)
Theorem C22_candidates :
  forall tb l lname cs, find_candidates tb l lname = Ok cs -> forall id n, In (id, n) cs <->
    exists j t, nth_error (b_types tb) j = Some t /\ id = u32 (Z.of_nat j) /\ cand_kind l t = true /\
      type_name tb t = Ok n /\ flavorless lname = flavorless n.
Proof. exact find_candidates_spec. Qed.
Print Assumptions C22_candidates.

(** An accepted set of answers agrees on the place and, where there is one,
    on the value. *)
Theorem C22_accepted_agree :
  forall ms c, choose ms = Ok (Some c) ->
    forall m, In m ms -> fst m = match ms with m0 :: _ => fst m0 | [] => 0 end /\
      (forall v, c_target c <> None -> c_target (snd m) = Some v -> Some (v_value v) = target_value c).
Proof. exact choose_agree. Qed.
Print Assumptions C22_accepted_agree.

(** The outcome does not depend on the order of the candidates, provided all
    answers carry a value or none does. *)
Theorem C22_order_partial :
  forall stack be lb tb k ls c c' ms, Permutation c c' ->
    match_all stack be lb tb k ls c = Ok ms -> uniform ms ->
    match decide stack be lb tb k ls c, decide stack be lb tb k ls c' with
    | Ok r, Ok r' => target_value r = target_value r'
    | Err e, Err e' => e = e'
    | _, _ => False
    end.
Proof. exact decide_perm. Qed.
Print Assumptions C22_order_partial.

(** Remembering candidates per local type changes nothing. *)
Theorem C22_cache :
  forall stack be lb tb ch r, cache_ok lb tb ch ->
    match solve stack be lb tb [] r with
    | Ok (c, _) => exists ch', solve stack be lb tb ch r = Ok (c, ch') /\ cache_ok lb tb ch'
    | Err e => solve stack be lb tb ch r = Err e
    end.
Proof. exact solve_cache. Qed.
Print Assumptions C22_cache.

(** Two kernel types that disagree. *)
Definition k2 : btf := mk NS [u32t; new_struct (no (txt "s")) [mem_ (txt "y") 1 32] 8;
                              new_struct (no (txt "s___v2")) [mem_ (txt "y") 1 64] 12].
(** The same place, of different width. *)
Definition k3 (swap : bool) : btf :=
  let a := new_struct (no (txt "s")) [mem_ (txt "y") 1 64] 12 in
  let b := new_struct (no (txt "s___v2")) [mem_ (txt "y") 2 64] 16 in
  mk NS (u32t :: u64t :: if swap then [b; a] else [a; b]).
(** One candidate has a value, the other (a bitfield over 8 bytes) has none. *)
Definition k4 (swap : bool) : btf :=
  let a := kstruct (txt "s") [bits (txt "y") 1 60 4] 16 in
  let b := kstruct (txt "s___v2") [bits (txt "y") 1 60 10] 16 in
  mk NS (u32t :: u64t :: if swap then [b; a] else [a; b]).
Example C22_example :
  run l1 k2 (rel 0 2 (txt "0:1")) [ldx 4] = Err RConflict /\
  find_candidates k2 (new_struct 0 [] 8) (txt "s___mine") = Ok [(2, txt "s"); (3, txt "s___v2")] /\
  find_candidates k2 (new_struct 0 [] 8) (txt "t") = Ok [].
Proof. vm_compute. auto. Qed.

(** Which of two candidates is listed first decides between a value and the
    poison. *)
Theorem C22_order_refuted :
  exists lb tb tb' r ins o o', run lb tb r ins = Ok o /\ run lb tb' r ins = Ok o' /\ o <> o' /\
    tb = k4 false /\ tb' = k4 true /\ o' = [prog [poison]].
Proof.
  exists (mk NS [u32t; kstruct (txt "s") [bits (txt "y") 1 0 4] 8]), (k4 false), (k4 true), (rel 0 2 (txt "0:0")), [ldx 4].
  eexists _, _. split; [vm_compute; reflexivity|]. split; [vm_compute; reflexivity|]. split; [vm_compute; discriminate|].
  vm_compute. auto.
Qed.
Print Assumptions C22_order_refuted.

(** Agreement is on the value only: the first candidate listed decides the
    width of the load. *)
Theorem C22_width_refuted :
  exists lb r ins o o', run lb (k3 false) r ins = Ok o /\ run lb (k3 true) r ins = Ok o' /\ o <> o'.
Proof.
  exists l1, (rel 0 2 (txt "0:1")), [ldx 4].
  eexists _, _. split; [vm_compute; reflexivity|]. split; [vm_compute; reflexivity|]. vm_compute. discriminate.
Qed.
Print Assumptions C22_width_refuted.

(** * C23 *)
(** The name a type is looked up by is the part before the first "___". *)
Theorem C23_essential :
  forall n e, flavorless n = e <-> essential n e.
Proof. exact flavorless_iff. Qed.
Print Assumptions C23_essential.

Theorem C23_flavour :
  forall base flavour, ~ has_sep (base ++ [95; 95]) -> flavorless (base ++ SEP ++ flavour) = base.
Proof. exact flavorless_suffix. Qed.
Print Assumptions C23_flavour.

(** External symbols use the same rule and keep the full name when there is no
    flavour. *)
Theorem C23_externs :
  forall n, (split_once n = None <-> ~ has_sep n) /\
    split_once n = if (if split_once n then true else false) then Some (flavorless n) else None.
Proof. intros n. split; [apply split_once_none|apply split_once_flavorless]. Qed.
Print Assumptions C23_externs.

Example C23_example :
  flavorless (txt "task_struct___old___2") = txt "task_struct" /\ flavorless (txt "task__struct") = txt "task__struct" /\
  flavorless (txt "a____b") = txt "a" /\ split_once (txt "sym___v2") = Some (txt "sym") /\ split_once (txt "sym__v2") = None.
Proof. vm_compute. auto 6. Qed.

(** * C56 *)
(** An access string of member and element indices is turned into the bit
    offset of the local layout, when its first index is 0. *)
Theorem C56_local_offset_partial :
  forall b k root s sp, access_new b k root s = Ok sp -> class_of k = CField ->
    exists i r id size o acc, parse_parts s = Ok (i :: r) /\ resolve_type (b_types b) root = Ok id /\
      type_size (b_types b) id = Ok size /\ ipath b r id o /\ sp_bit sp = u64 (i * size + o) /\ sp_root sp = root /\
      sp_acc sp = {| ac_type := id; ac_index := i; ac_name := None |} :: acc /\ Forall (acc_ok b) acc.
Proof. exact access_field. Qed.
Print Assumptions C56_local_offset_partial.

Example C56_example :
  match access_new l1 FByteOffset 2 (txt "0:1") with Ok s => sp_bit s | Err _ => 0 end = 32.
Proof. vm_compute. reflexivity. Qed.

(** For a first index other than 0 bytes and bits are mixed up: element 1 of
    an array of 8-byte structs, member at bit 32, is at bit 96, not 40. *)
Theorem C56_first_index_refuted :
  exists b s, access_new b FByteOffset 2 (txt "1:1") = Ok s /\ type_size (b_types b) 2 = Ok 8 /\
    ipath b [1] 2 32 /\ 1 * 8 * 8 + 32 = 96 /\ sp_bit s = 40.
Proof.
  exists l1. eexists. split; [vm_compute; reflexivity|]. split; [vm_compute; reflexivity|]. split.
  - change 32 with (member_bit_offset (h_info {| h_name := 0; h_info := Z.lor (kind_info KStruct) 2; h_third := 8 |}) (mem_ (txt "y") 1 32) + 0).
    eapply ipath_member with (rid := 2) (ty := nth 2 (b_types l1) TUnknown) (ms := [mem_ (txt "x") 1 0; mem_ (txt "y") 1 32]);
      [vm_compute; reflexivity|vm_compute; reflexivity|vm_compute; reflexivity|vm_compute; reflexivity|constructor].
  - vm_compute. auto.
Qed.
Print Assumptions C56_first_index_refuted.

(** The last member of a struct may be an array of unknown length; the test
    for it uses the element index instead of the member index, so the first
    element is refused and element 1 accepted. *)
Theorem C56_flexible_array_refuted :
  exists b, nth_error (b_types b) 3 = Some (new_struct (no (txt "s")) [mem_ (txt "x") 1 0; mem_ (txt "y") 2 32] 4) /\
    nth_error (b_types b) 2 = Some (TArray {| h_name := 0; h_info := kind_info KArray; h_third := 0 |} 1 1 0) /\
    access_new b FByteOffset 3 (txt "0:1:0") = Err RInvalidAccessIndex /\
    is_ok (access_new b FByteOffset 3 (txt "0:1:1")) = true.
Proof.
  exists (mk NS [u32t; TArray {| h_name := 0; h_info := kind_info KArray; h_third := 0 |} 1 1 0;
                 new_struct (no (txt "s")) [mem_ (txt "x") 1 0; mem_ (txt "y") 2 32] 4]).
  vm_compute. auto.
Qed.
Print Assumptions C56_flexible_array_refuted.

(** * C57 *)
(** A matched candidate is read at the place its own layout gives to the names
    and indices of the local access. *)
Theorem C57_target_offset :
  forall stack lb tb k root s ls cid ts,
    access_new lb k root s = Ok ls -> class_of k = CField ->
    match_candidate stack lb tb k ls cid = Ok (Some ts) ->
    exists a0 acc id size off, sp_acc ls = a0 :: acc /\ resolve_type (b_types tb) cid = Ok id /\
      type_size (b_types tb) id = Ok size /\
      path tb (map step_of acc) id off /\ sp_bit ts = u64 (ac_index a0 * size * 8 + off) /\ sp_root ts = cid.
Proof. exact match_candidate_field. Qed.
Print Assumptions C57_target_offset.

Example C57_example :
  match access_new l1 FByteOffset 2 (txt "0:1") with
  | Ok ls => match match_candidate 5 l1 k1 FByteOffset ls 3 with Ok (Some ts) => sp_bit ts | _ => 0 end
  | Err _ => 0
  end = 64.
Proof. vm_compute. reflexivity. Qed.

(** Anonymous members are searched recursively without a bound: a struct that
    contains itself anonymously exhausts any stack. *)
Definition loop_btf : btf := mk NS [u32t; new_struct (no (txt "s")) [mem_ [] 2 0] 8].
Theorem C57_anonymous_cycle_refuted :
  exists lb tb a sp, forall stack, match_member stack lb tb a 2 sp = Err RStack.
Proof.
  exists l1, loop_btf, {| ac_type := 2; ac_index := 1; ac_name := Some (txt "y") |}, {| sp_root := 2; sp_parts := [0]; sp_acc := []; sp_bit := 0 |}.
  intros stack. unfold match_member.
  change (lift (type_by_id (b_types l1) (ac_type {| ac_type := 2; ac_index := 1; ac_name := Some (txt "y") |})))
    with (@Ok rerr _ (new_struct (no (txt "s")) [mem_ (txt "x") 1 0; mem_ (txt "y") 1 32] 8)). cbn [bind].
  change (members_of (new_struct (no (txt "s")) [mem_ (txt "x") 1 0; mem_ (txt "y") 1 32] 8))
    with (Some (Z.lor (kind_info KStruct) 2, [mem_ (txt "x") 1 0; mem_ (txt "y") 1 32])). cbv iota.
  change (zget (ac_index {| ac_type := 2; ac_index := 1; ac_name := Some (txt "y") |}) [mem_ (txt "x") 1 0; mem_ (txt "y") 1 32])
    with (Some (mem_ (txt "y") 1 32)). cbv iota.
  assert (string_at l1 (m_name (mem_ (txt "y") 1 32)) = Ok (txt "y")) as -> by (vm_compute; reflexivity).
  cbn [lift bind]. generalize (txt "y") (m_type (mem_ (txt "y") 1 32)). intros n t.
  induction stack as [|stack IH]; [reflexivity|]. cbn [match_member_go].
  assert (resolve_type (b_types loop_btf) 2 = Ok 2) as -> by (vm_compute; reflexivity). cbn [lift bind].
  assert (type_by_id (b_types loop_btf) 2 = Ok (new_struct (no (txt "s")) [mem_ [] 2 0] 8)) as -> by (vm_compute; reflexivity).
  cbn [lift bind]. cbn [new_struct members_of member_loop sp_parts List.length MAX_SPEC_LEN Nat.eqb].
  assert (string_at loop_btf (m_name (mem_ [] 2 0)) = Ok []) as -> by (vm_compute; reflexivity).
  cbn [lift bind]. change (m_type (mem_ [] 2 0)) with 2. rewrite IH. reflexivity.
Qed.
Print Assumptions C57_anonymous_cycle_refuted.

(** * C58 *)
(** A successful run carries out every relocation, in order, in the function of
    its section that contains the instruction; the value used is the one the
    relocation has on its own. *)
Theorem C58_carried_out :
  forall stack be lb tb sections relos funs funs', aligned funs ->
    (forall o rs, In (o, rs) relos -> relos_ok rs) ->
    relocate_btf stack be lb tb sections relos funs = Ok funs' ->
    carried_all stack be lb tb sections relos funs funs'.
Proof. exact relocate_btf_carried. Qed.
Print Assumptions C58_carried_out.

(** Instructions no relocation points at, directly or as the second half of a
    64-bit load, are unchanged in every function, and so is all else. *)
Theorem C58_frame :
  forall stack be lb tb sec rs funs funs', carried stack be lb tb sec rs funs funs' ->
    List.length funs' = List.length funs /\
    forall i f, nth_error funs i = Some f -> exists f', nth_error funs' i = Some f' /\
      f_sec f' = f_sec f /\ f_addr f' = f_addr f /\ f_secoff f' = f_secoff f /\ f_finfo f' = f_finfo f /\ f_linfo f' = f_linfo f /\
      List.length (f_ins f') = List.length (f_ins f) /\
      forall j, (forall r, In r rs -> f_sec f = sec ->
                   rl_ins_off r / 8 <> f_secoff f / 8 + Z.of_nat j /\ rl_ins_off r / 8 + 1 <> f_secoff f / 8 + Z.of_nat j) ->
        nth_error (f_ins f') j = nth_error (f_ins f) j.
Proof. exact carried_frame. Qed.
Print Assumptions C58_frame.

(** With functions that do not overlap, the function is found whatever was
    relocated before. *)
Theorem C58_function :
  forall sec r funs last i,
    (forall a b f g, nth_error funs a = Some f -> nth_error funs b = Some g -> inside sec f r = true -> inside sec g r = true -> a = b) ->
    (pick_fun sec r funs last = Some i <-> exists f, nth_error funs i = Some f /\ inside sec f r = true).
Proof. exact pick_fun_unique. Qed.
Print Assumptions C58_function.

Definition at_ (o : Z) (r : relo) : relo :=
  {| rl_kind := rl_kind r; rl_ins_off := o; rl_type := rl_type r; rl_access := rl_access r; rl_number := 0 |}.
Definition fun2 : func := {| f_sec := 0; f_addr := 16; f_secoff := 16; f_ins := [ldx 0; mov 0]; f_finfo := []; f_linfo := [] |}.
Example C58_example :
  aligned [prog [mov 1; mov 2]; fun2] /\
  relocate_btf 40 false l1 k1 [(txt "sec", 0%nat)]
    [(no (txt "sec"), [at_ 8 (rel 0 2 (txt "0:0")); at_ 16 (rel 0 2 (txt "0:1")); at_ 0 (rel 0 2 (txt "0:1"))])]
    [prog [mov 1; mov 2]; fun2] =
  Ok [prog [mov 8; mov 16];
      {| f_sec := 0; f_addr := 16; f_secoff := 16; f_ins := [{| code := 121; dst := 1; src := 2; off := 8; imm := 0 |}; mov 0];
         f_finfo := []; f_linfo := [] |}] /\
  relocate_btf 40 false l1 k1 [(txt "sec", 0%nat)] [(no (txt "sec"), [at_ 32 (rel 0 2 (txt "0:0"))])]
    [prog [mov 1; mov 2]; fun2] = Err RFunctionNotFound.
Proof.
  split; [intros f [<-|[<-|[]]]; vm_compute; split; [reflexivity|discriminate| |]; [reflexivity|discriminate]|]. vm_compute. auto.
Qed.

(** * C59 *)
(** An enumerator relocation yields the kernel's value, as a 64-bit register,
    of an enumerator with the same essential name. *)
Theorem C59_enumerator :
  forall stack be lb tb root s ls cid ts c tid t,
    access_new lb EValue root s = Ok ls -> match_candidate stack lb tb EValue ls cid = Ok (Some ts) ->
    resolve_type (b_types tb) cid = Ok tid -> type_by_id (b_types tb) tid = Ok t -> enum_words t ->
    compute be lb tb EValue ls (Some ts) = Ok c ->
    exists i lid lt lns lno lname j ns no n x,
      parse_parts s = Ok [i] /\ resolve_type (b_types lb) root = Ok lid /\ type_by_id (b_types lb) lid = Ok lt /\
      variant_names lt = Some lns /\ zget i lns = Some lno /\ string_at lb lno = Ok lname /\
      variant_names t = Some ns /\ nth_error ns j = Some no /\ string_at tb no = Ok n /\ flavorless n = flavorless lname /\
      enumerator t j = Some x /\ c_target c = Some (only (u64 x)).
Proof. exact enum_value. Qed.
Print Assumptions C59_enumerator.

(** Type relocations: ids, existence and size. *)
Theorem C59_types :
  forall tb k ls ts v, class_of k = CType -> compute_type tb k ls ts = Ok v ->
    v_value v = match k, ts with
                | TIdLocal, _ => sp_root ls
                | TIdTarget, Some t => sp_root t
                | TExists, Some _ => 1
                | TExists, None => 0
                | TSize, Some t => match type_size (b_types tb) (sp_root t) with Ok n => n | Err _ => 0 end
                | _, _ => 0
                end.
Proof. exact type_values. Qed.
Print Assumptions C59_types.

(** The local enum has x and y; the kernel's lists y as -2. *)
Definition le : btf := mk NS [new_enum (no (txt "e")) false [(no (txt "x"), 0); (no (txt "y"), 1)]].
Definition ke (s : bool) : btf := mk NS [u32t; new_enum (no (txt "e")) s [(no (txt "y"), 2 ^ 32 - 2); (no (txt "x"), 7)]].
Definition ke64 : btf := mk NS [u32t; new_enum64 (no (txt "e")) false [(no (txt "y"), 5, 1)]].
Example C59_example :
  run le (ke true) (rel 11 1 (txt "0")) [mov 0] = Ok [prog [mov 7]] /\
  run (mk NS [new_enum (no (txt "e")) false [(no (txt "y"), 1)]]) (ke true) (rel 11 1 (txt "0")) [mov 0] = Ok [prog [mov (-2)]] /\
  run le (mk NS [new_enum (no (txt "e")) false [(no (txt "y"), 1)]]) (rel 11 1 (txt "0")) [mov 0] = Ok [prog [poison]] /\
  run le (mk NS [new_enum (no (txt "e")) false [(no (txt "y"), 1)]]) (rel 10 1 (txt "0")) [mov 5] = Ok [prog [mov 0]] /\
  run l1 k1 (rel 9 2 (txt "0")) [mov 0] = Ok [prog [mov 24]] /\ run l1 k1 (rel 7 2 (txt "0")) [mov 0] = Ok [prog [mov 3]] /\
  run l1 k1 (rel 6 2 (txt "0")) [mov 0] = Ok [prog [mov 2]] /\ run l1 k1 (rel 8 2 (txt "0")) [mov 0] = Ok [prog [mov 1]].
Proof. vm_compute. auto 10. Qed.

(** A 32-bit enum of the program is not looked for among the kernel's 64-bit
    enums of the same name. *)
Theorem C59_widened_enum_refuted :
  exists lb tb ins, run lb tb (rel 11 1 (txt "0")) ins = Ok [prog [poison]] /\
    (exists vs, nth_error (b_types lb) 1 = Some (new_enum (no (txt "e")) false ((no (txt "y"), 1) :: vs))) /\
    nth_error (b_types tb) 2 = Some (new_enum64 (no (txt "e")) false [(no (txt "y"), 5, 1)]).
Proof.
  exists (mk NS [new_enum (no (txt "e")) false [(no (txt "y"), 1)]]), ke64, [mov 0]. split; [vm_compute; reflexivity|].
  split; [exists []; vm_compute; reflexivity|vm_compute; reflexivity].
Qed.
Print Assumptions C59_widened_enum_refuted.

(** The numbers of the relocation kinds are the kernel's. *)
Theorem C59_kinds : forall n k, 0 <= n <= 11 -> (rkind_of n = k <-> In (n, k) uapi_kinds).
Proof. exact kinds_uapi. Qed.
(** An instruction is poisoned because of an error, never because of a panic. *)
Theorem C59_no_panic_hidden : forall be lb tb k ls ts e c,
  kernel_value be tb k ls ts (Err e) -> compute be lb tb k ls ts = Ok c -> ~ aborts e /\ c_target c = None.
Proof. exact target_fails. Qed.
(** A value that can be computed is the one used. *)
Theorem C59_value_used : forall be lb tb k ls ts v c,
  kernel_value be tb k ls ts (Ok v) -> compute be lb tb k ls ts = Ok c -> c_target c = Some v.
Proof. exact target_found. Qed.
Example C59_hidden_example : let s := {| sp_root := 1; sp_parts := [0]; sp_acc := []; sp_bit := 0 |} in
  kernel_value false k1 TExists s None (Ok (only 0)) /\ kernel_value false k1 EValue s None (Err RMissingTarget)
  /\ kernel_value false k1 EValue s (Some s) (Err RPanic).
Proof. repeat split; [right; left | right; right | right; right]; split; reflexivity. Qed.
Print Assumptions C59_kinds.
Print Assumptions C59_no_panic_hidden.
Print Assumptions C59_value_used.

(** * Access strings, members and enumerators *)

(** Access strings are read as numbers with colons between them, and nothing
    else is. *)
Theorem C56_access_string : forall s l, parse_parts s = Ok l <-> indices s l.
Proof. exact parts_indices. Qed.
Theorem C56_access_error : forall s, (forall l, ~ indices s l) -> parse_parts s = Err RInvalidAccessString.
Proof. exact parts_not. Qed.
Example C56_access_example : indices (txt "0:+12") [0; 12].
Proof. apply C56_access_string. vm_compute. reflexivity. Qed.
(** Structs and unions have members, with the word that tells whether there are
    bit fields. *)
Theorem C57_members : forall t info ms, members_of t = Some (info, ms) <-> aggregate t info ms.
Proof. exact members_aggregate. Qed.
(** Names and values of enumerators, also of 64-bit enums rewritten to unions. *)
Theorem C59_names : forall t es, enumerators t es -> variant_names t = Some (map fst es).
Proof. exact enum_names. Qed.
Theorem C59_values : forall t es i, enumerators t es -> variant_value t i = option_map snd (zget i es).
Proof. exact enum_values. Qed.
Theorem C59_others : forall t, (forall es, ~ enumerators t es) -> variant_names t = None /\ forall i, variant_value t i = None.
Proof. exact enum_none. Qed.
(** Indices count from 0. *)
Theorem C56_index : forall (A : Type) i (l : list A) x, zget i l = Some x <-> 0 <= i /\ nth_error l (Z.to_nat i) = Some x.
Proof. exact @zget_nth. Qed.
Print Assumptions C56_access_string.
Print Assumptions C56_access_error.
Print Assumptions C57_members.
Print Assumptions C59_names.
Print Assumptions C59_values.
Print Assumptions C59_others.
Print Assumptions C56_index.
