(** A kernel answering feature probes, written from the kernel's sources
    (kernel/bpf/syscall.c, verifier.c, btf.c and the [map_alloc_check] functions),
    which are not part of /repo; its behaviour is an assumption.  What it has is
    given by a record, so that every combination of features, not only those of
    released versions, is covered. *)
From Coq Require Import String.
From Verif Require Import Base Text TextSplit Insn BtfSanitize FeatModel.
Import ListNotations.
Local Open Scope Z_scope.

(** * Reading requests *)

Definition at_off (r : request) (o : Z) : option val := option_map snd (find (fun f => fst (fst f) =? o) r).
Definition num (r : request) (o : Z) : Z := match at_off r o with Some (VNum z) => z | _ => 0 end.
Definition nonzero (v : val) : bool :=
  match v with
  | VNum z => negb (z =? 0)
  | VText l => existsb (fun c => negb (c =? 0)) l
  | _ => true
  end.
(** Some byte from [n] on is not zero. *)
Definition beyond (r : request) (n : Z) : bool := existsb (fun f => (n <? fst (fst f) + snd (fst f)) && nonzero (snd f)) r.

(** Descriptors: the latest event decides; [c]: the command that makes such
    descriptors.  The kernel takes descriptors for signed numbers. *)
Fixpoint made (h : history) (fd : Z) : option (Z * request) :=
  match h with
  | [] => None
  | Close f :: h => if f =? fd then None else made h fd
  | Call c r a :: h => match a_ret a with Ok f => if (f =? fd) && negb (c =? 15) then Some (c, r) else made h fd | Err _ => made h fd end
  | Raise :: h => made h fd
  end.
Definition open_as (c : Z) (h : history) (fd : Z) : option request :=
  if fd <? 2 ^ 31 then match made h fd with Some (c', r) => if c' =? c then Some r else None | None => None end else None.
Definition is_open (c : Z) (h : history) (fd : Z) : bool := match open_as c h fd with Some _ => true | None => false end.

(** * Kernels *)

Record kern := {
  k_attr : Z;                                       (* size of union bpf_attr *)
  k_ends : Z -> Z;                                  (* by command: end of its last field (CHECK_ATTR), 0 if there is no such command *)
  k_early : history -> Z -> request -> option Z;    (* errors not due to the request: privileges, memory, limits; *)
  k_late : history -> Z -> request -> option Z;     (* before and after the request was looked at *)
  k_fd : history -> Z;                              (* the next descriptor *)
  k_map : Z -> bool;                                (* map types *)
  k_prog_values : Z -> bool;                        (* CPU and device maps: values may name a program *)
  k_page : Z;
  k_stack : Z;                                      (* perf_event_max_stack *)
  k_arena : bool;                                   (* bpf_jit_supports_arena *)
  k_prog : Z -> bool;                               (* program types *)
  k_version : option Z;                             (* the version kprobe programs have to name, before 5.0 *)
  k_sleepable : bool;                               (* programs may be sleepable *)
  k_lsm_cgroup : bool;                              (* BPF_LSM_CGROUP *)
  k_funcs : Z -> bool;                              (* ids of the functions that may be attached to *)
  k_trampolines : bool;
  k_helper : Z -> Z -> bool;                        (* by program type and number *)
  k_args : Z -> bool;                               (* the helper has arguments *)
  k_gpl_only : Z -> bool;
  k_diag : Z -> Z -> list Z;                        (* the verifier's words for a helper that cannot be used *)
  k_trace : insn -> list (list Z);                  (* what it prints about an instruction *)
  k_global : bool;                                  (* BPF_PSEUDO_MAP_VALUE *)
  k_perf_link : bool;                               (* BPF_PERF_EVENT links *)
  k_btf : feature -> bool;
  k_info : Z;                                       (* size of struct bpf_prog_info *)
  k_gpl : bool                                      (* which says whether the license is compatible *)
}.

Definition fail (e : Z) : answer := {| a_ret := Err e; a_log := [] |}.

(** * Maps *)

Definition storage (t : Z) : bool := match t with 24 | 28 | 29 | 32 => true | _ => false end.
Definition of_maps (t : Z) : bool := match t with 12 | 13 => true | _ => false end.
(** The sizes asked for; those of DeclSpec, decidable, and for the types that
    cannot be declared: bpf_struct_ops_map_alloc_check, arena_map_alloc. *)
Definition sizes_ok (k : kern) (t key value entries : Z) : bool :=
  match t with
  | 1 | 5 | 9 | 10 => (0 <? key) && (0 <? value) && (0 <? entries)
  | 2 | 6 => (key =? 4) && (0 <? value) && (0 <? entries)
  | 3 | 4 | 8 | 12 | 17 => (key =? 4) && (value =? 4) && (0 <? entries)
  | 13 => (0 <? key) && (value =? 4) && (0 <? entries)
  | 7 => (key =? 4) && (8 <=? value) && (value mod 8 =? 0) && (value <=? 8 * k_stack k) && (0 <? entries)
  | 11 => (5 <=? key) && (key <=? 260) && (0 <? value) && (0 <? entries)
  | 14 | 16 | 25 => (key =? 4) && ((value =? 4) || ((value =? 8) && k_prog_values k t)) && (0 <? entries)
  | 15 | 20 => (key =? 4) && ((value =? 4) || (value =? 8)) && (0 <? entries)
  | 18 => (0 <? key) && (key <=? 512) && ((value =? 4) || (value =? 8)) && (0 <? entries)
  | 19 | 21 => (key =? 16) && (0 <? value) && (entries =? 0)
  | 22 | 23 | 30 => (key =? 0) && (0 <? value) && (0 <? entries)
  | 24 | 28 | 29 | 32 => (key =? 4) && (0 <? value) && (entries =? 0)
  | 26 => (key =? 4) && (entries =? 1)
  | 27 | 31 => (key =? 0) && (value =? 0) && (0 <? entries) && (entries mod k_page k =? 0) && (Z.land entries (entries - 1) =? 0)
  | 33 => (key =? 0) && (value =? 0) && (0 <? entries)
  | _ => false
  end.
(** Flags: required ones only. *)
Definition flags_ok (t flags : Z) : bool :=
  match t with
  | 11 | 24 | 28 | 29 | 32 => flags =? 1
  | 33 => flags =? 1024
  | _ => flags =? 0
  end.
(** Ids of BTF types: storages need them, struct_ops an id in the kernel's BTF,
    nobody else may have that one. *)
Definition ids_ok (t key_id value_id vmlinux_id : Z) : bool :=
  if storage t then negb (key_id =? 0) && negb (value_id =? 0) && (vmlinux_id =? 0)
  else if t =? 26 then negb (vmlinux_id =? 0) && (key_id =? 0) && (value_id =? 0)
  else vmlinux_id =? 0.
Definition create (k : kern) (h : history) (r : request) : answer :=
  let t := num r 0 in
  if negb (k_map k t) then fail 22
  else if negb (sizes_ok k t (num r 4) (num r 8) (num r 12) && flags_ok t (num r 16) && ids_ok t (num r 52) (num r 56) (num r 60)) then fail 22
  else if (t =? 33) && negb (k_arena k) then fail 95
  else match k_late k h 0 r with
       | Some e => fail e
       | None =>
           if of_maps t && negb (is_open 0 h (num r 20)) then fail 9
           else if storage t && negb (is_open 18 h (num r 48)) then fail 9
           else if t =? 26 then fail 524   (* no such struct_ops type: the first type of the kernel's BTF is none *)
           else {| a_ret := Ok (k_fd k h); a_log := [] |}
       end.

(** * Programs *)

(** bpf_prog_load_check_attach, after an absent attach type was filled in. *)
Definition attach_ok (t a : Z) : bool :=
  match t with
  | 8 => (a =? 0) || (a =? 1)
  | 9 => (a =? 0) || (a =? 2) || (a =? 34) || (a =? 12) || (a =? 13)
  | 18 => ((8 <=? a) && (a <=? 11)) || (a =? 14) || (a =? 15) || (a =? 19) || (a =? 20) || ((29 <=? a) && (a <=? 32))
  | 21 => (a =? 0) || (a =? 39) || (a =? 40)
  | 25 => (a =? 21) || (a =? 22)
  | 28 | 31 => a =? 0
  | 30 => a =? 36
  | 32 => a =? 45
  | _ => true
  end.
Definition needs_target (t : Z) : bool := match t with 26 | 28 | 29 => true | _ => false end.

Definition text (lines : list (list Z)) : list Z := concat (map (fun l => l ++ [10]) lines).
(** What ends up in the caller's room. *)
Definition shown (r : request) (lines : list (list Z)) : list Z :=
  match at_off r 32 with
  | Some (VRoom n) => if num r 24 =? 0 then [] else firstn (Z.to_nat (Z.min n (num r 28) - 1)) (text lines) ++ [0]
  | _ => []
  end.
Definition reject (r : request) (lines : list (list Z)) (e : Z) : answer := {| a_ret := Err e; a_log := shown r lines |}.
Definition stats : list Z := txt "processed 0 insns (limit 1000000) max_states_per_insn 0 total_states 0 peak_states 0 mark_read 0".

(** The verifier on straight code: [r0], [r1]: register 0 has a value,
    register 1 points to the value of a map. *)
Inductive verdict := Accept | Reject (lines : list (list Z)) (e : Z).
Fixpoint walk (k : kern) (h : history) (t : Z) (gpl : bool) (is : list insn) (r0 r1 : bool) (said : list (list Z)) : verdict :=
  match is with
  | [] => Reject (said ++ [txt "last insn is not an exit or jmp"]) 22
  | i :: is =>
      let said := said ++ k_trace k i in
      match Insn.code i with
      | 149 => if r0 then Accept else Reject (said ++ [txt "R0 !read_ok"; stats]) 13
      | 183 => if (Insn.dst i =? 0) && (Insn.src i =? 0) && (Insn.off i =? 0) then walk k h t gpl is true r1 said
               else Reject (said ++ [txt "BPF_MOV uses reserved fields"]) 22
      | 133 =>
          if negb ((Insn.dst i =? 0) && (Insn.src i =? 0) && (Insn.off i =? 0)) then Reject (said ++ [txt "BPF_CALL uses reserved fields"]) 22
          else if negb (k_helper k t (Insn.imm i)) then Reject (said ++ [k_diag k t (Insn.imm i); stats]) 22
          else if k_gpl_only k (Insn.imm i) && negb gpl then Reject (said ++ [txt "cannot call GPL-restricted function from non-GPL compatible program"]) 22
          else if k_args k (Insn.imm i) then Reject (said ++ [txt "R1 !read_ok"; stats]) 13
          else walk k h t gpl is true false said
      | 24 =>
          match is with
          | i2 :: is =>
              if (Insn.src i =? 2) && (Insn.dst i =? 1) && (Insn.off i =? 0) && (Insn.code i2 =? 0) then
                if negb (k_global k) then Reject (said ++ [txt "unrecognized bpf_ld_imm64 insn"]) 22
                else if negb (is_open 0 h (Insn.imm i)) then Reject (said ++ [txt "fd is not pointing to valid bpf_map"]) 9
                else walk k h t gpl is r0 true said
              else Reject (said ++ [txt "unrecognized bpf_ld_imm64 insn"]) 22
          | [] => Reject (said ++ [txt "invalid bpf_ld_imm64 insn"]) 22
          end
      | 122 => if (Insn.dst i =? 1) && r1 && (0 <=? Insn.off i) && (Insn.off i <=? 24) then walk k h t gpl is r0 r1 said
               else Reject (said ++ [txt "R1 invalid mem access"]) 13
      | _ => Reject (said ++ [txt "unknown opcode"]) 22
      end
  end.

Definition is_gpl (r : request) : bool := match at_off r 16 with Some (VStr l) => str_eqb l (txt "GPL") | _ => false end.
Definition verify (k : kern) (h : history) (r : request) : answer :=
  let t := num r 0 in
  if needs_target t && (num r 108 =? 0) then reject r [txt "Tracing programs must provide btf_id"; stats] 22
  else if needs_target t && negb (k_funcs k (num r 108)) then reject r [txt "attach_btf_id is not a function"; stats] 22
  else if t =? 28 then reject r [txt "Cannot replace kernel functions"; stats] 22
  else if (t =? 29) && negb ((num r 68 =? 27) || ((num r 68 =? 43) && k_lsm_cgroup k)) then reject r [stats] 22
  else if (t =? 26) && negb (num r 68 =? 24) then reject r [stats] 22
  else if t =? 27 then reject r [txt "attach_btf_id is not a supported struct"; stats] 524
  else if (t =? 31) && negb (num r 44 =? 16) then reject r [txt "Syscall programs can only be sleepable"; stats] 22
  else match at_off r 8 with
       | Some (VInsns is) =>
           match walk k h t (is_gpl r) (firstn (Z.to_nat (num r 4)) is) false false [] with
           | Accept => {| a_ret := Ok (k_fd k h); a_log := shown r [stats] |}
           | Reject lines e => reject r lines e
           end
       | _ => fail 14
       end.
Definition load (k : kern) (h : history) (r : request) : answer :=
  let t := num r 0 in
  if negb ((num r 44 =? 0) || ((num r 44 =? 16) && k_sleepable k)) then fail 22
  else if (t =? 2) && match k_version k with Some v => negb (num r 40 =? v) | None => false end then fail 22
  else if negb (k_prog k t) then fail 22
  else if negb (attach_ok t (num r 68)) then fail 22
  else if negb (num r 108 =? 0) && negb (needs_target t || (t =? 27)) then fail 22
  else match k_late k h 5 r with
       | Some e => fail e
       | None => verify k h r
       end.

(** bpf_raw_tracepoint_open for programs with a target of their own. *)
Definition open_tp (k : kern) (h : history) (r : request) : answer :=
  match open_as 5 h (num r 8) with
  | None => fail 9
  | Some p =>
      if (num p 0 =? 26) || ((num p 0 =? 29) && (num p 68 =? 27)) then
        if negb (num r 0 =? 0) then fail 22
        else match k_late k h 17 r with
             | Some e => fail e
             | None => if k_trampolines k then {| a_ret := Ok (k_fd k h); a_log := [] |} else fail 524
             end
      else fail 22
  end.
(** link_create, for perf events. *)
Definition link (k : kern) (h : history) (r : request) : answer :=
  match open_as 5 h (num r 0) with
  | None => fail 9
  | Some p =>
      if negb ((num r 8 =? 41) && k_perf_link k && ((num p 0 =? 5) || (num p 0 =? 2) || (num p 0 =? 7)) && (num r 12 =? 0)) then fail 22
      else match k_late k h 28 r with
           | Some e => fail e
           | None => if num r 4 <? 2 ^ 31 then {| a_ret := Ok (k_fd k h); a_log := [] |} else fail 9
           end
  end.
(** bpf_obj_get_info_by_fd: bytes of the caller's structure behind the
    kernel's must be zero. *)
Definition get_info (k : kern) (h : history) (r : request) : answer :=
  match open_as 5 h (num r 0), at_off r 8 with
  | None, _ => fail 9
  | Some _, Some (VBlob b) =>
      match k_late k h 15 r with
      | Some e => fail e
      | None => if existsb (fun c => negb (c =? 0)) (skipn (Z.to_nat (k_info k)) (firstn (Z.to_nat (num r 4)) b)) then fail 7
                else {| a_ret := Ok 0; a_log := [] |}
      end
  | Some _, _ => fail 14
  end.

(** * BTF *)

Definition w32 (b : list Z) (o : Z) : Z := le_dec (slice (Z.to_nat o) 4 b).
(** A type: name, kind, flag, number of items, size or type, and its items. *)
Record ktype := { y_name : Z; y_kind : Z; y_flag : bool; y_n : Z; y_third : Z; y_items : list Z }.
(** Words after the first three, by kind and number of items; kinds the probes
    do not use are left out. *)
Definition extra_words (kind n : Z) : option Z :=
  match kind with
  | 1 => Some 1 | 2 | 12 | 16 | 18 => Some 0 | 13 => Some (2 * n) | 14 | 17 => Some 1 | 15 | 19 => Some (3 * n) | _ => None
  end.
Fixpoint read_words (n : nat) (b : list Z) : list Z := match n with O => [] | S n => w32 b 0 :: read_words n (skipn 4 b) end.
Fixpoint read_ktypes (fuel : nat) (b : list Z) : option (list ktype) :=
  match fuel, b with
  | _, [] => Some []
  | O, _ => None
  | S fuel, _ =>
      if Z.of_nat (length b) <? 12 then None
      else
        let info := w32 b 4 in
        let kind := Z.land (Z.shiftr info 24) 31 in
        let n := Z.land info 65535 in
        match extra_words kind n with
        | None => None
        | Some m =>
            if Z.of_nat (length b) <? 12 + 4 * m then None
            else option_map (cons {| y_name := w32 b 0; y_kind := kind; y_flag := 2 ^ 31 <=? info; y_n := n; y_third := w32 b 8;
                                     y_items := read_words (Z.to_nat m) (skipn 12 b) |})
                   (read_ktypes fuel (skipn (Z.to_nat (12 + 4 * m)) b))
        end
  end.
Definition kind_at (ts : list ktype) (id : Z) : Z :=
  if id <=? 0 then 0 else match nth_error ts (Z.to_nat (id - 1)) with Some t => y_kind t | None => 0 end.
(** Strings of the string section; identifiers and names of sections. *)
Fixpoint upto (l : list Z) : list Z := match l with [] => [] | c :: l => if c =? 0 then [] else c :: upto l end.
Definition name_at (s : list Z) (o : Z) : list Z := upto (skipn (Z.to_nat o) s).
Definition letter (dots : bool) (c : Z) : bool :=
  ((97 <=? c) && (c <=? 122)) || ((65 <=? c) && (c <=? 90)) || (c =? 95) || (dots && (c =? 46)).
Definition word_name (dots : bool) (l : list Z) : bool :=
  match l with [] => false | c :: l => letter dots c && forallb (fun c => letter dots c || ((48 <=? c) && (c <=? 57))) l end.
Definition name_ok (dots : bool) (s : list Z) (o : Z) : bool := word_name dots (name_at s o).
Fixpoint groups3 (l : list Z) : list (Z * Z * Z) := match l with a :: b :: c :: l => (a, b, c) :: groups3 l | _ => [] end.
Fixpoint groups2 (l : list Z) : list (Z * Z) := match l with a :: b :: l => (a, b) :: groups2 l | _ => [] end.
(** The variables of a section in order, inside it and not overlapping. *)
Fixpoint entries_ok (ts : list ktype) (from size : Z) (es : list (Z * Z * Z)) : bool :=
  match es with
  | [] => true
  | (v, o, n) :: es => (kind_at ts v =? 14) && (from <=? o) && (0 <? n) && (o + n <=? size) && entries_ok ts (o + n) size es
  end.
Definition type_ok (feat : feature -> bool) (s : list Z) (ts : list ktype) (t : ktype) : bool :=
  (y_name t <? Z.of_nat (length s)) &&
  match y_kind t, y_items t with
  | 1, [d] => negb (y_flag t) && (y_n t =? 0) && (Z.land d 255 + Z.land (Z.shiftr d 16) 255 <=? 8 * y_third t) &&
              (8 * y_third t <=? 128) && existsb (Z.eqb (Z.land (Z.shiftr d 24) 15)) [0; 1; 2; 4]
  | 2, [] => negb (y_flag t) && (y_n t =? 0) && (y_name t =? 0) && (y_third t <=? Z.of_nat (length ts))
  | 12, [] => feat FFunc && negb (y_flag t) && name_ok false s (y_name t) && ((y_n t =? 0) || ((y_n t =? 1) && feat FFuncGlobal)) &&
              (kind_at ts (y_third t) =? 13)
  | 13, ps => feat FFunc && negb (y_flag t) && (y_name t =? 0) && (y_third t <=? Z.of_nat (length ts)) &&
              forallb (fun p => name_ok false s (fst p) && (0 <? snd p) && (snd p <=? Z.of_nat (length ts))) (groups2 ps)
  | 14, [linkage] => feat FDataSec && negb (y_flag t) && (y_n t =? 0) && name_ok false s (y_name t) && (kind_at ts (y_third t) =? 1) &&
                     ((linkage =? 0) || (linkage =? 1))
  | 15, es => feat FDataSec && negb (y_flag t) && name_ok true s (y_name t) && (0 <? y_third t) && (negb (y_n t =? 0) || feat FDataSecZero) &&
              entries_ok ts 0 (y_third t) (groups3 es)
  | 16, [] => feat FFloat && negb (y_flag t) && (y_n t =? 0) && existsb (Z.eqb (y_third t)) [2; 4; 8; 12; 16]
  | 17, [i] => feat FDeclTag && negb (y_flag t) && (y_n t =? 0) && negb (y_name t =? 0) && (kind_at ts (y_third t) =? 14) && (i =? 2 ^ 32 - 1)
  | 18, [] => feat FTypeTag && negb (y_flag t) && (y_n t =? 0) && negb (y_name t =? 0) && (0 <? y_third t) && (y_third t <=? Z.of_nat (length ts))
  | 19, vs => feat FEnum64 && existsb (Z.eqb (y_third t)) [1; 2; 4; 8] && name_ok false s (y_name t) &&
              forallb (fun v => name_ok false s (fst (fst v))) (groups3 vs)
  | _, _ => false
  end.
Definition btf_ok (feat : feature -> bool) (b : list Z) : bool :=
  let n := Z.of_nat (length b) in
  let types := slice 24 (Z.to_nat (w32 b 12)) b in
  let s := slice (Z.to_nat (24 + w32 b 16)) (Z.to_nat (w32 b 20)) b in
  (24 <=? n) && (w32 b 0 =? 60319 + 65536) && (w32 b 4 =? 24) && (w32 b 8 =? 0) && (w32 b 16 =? w32 b 12) &&
  (24 + w32 b 12 + w32 b 20 =? n) && (0 <? w32 b 20) && (hd 1 s =? 0) && (last s 1 =? 0) &&
  match read_ktypes (length types) types with
  | Some ts => (0 <? Z.of_nat (length ts)) && forallb (type_ok feat s ts) ts
  | None => false
  end.
Definition load_btf (k : kern) (h : history) (r : request) : answer :=
  match at_off r 0 with
  | Some (VBlob b) =>
      if negb (btf_ok (k_btf k) (firstn (Z.to_nat (num r 16)) b)) then fail 22
      else match k_late k h 18 r with
           | Some e => fail e
           | None => {| a_ret := Ok (k_fd k h); a_log := [] |}
           end
  | _ => fail 14
  end.

(** * The whole *)

Definition machine (k : kern) : kernel := fun h c r =>
  match k_early k h c r with
  | Some e => fail e
  | None =>
      if beyond r (k_attr k) then fail 7
      else if k_ends k c =? 0 then fail 22
      else if beyond r (k_ends k c) then fail 22
      else match c with
           | 0 => create k h r
           | 5 => load k h r
           | 15 => get_info k h r
           | 17 => open_tp k h r
           | 18 => load_btf k h r
           | 28 => link k h r
           | _ => fail 22
           end
  end.

(** Errors of the machine rather than answers to the question. *)
Definition plain_error (e : Z) : Prop := e <> 22 /\ e <> 7 /\ e <> 9 /\ e <> 524.
(** A line of the verifier's log, and one that says a helper cannot be used. *)
Definition line (l : list Z) : Prop := Forall (fun c => c <> 0 /\ c <> 10) l.
Definition says (p l : list Z) : Prop := exists a b, l = a ++ p ++ b.
Definition no_helper (l : list Z) : Prop :=
  says (txt "invalid func ") l \/ says (txt "unknown func ") l \/ says (txt "program of this type cannot use helper ") l.
Definition total (lines : list (list Z)) : Z := Z.of_nat (length (text lines)).

(** Kernels as they are: what a type or a command needs is there with it; the
    verifier says what it says about helpers only about helpers; and its log
    on two instructions is short. *)
Record sound_kern (k : kern) : Prop := {
  s_attr : forall c, k_ends k c <= k_attr k;
  s_map_end : 16 <= k_ends k 0;
  s_prog_end : 40 <= k_ends k 5;
  s_early : forall h c r e, k_early k h c r = Some e -> plain_error e;
  s_late : forall h c r e, k_late k h c r = Some e -> plain_error e;
  s_fd : forall h, 0 <= k_fd k h < 2 ^ 31;
  s_map_zero : k_map k 0 = false;
  s_hash : k_map k 1 = true;
  s_flags : k_map k 11 = true \/ k_map k 33 = true -> 20 <= k_ends k 0;
  s_inner : k_map k 12 = true \/ k_map k 13 = true -> 24 <= k_ends k 0;
  s_storage : forall t, storage t = true -> k_map k t = true -> 60 <= k_ends k 0;
  s_ops : k_map k 26 = true -> 64 <= k_ends k 0;
  s_values : forall t, k_prog_values k t = true -> k_map k t = true;
  s_page : 0 < k_page k < 2 ^ 32 /\ Z.land (k_page k) (k_page k - 1) = 0;
  s_prog_zero : k_prog k 0 = false;
  s_socket : k_prog k 1 = true;
  s_kprobe : k_prog k 2 = true -> 44 <= k_ends k 5;
  s_attach : forall t, In t [16; 18; 20; 21; 22; 23; 25; 26; 29; 30; 32] -> k_prog k t = true -> 72 <= k_ends k 5;
  s_target : k_prog k 26 = true \/ k_prog k 29 = true -> 112 <= k_ends k 5;
  s_syscall : k_prog k 31 = true -> 48 <= k_ends k 5 /\ k_sleepable k = true;
  s_lsm : k_lsm_cgroup k = true -> k_prog k 29 = true;
  s_tp : k_prog k 26 = true \/ k_prog k 29 = true -> 12 <= k_ends k 17;
  s_helper : forall t i, k_helper k t i = true -> k_prog k t = true;
  s_diag : forall t i, line (k_diag k t i) /\ no_helper (k_diag k t i) /\ Z.of_nat (length (k_diag k t i)) <= 1000;
  s_trace : forall i, Forall (fun l => line l /\ ~ no_helper l) (k_trace k i) /\ total (k_trace k i) <= 1000;
  s_array : k_map k 2 = true;
  s_perf_link : k_perf_link k = true -> k_prog k 5 = true /\ 16 <= k_ends k 28;
  s_btf_end : k_ends k 18 = 0 \/ 20 <= k_ends k 18;
  s_btf : forall f, k_btf k f = true -> k_ends k 18 <> 0;
  s_btf_global : k_btf k FFuncGlobal = true -> k_btf k FFunc = true;
  s_btf_zero : k_btf k FDataSecZero = true -> k_btf k FDataSec = true;
  s_btf_decl : k_btf k FDeclTag = true -> k_btf k FDataSec = true;
  s_info_end : k_ends k 15 = 0 \/ 16 <= k_ends k 15;
  s_info : k_info k mod 8 = 0 /\ 0 <= k_info k;
  s_info_known : 0 < k_info k -> k_ends k 15 <> 0;
  s_gpl : k_gpl k = true -> 88 <= k_info k
}.

(** A call failed for reasons of its own. *)
Definition trouble (k : kern) (c e : Z) : Prop := exists h r, k_early k h c r = Some e \/ k_late k h c r = Some e.
(** No call does; or only those making maps and programs, for lack of memory
    that may be locked, and the caller knows that the kernel counts it. *)
Definition quiet (k : kern) : Prop := forall h c r, k_early k h c r = None /\ k_late k h c r = None.
Definition memlock (k : kern) : Prop :=
  (forall h c r, k_early k h c r = None) /\
  (forall h c r e, k_late k h c r = Some e -> (c = 0 \/ c = 5) /\ e = 1 /\ ~ In Raise h).
Definition clean (E : env) (k : kern) : Prop := quiet k \/ (memlock k /\ e_old E = true).
(** The number in an error. *)
Definition os (e : perr) : option Z := match e with POs e | PCall _ e | PMap e => Some e | PType => None end.
(** The right answer, or the error of a call that failed for reasons of its
    own. *)
Definition settled (E : env) (k : kern) (right : bool) (r : res perr bool) : Prop :=
  r = Ok right \/ (~ clean E k /\ exists c e, trouble k c e /\ exists p, r = Err p /\ os p = Some e).

(** * What is supported *)

Definition map_supported (k : kern) (t : Z) : bool := k_map k t && (negb (t =? 33) || k_arena k).
Definition number (t : ptype) : Z :=
  match t with
  | PUnspecified => 0 | PSocketFilter => 1 | PKProbe => 2 | PSchedClassifier => 3 | PSchedAction => 4 | PTracePoint => 5 | PXdp => 6
  | PPerfEvent => 7 | PCgroupSkb => 8 | PCgroupSock => 9 | PLwtInput => 10 | PLwtOutput => 11 | PLwtXmit => 12 | PSockOps => 13
  | PSkSkb => 14 | PCgroupDevice => 15 | PSkMsg => 16 | PRawTracePoint => 17 | PCgroupSockAddr => 18 | PLwtSeg6local => 19
  | PLircMode2 => 20 | PSkReuseport => 21 | PFlowDissector => 22 | PCgroupSysctl => 23 | PRawTracePointWritable => 24
  | PCgroupSockopt => 25 | PTracing => 26 | PStructOps => 27 | PExtension => 28 | PLsm _ => 29 | PSkLookup => 30 | PSyscall => 31
  | PNetfilter => 32
  end.
(** Tracing and LSM programs need trampolines, those for cgroups their attach
    type. *)
Definition prog_supported (k : kern) (t : ptype) : bool :=
  k_prog k (number t) &&
  match t with
  | PTracing | PLsm true => k_trampolines k
  | PLsm false => k_lsm_cgroup k
  | _ => true
  end.
Definition helper_supported (k : kern) (t : ptype) (i : Z) : bool := k_helper k (number t) i.
Definition name_supported (k : kern) : bool := 64 <=? k_ends k 5.
Definition btf_supported (k : kern) : bool := negb (k_ends k 18 =? 0).
Definition map_ids_supported (k : kern) : bool := 56 <=? k_info k.
(** Kprobe programs name the version the kernel wants. *)
Definition version_known (E : env) (k : kern) : Prop := forall v, k_version k = Some v -> e_version E = Some v.
(** The ids found in the kernel's BTF are those of functions that may be
    attached to. *)
Definition ids_found (E : env) (k : kern) (name : list Z) : Prop := e_btf_id E name <> 0 /\ k_funcs k (e_btf_id E name) = true.

(** * Descriptors *)

Definition opened (h : history) : list Z :=
  concat (map (fun e => match e with Call c _ a => if c =? 15 then [] else match a_ret a with Ok fd => [fd] | Err _ => [] end | _ => [] end) h).
Definition closed (h : history) : list Z := concat (map (fun e => match e with Close fd => [fd] | _ => [] end) h).

(** * All the probes *)

(** The probes and their answers. *)
Inductive question :=
| QName | QPerfLink | QGlobal | QCpu | QDev | QBtf | QFeature (f : feature) | QHelper (t : ptype) (i : Z) | QProgram (t : ptype) | QMap (t : Z)
| QMapIds | QLicense.
Definition asked (E : env) (K : kernel) (q : question) : M (res perr bool) :=
  match q with
  | QName => probe_bpf_name E K | QPerfLink => probe_perf_link E K | QGlobal => probe_bpf_global_data E K
  | QCpu => is_cpumap_prog_id_supported E K | QDev => is_devmap_prog_id_supported E K | QBtf => probe_btf K
  | QFeature f => is_btf_feature_supported K f | QHelper t i => is_helper_supported E K t i | QProgram t => is_program_supported E K t
  | QMap t => is_map_supported E K t | QMapIds => is_prog_info_map_ids_supported E K | QLicense => is_prog_info_license_supported E K
  end.

(** Types of programs whose helpers can be asked for. *)
Definition helpers_known (t : ptype) : bool := match t with PTracing | PStructOps | PExtension | PLsm _ => false | _ => true end.
Definition right_answer (k : kern) (q : question) : bool :=
  match q with
  | QName => name_supported k | QPerfLink => k_perf_link k | QGlobal => k_global k | QCpu => k_prog_values k 16 | QDev => k_prog_values k 14
  | QBtf => btf_supported k | QFeature f => k_btf k f | QHelper t i => helper_supported k t i | QProgram t => prog_supported k t
  | QMap t => map_supported k t | QMapIds => map_ids_supported k | QLicense => k_gpl k
  end.
(** What a probe takes for granted. *)
Definition askable (E : env) (k : kern) (q : question) : Prop :=
  match q with
  | QGlobal => e_names E = true -> 44 <= k_ends k 0
  | QHelper t _ => helpers_known t = true /\ (t = PKProbe -> version_known E k)
  | QProgram PKProbe => version_known E k
  | QProgram PTracing => k_prog k 26 = true -> ids_found E k (txt "bpf_fentry_test1")
  | QProgram (PLsm _) => k_prog k 29 = true -> ids_found E k (txt "bpf_lsm_bpf")
  | QMap t => 0 <= t <= 33 /\ e_page E = k_page k /\ (t = 7 -> 0 < k_stack k) /\ (t = 33 -> k_map k 33 = true -> k_arena k = true)
  | QMapIds => k_ends k 15 <> 0
  | QLicense => k_ends k 15 <> 0 /\ (k_gpl k = false -> k_info k < 88)
  | _ => True
  end.
