(** Model of the feature probes: aya/src/sys/feature_probe.rs and the probes of
    aya/src/sys/bpf.rs.

    A probe is a sequence of calls of the kernel.  The kernel is a function of
    what happened so far, the command and the request, so that nothing is
    assumed about it here. *)
From Coq Require Import String.
From Verif Require Import Base Text TextSplit Insn BtfTypes BtfModel BtfSanitize LayoutModel LayoutDecls.
Import ListNotations.
Local Open Scope Z_scope.

(** * Requests *)

(** What a field of [bpf_attr] is set to: a number, bytes in place, or the
    address of a C string, of instructions, of bytes, of room for output. *)
Inductive val :=
| VNum (z : Z)
| VText (l : list Z)
| VStr (l : list Z)
| VInsns (l : list insn)
| VBlob (l : list Z)
| VRoom (n : Z).
(** The fields set, with offset and size; all other bytes of the structure are
    zero ([mem::zeroed]). *)
Definition request := list (Z * Z * val).
Definition set (path : list string) (v : val) : request :=
  match field path d_bpf_attr with Some (o, n) => [(o, n, v)] | None => [] end.

(** [bpf_cmd] of the bindings. *)
Definition MAP_CREATE := 0.
Definition PROG_LOAD := 5.
Definition GET_INFO := 15.
Definition RAW_TP_OPEN := 17.
Definition BTF_LOAD := 18.
Definition LINK_CREATE := 28.

Definition EPERM := 1.
Definition E2BIG := 7.
Definition EBADF := 9.
Definition ENOMEM := 12.
Definition EINVAL := 22.
Definition ENOTSUPP := 524.

(** A descriptor or an error number, and what was written to the room for the
    verifier's log. *)
Record answer := { a_ret : res Z Z; a_log : list Z }.
(** [Raise]: the limit of locked memory was lifted. *)
Inductive event := Call (c : Z) (r : request) (a : answer) | Close (fd : Z) | Raise.
(** Latest first. *)
Definition history := list event.
Definition kernel := history -> Z -> request -> answer.

Definition M (A : Type) := history -> A * history.
Definition ret {A} (x : A) : M A := fun h => (x, h).
Definition seq {A B} (m : M A) (f : A -> M B) : M B := fun h => let (x, h) := m h in f x h.
Definition close (fd : Z) : M unit := fun h => (tt, Close fd :: h).

(** The rest of the machine: whether the kernel is older than 5.11 and at least
    4.15 ([KernelVersion::at_least]), the size of pages, the kernel's version
    code if it can be found out, and the id of a function in the kernel's BTF,
    0 if it cannot be found. *)
Record env := { e_old : bool; e_names : bool; e_page : Z; e_version : option Z; e_btf_id : list Z -> Z }.

Section Probes.
Variable E : env.
Variable K : kernel.

Definition syscall (c : Z) (r : request) : M answer := fun h => let a := K h c r in (a, Call c r a :: h).

(** aya/src/sys/bpf.rs:935-997 [with_raised_rlimit_retry]; the limit is raised
    once in the life of the process. *)
Definition is_raise (e : event) : bool := match e with Raise => true | _ => false end.
Definition raise : M unit := fun h => (tt, if existsb is_raise h then h else Raise :: h).
Definition retried (errnos : list Z) (c : Z) (r : request) : M answer :=
  seq (syscall c r) (fun a =>
  match a_ret a with
  | Err e => if e_old E && existsb (Z.eqb e) errnos then seq raise (fun _ => syscall c r) else ret a
  | Ok _ => ret a
  end).
(** Lines 999-1005, 1448-1454, 526-533, 899-917 and 883-897. *)
Definition bpf_map_create : request -> M answer := retried [EPERM] MAP_CREATE.
Definition bpf_prog_load : request -> M answer := retried [EPERM] PROG_LOAD.
Definition bpf_link_create : request -> M answer := retried [EPERM; ENOMEM] LINK_CREATE.
Definition bpf_raw_tracepoint_open (fd : Z) : M answer :=
  syscall RAW_TP_OPEN (set ["raw_tracepoint"; "name"]%string (VNum 0) ++ set ["raw_tracepoint"; "prog_fd"]%string (VNum (u32 fd))).
Definition bpf_load_btf (b : list Z) : M answer :=
  syscall BTF_LOAD (set ["btf"]%string (VBlob b) ++ set ["btf_size"]%string (VNum (u32 (Z.of_nat (length b))))).

(** Errors: of a call by itself ([io::Error]), with the name of the call
    ([SyscallError]), while making a map ([MapError], turned into an
    [io::Error] without number), or the type of program cannot be probed. *)
Inductive perr := POs (e : Z) | PCall (call : list Z) (e : Z) | PMap (e : Z) | PType.

(** Lines 1020-1037; the descriptor is dropped. *)
Definition feature_probe_result (m : M answer) (unsupported : list Z) : M (res perr bool) :=
  seq m (fun a =>
  match a_ret a with
  | Ok fd => seq (close fd) (fun _ => ret (Ok true))
  | Err e => ret (if existsb (Z.eqb e) unsupported then Ok false else Err (POs e))
  end).

(** * Programs *)

(** aya/src/programs/info.rs:313-498 [ProgramType]; [PLsm mac]. *)
Inductive ptype :=
| PUnspecified | PSocketFilter | PKProbe | PSchedClassifier | PSchedAction | PTracePoint | PXdp | PPerfEvent | PCgroupSkb | PCgroupSock
| PLwtInput | PLwtOutput | PLwtXmit | PSockOps | PSkSkb | PCgroupDevice | PSkMsg | PRawTracePoint | PCgroupSockAddr | PLwtSeg6local
| PLircMode2 | PSkReuseport | PFlowDissector | PCgroupSysctl | PRawTracePointWritable | PCgroupSockopt | PTracing | PStructOps
| PExtension | PLsm (mac : bool) | PSkLookup | PSyscall | PNetfilter.
(** info.rs:500-538, with the numbers of the bindings. *)
Definition prog_type (t : ptype) : Z :=
  match t with
  | PUnspecified => 0 | PSocketFilter => 1 | PKProbe => 2 | PSchedClassifier => 3 | PSchedAction => 4 | PTracePoint => 5 | PXdp => 6
  | PPerfEvent => 7 | PCgroupSkb => 8 | PCgroupSock => 9 | PLwtInput => 10 | PLwtOutput => 11 | PLwtXmit => 12 | PSockOps => 13
  | PSkSkb => 14 | PCgroupDevice => 15 | PSkMsg => 16 | PRawTracePoint => 17 | PCgroupSockAddr => 18 | PLwtSeg6local => 19
  | PLircMode2 => 20 | PSkReuseport => 21 | PFlowDissector => 22 | PCgroupSysctl => 23 | PRawTracePointWritable => 24
  | PCgroupSockopt => 25 | PTracing => 26 | PStructOps => 27 | PExtension => 28 | PLsm _ => 29 | PSkLookup => 30 | PSyscall => 31
  | PNetfilter => 32
  end.
(** aya/src/sys/bpf.rs:1077-1122. *)
Definition attach_type (t : ptype) : option Z :=
  match t with
  | PSkMsg => Some 7
  | PCgroupSockAddr => Some 10
  | PLircMode2 => Some 16
  | PSkReuseport => Some 39
  | PFlowDissector => Some 17
  | PCgroupSysctl => Some 18
  | PCgroupSockopt => Some 21
  | PTracing => Some 24
  | PLsm true => Some 27
  | PLsm false => Some 43
  | PSkLookup => Some 36
  | PNetfilter => Some 45
  | _ => None
  end.
(** Lines 1064-1143 [with_prog_insns]. *)
Definition prog_request (t : ptype) (insns : list insn) : request :=
  set ["license"]%string (VStr (txt "GPL")) ++
  set ["insn_cnt"]%string (VNum (u32 (Z.of_nat (length insns)))) ++
  set ["insns"]%string (VInsns insns) ++
  match t with
  | PKProbe => match e_version E with Some v => set ["kern_version"]%string (VNum v) | None => [] end
  | PSyscall => set ["prog_flags"]%string (VNum 16)
  | _ => []
  end ++
  set ["prog_type"]%string (VNum (prog_type t)) ++
  match attach_type t with Some a => set ["expected_attach_type"]%string (VNum a) | None => [] end.

(** Lines 1054-1062. *)
Definition new_insn (code dst src off imm : Z) : insn :=
  {| Insn.code := code; Insn.dst := dst; Insn.src := src; Insn.off := off; Insn.imm := imm |}.
(** BPF_ALU64 | BPF_MOV | BPF_K and BPF_JMP | BPF_EXIT. *)
Definition MOV64 := 183.
Definition EXIT := 149.
(** Lines 1145-1154 [with_trivial_prog]. *)
Definition trivial : list insn := [new_insn MOV64 0 0 0 0; new_insn EXIT 0 0 0 0].

(** Lines 1039-1052; the name has 14 characters, the field room for 15 and the
    end. *)
Definition probe_bpf_name : M (res perr bool) :=
  feature_probe_result
    (bpf_prog_load (prog_request PSocketFilter trivial ++ set ["prog_name"]%string (VText (firstn 15 (txt "aya_name_check")))))
    [EINVAL; E2BIG].

(** Lines 1156-1184; the program is dropped at the end. *)
Definition probe_perf_link : M (res perr bool) :=
  seq (bpf_prog_load (prog_request PTracePoint trivial)) (fun a =>
  match a_ret a with
  | Err e => ret (if (e =? EINVAL) || (e =? E2BIG) then Ok false else Err (POs e))
  | Ok fd =>
      seq (bpf_link_create (set ["link_create"; "prog_fd"]%string (VNum (u32 fd)) ++
                            set ["link_create"; "target_ifindex"]%string (VNum (2 ^ 32 - 1)) ++
                            set ["link_create"; "attach_type"]%string (VNum 41) ++
                            set ["link_create"; "flags"]%string (VNum 0))) (fun a =>
      seq (match a_ret a with
           | Ok link => seq (close link) (fun _ => ret (Ok true))
           | Err e => ret (if e =? EBADF then Ok true else if e =? EINVAL then Ok false else Err (POs e))
           end) (fun r => seq (close fd) (fun _ => ret r)))
  end).

(** Lines 1186-1231 with maps/mod.rs:812-860 and sys/bpf.rs:54-128: the map has
    a name if the kernel is not older than 4.15. *)
Definition global_map : request :=
  set ["map_type"]%string (VNum 2) ++ set ["key_size"]%string (VNum 4) ++ set ["value_size"]%string (VNum 32) ++
  set ["max_entries"]%string (VNum 1) ++ set ["map_flags"]%string (VNum 0) ++ set ["map_extra"]%string (VNum 0) ++
  if e_names E then set ["map_name"]%string (VText (firstn 15 (txt "aya_global"))) else [].
Definition global_insns (fd : Z) : list insn :=
  [new_insn LDDW_CODE 1 BPF_PSEUDO_MAP_VALUE 0 fd; new_insn 0 0 0 0 0; new_insn 122 1 0 0 42; new_insn MOV64 0 0 0 0; new_insn EXIT 0 0 0 0].
Definition probe_bpf_global_data : M (res perr bool) :=
  seq (bpf_map_create global_map) (fun a =>
  match a_ret a with
  | Err e => ret (Err (PMap e))
  | Ok fd =>
      seq (feature_probe_result
             (bpf_prog_load
                (set ["license"]%string (VStr (txt "GPL")) ++ set ["insn_cnt"]%string (VNum 5) ++
                 set ["insns"]%string (VInsns (global_insns fd)) ++ set ["prog_type"]%string (VNum 1)))
             [EINVAL; E2BIG])
          (fun r => seq (close fd) (fun _ => ret r))
  end).

(** Lines 1234-1252; the assertion holds for the two callers
    (feature_probe.rs:84-97). *)
Definition probe_prog_id (map_type : Z) : M (res perr bool) :=
  feature_probe_result
    (bpf_map_create
       (set ["map_type"]%string (VNum map_type) ++ set ["key_size"]%string (VNum 4) ++ set ["value_size"]%string (VNum 8) ++
        set ["max_entries"]%string (VNum 1) ++ set ["map_flags"]%string (VNum 0)))
    [EINVAL].
Definition is_cpumap_prog_id_supported := probe_prog_id 16.
Definition is_devmap_prog_id_supported := probe_prog_id 14.

(** * BTF *)

Definition int_type (name : Z) : btype := new_int name 4 1 0.
(** Lines 1254-1264. *)
Definition btf_plain : btf :=
  let (b, n) := add_string btf_new (txt "int") in fst (add_type b (int_type n)).
(** Lines 1266-1330. *)
Definition btf_func (linkage : Z) : btf :=
  let (b, n) := add_string btf_new (txt "int") in
  let (b, int_id) := add_type b (int_type n) in
  let (b, x) := add_string b (txt "a") in
  let (b, y) := add_string b (txt "b") in
  let (b, proto) := add_type b (new_func_proto [(x, int_id); (y, int_id)] int_id) in
  let (b, n) := add_string b (txt "inc") in
  fst (add_type b (new_func n proto linkage)).
(** Lines 1332-1357. *)
Definition btf_datasec : btf :=
  let (b, n) := add_string btf_new (txt "int") in
  let (b, int_id) := add_type b (int_type n) in
  let (b, n) := add_string b (txt "foo") in
  let (b, var) := add_type b (new_var n int_id 0) in
  let (b, n) := add_string b (txt ".data") in
  fst (add_type b (new_datasec n [{| de_type := var; de_off := 0; de_size := 4 |}] 4)).
(** Lines 1359-1371. *)
Definition btf_datasec_zero : btf :=
  let (b, n) := add_string btf_new (txt ".empty") in fst (add_type b (new_datasec n [] 4)).
(** Lines 1373-1390. *)
Definition btf_enum64 : btf :=
  let (b, n) := add_string btf_new (txt "enum64") in
  let (b, x) := add_string b (txt "a") in
  fst (add_type b (new_enum64 n true [(x, 1, 0)])).
(** Lines 1392-1404. *)
Definition btf_float : btf :=
  let (b, n) := add_string btf_new (txt "float") in fst (add_type b (new_float n 16)).
(** Lines 1406-1426. *)
Definition btf_decl_tag : btf :=
  let (b, n) := add_string btf_new (txt "int") in
  let (b, int_id) := add_type b (int_type n) in
  let (b, n) := add_string b (txt "foo") in
  let (b, var) := add_type b (new_var n int_id 0) in
  let (b, n) := add_string b (txt "decl_tag") in
  fst (add_type b (new_decl_tag n var (u32 (-1)))).
(** Lines 1428-1446. *)
Definition btf_type_tag : btf :=
  let (b, int_id) := add_type btf_new (int_type 0) in
  let (b, n) := add_string b (txt "int") in
  let (b, tag) := add_type b (new_typetag n int_id) in
  fst (add_type b (new_ptr 0 tag)).

Definition load_probe (b : btf) : M (res perr bool) := feature_probe_result (bpf_load_btf (btf_to_bytes b)) [EINVAL].
Definition probe_btf : M (res perr bool) := load_probe btf_plain.
(** aya/src/sys/feature_probe.rs:125-136. *)
Definition is_btf_feature_supported (f : feature) : M (res perr bool) :=
  load_probe (match f with
              | FFunc => btf_func 0
              | FFuncGlobal => btf_func 1
              | FDataSec => btf_datasec
              | FDataSecZero => btf_datasec_zero
              | FFloat => btf_float
              | FDeclTag => btf_decl_tag
              | FTypeTag => btf_type_tag
              | FEnum64 => btf_enum64
              end).

(** * Helpers *)

(** A buffer of zeros after the kernel wrote to it. *)
Definition buffer (n : nat) (log : list Z) : list Z := firstn n (log ++ repeat 0 n).
(** [CStr::from_bytes_until_nul], or all if there is no zero. *)
Definition cut (l : list Z) : list Z := match until_nul l with Some s => s | None => l end.
(** Some window of the text is the pattern. *)
Fixpoint contains (p l : list Z) : bool :=
  starts_with p l || match l with [] => false | _ :: l => contains p l end.
Definition diagnostics : list (list Z) := [txt "invalid func "; txt "unknown func "; txt "program of this type cannot use helper "].

Definition log_fields (n : Z) : request :=
  set ["log_buf"]%string (VRoom n) ++ set ["log_level"]%string (VNum 1) ++ set ["log_size"]%string (VNum n).

(** aya/src/sys/feature_probe.rs:168-248. *)
Definition is_helper_supported (t : ptype) (helper : Z) : M (res perr bool) :=
  match t with
  | PUnspecified => ret (Ok false)
  | PTracing | PExtension | PLsm _ | PStructOps => ret (Err PType)
  | _ =>
      seq (bpf_prog_load (prog_request t [new_insn CALL_CODE 0 0 0 helper; new_insn EXIT 0 0 0 0] ++ log_fields 4096)) (fun a =>
      match a_ret a with
      | Ok fd => seq (close fd) (fun _ => ret (Ok true))
      | Err e =>
          let log := cut (buffer (Z.to_nat 4096) (a_log a)) in
          ret (match log with
               | [] => if (e =? EINVAL) || (e =? E2BIG) then Ok false else Err (PCall (txt "bpf_prog_load") e)
               | _ => if existsb (fun d => contains d log) diagnostics then Ok false else Ok true
               end)
      end)
  end.

(** * Program types *)

Definition logged (t : ptype) : bool := match t with PTracing | PExtension | PLsm _ => true | _ => false end.
(** Lines 290-313. *)
Definition target (t : ptype) : request :=
  match t with
  | PTracing => set ["attach_btf_id"]%string (VNum (e_btf_id E (txt "bpf_fentry_test1")))
  | PLsm _ => set ["attach_btf_id"]%string (VNum (e_btf_id E (txt "bpf_lsm_bpf")))
  | _ => []
  end.
(** Lines 269-412. *)
Definition is_program_supported (t : ptype) : M (res perr bool) :=
  match t with
  | PUnspecified => ret (Ok false)
  | _ =>
      seq (bpf_prog_load (prog_request t trivial ++ target t ++ if logged t then log_fields 256 else [])) (fun a =>
      match a_ret a with
      | Err e =>
          ret (if e =? EINVAL then
                 Ok (logged t && starts_with (txt "Tracing programs must provide btf_id") (buffer 256 (a_log a)))
               else if e =? E2BIG then Ok false
               else if (e =? ENOTSUPP) && (match t with PStructOps => true | _ => false end) then Ok true
               else Err (PCall (txt "bpf_prog_load") e))
      | Ok fd =>
          match t with
          | PTracing | PLsm true =>
              seq (bpf_raw_tracepoint_open fd) (fun a =>
              seq (match a_ret a with
                   | Ok link => seq (close link) (fun _ => ret (Ok true))
                   | Err e => ret (if e =? ENOTSUPP then Ok false else Err (PCall (txt "bpf_raw_tracepoint_open") e))
                   end) (fun r => seq (close fd) (fun _ => ret r)))
          | _ => seq (close fd) (fun _ => ret (Ok true))
          end
      end)
  end.

(** * Map types *)

(** aya/src/maps/info.rs:168-388 [MapType], by the numbers of the bindings;
    feature_probe.rs:435-492: key size, value size, entries. *)
Definition map_shape (t : Z) : option (Z * Z * Z) :=
  match t with
  | 1 | 5 | 9 | 10 => Some (1, 1, 1)
  | 2 | 6 => Some (4, 1, 1)
  | 3 | 4 | 8 | 12 | 14 | 15 | 16 | 17 | 20 | 25 => Some (4, 4, 1)
  | 7 => Some (4, 8, 1)
  | 11 => Some (8, 1, 1)
  | 13 | 18 => Some (1, 4, 1)
  | 19 | 21 => Some (16, 1, 0)
  | 22 | 23 | 30 => Some (0, 1, 1)
  | 24 | 28 | 29 | 32 => Some (4, 1, 0)
  | 26 => Some (4, 0, 1)
  | 27 | 31 => Some (0, 0, u32 (e_page E))
  | 33 => Some (0, 0, 1)
  | _ => None
  end.
Definition shape_fields (t : Z) (s : Z * Z * Z) : request :=
  set ["map_type"]%string (VNum t) ++ set ["key_size"]%string (VNum (fst (fst s))) ++ set ["value_size"]%string (VNum (snd (fst s))) ++
  set ["max_entries"]%string (VNum (snd s)).
Definition is_storage (t : Z) : bool := (t =? 24) || (t =? 28) || (t =? 29) || (t =? 32).
Definition is_of_maps (t : Z) : bool := (t =? 12) || (t =? 13).
(** Lines 508-546, without the maps of maps. *)
Definition map_extras (t : Z) : request :=
  if t =? 11 then set ["map_flags"]%string (VNum 1)
  else if is_storage t then
    set ["map_flags"]%string (VNum 1) ++ set ["btf_fd"]%string (VNum (2 ^ 32 - 1)) ++ set ["btf_key_type_id"]%string (VNum 1) ++
    set ["btf_value_type_id"]%string (VNum 1)
  else if t =? 26 then set ["btf_vmlinux_value_type_id"]%string (VNum 1)
  else if t =? 33 then set ["map_flags"]%string (VNum 1024)
  else [].
(** Lines 548-599. *)
Definition map_result (t : Z) (a : answer) : M (res perr bool) :=
  match a_ret a with
  | Ok fd => seq (close fd) (fun _ => ret (Ok true))
  | Err e =>
      ret (if e =? EINVAL then Ok false
           else if (e =? E2BIG) && (is_storage t || (t =? 26)) then Ok false
           else if (e =? EBADF) && is_storage t then Ok true
           else if (e =? ENOTSUPP) && (t =? 26) then Ok true
           else Err (PCall (txt "bpf_map_create") e))
  end.
(** Lines 432-600; anything but the types above is [MapType::Unspecified]. *)
Definition is_map_supported (t : Z) : M (res perr bool) :=
  match map_shape t with
  | None => ret (Ok false)
  | Some s =>
      if is_of_maps t then
        seq (bpf_map_create (shape_fields 1 (1, 1, 1))) (fun a =>
        match a_ret a with
        | Err e => ret (Err (PCall (txt "bpf_map_create") e))
        | Ok inner =>
            seq (bpf_map_create (shape_fields t s ++ set ["inner_map_fd"]%string (VNum (u32 inner)))) (fun a =>
            seq (map_result t a) (fun r => seq (close inner) (fun _ => ret r)))
        end)
      else seq (bpf_map_create (shape_fields t s ++ map_extras t)) (map_result t)
  end.

(** * Program information *)

(** A field of a zeroed [bpf_prog_info] set to a number. *)
Definition info_with (path : list string) (v : Z) : list Z :=
  match field path d_bpf_prog_info with
  | Some (o, n) => splice (Z.to_nat o) (le_enc (Z.to_nat n) v) (repeat 0 (Z.to_nat (size d_bpf_prog_info)))
  | None => []
  end.
(** Lines 602-661; the bit [gpl_compatible] is the lowest of the bit field. *)
Definition probe_prog_info (info : list Z) : M (res perr bool) :=
  seq (bpf_prog_load (prog_request PSocketFilter trivial)) (fun a =>
  match a_ret a with
  | Err e => ret (Err (PCall (txt "bpf_prog_load") e))
  | Ok fd =>
      seq (syscall GET_INFO (set ["info"; "bpf_fd"]%string (VNum (u32 fd)) ++
                             set ["info"; "info_len"]%string (VNum (u32 (Z.of_nat (length info)))) ++
                             set ["info"; "info"]%string (VBlob info))) (fun a =>
      seq (close fd) (fun _ =>
      ret (match a_ret a with
           | Ok _ => Ok true
           | Err e => if e =? E2BIG then Ok false else Err (PCall (txt "bpf_obj_get_info_by_fd") e)
           end)))
  end).
Definition is_prog_info_map_ids_supported := probe_prog_info (info_with ["nr_map_ids"]%string 1).
Definition is_prog_info_license_supported := probe_prog_info (info_with ["_bitfield_1"]%string 1).
End Probes.
