(** Model of object parsing: /repo/aya-obj/src/obj.rs and maps.rs.

    Simplifications: the ELF reader (crate [object]) is not modelled, its
    sections and symbols are inputs; hash maps are lists, the ones the code
    iterates over are given in iteration order; records are read in
    little-endian byte order, the one of the machine; names are byte lists.
    Slicing out of bounds is [OPanic], reading a value an enum does not have
    is [OUndefined]. *)
From Coq Require Import String.
From Verif Require Import Base Text Insn LinkModel BtfTypes BtfModel.
Local Open Scope Z_scope.

Inductive oerr :=
| OPanic | OUndefined | OLicense | OLicenseNul | OVersion | OProgramSection | OCode | OMapDef | OConflict
| OUnknownSymbol | OInvalidSymbol | OGlobal | OSymbolNotFound | OMapNotFound | ONoSymbols | OMapName | ONoBtf
| OBtf (e : berr) | OUnexpected | OInnerPinned | OMultiLevel | OValues.
Definition liftb {A} (r : res berr A) : res oerr A := match r with Ok a => Ok a | Err e => Err (OBtf e) end.

(** [str::starts_with]. *)
Fixpoint starts (p s : list Z) : bool :=
  match p, s with
  | [], _ => true
  | x :: p, y :: s => (x =? y) && starts p s
  | _ :: _, [] => false
  end.

(** [EbpfSectionKind], obj.rs:985-1014, [from_name] 1016-1040 and the choice
    in [Section::try_from] 1063-1072; [exec] is [kind() == SectionKind::Text]. *)
Inductive skind := KUndefined | KMaps | KBtfMaps | KProgram | KDataS | KRodata | KBss | KTextS | KBtf | KBtfExt | KLicense | KVersion.
Definition from_name (n : list Z) : skind :=
  if starts (txt "license") n then KLicense
  else if starts (txt "version") n then KVersion
  else if starts (txt "maps") n then KMaps
  else if starts (txt ".maps") n then KBtfMaps
  else if starts (txt ".text") n then KTextS
  else if starts (txt ".bss") n then KBss
  else if starts (txt ".data") n then KDataS
  else if starts (txt ".rodata") n then KRodata
  else if str_eqb n (txt ".BTF") then KBtf
  else if str_eqb n (txt ".BTF.ext") then KBtfExt
  else KUndefined.
Definition section_kind (n : list Z) (exec : bool) (size : Z) : skind :=
  match from_name n with
  | KUndefined => if exec && (0 <? size) then KProgram else KUndefined
  | k => k
  end.

(** [parse_license], 1098-1114; the result is without the terminator. *)
Fixpoint cstr (d : list Z) : res oerr (list Z) :=
  match d with
  | [] => Err OLicenseNul
  | [x] => if x =? 0 then Ok [] else Err OLicenseNul
  | x :: r => if x =? 0 then Err OLicense else bind (cstr r) (fun s => Ok (x :: s))
  end.
Definition parse_license (d : list Z) : res oerr (list Z) :=
  if (length d <? 2)%nat then Err OLicense else cstr d.

(** [parse_version], 1116-1132. *)
Definition KERNEL_VERSION_ANY : Z := 4294967294.
Definition parse_version (be : bool) (d : list Z) : res oerr (option Z) :=
  if (length d =? 4)%nat then
    let v := le_dec (if be then rev d else d) in
    Ok (if v =? KERNEL_VERSION_ANY then None else Some v)
  else Err OVersion.

(** [ProgramSection], 119-202, and [from_str] 204-406.  Attach types of the
    cgroup socket kinds are numbered in the order of the match. *)
Inductive psec :=
| PKProbe | PKRetProbe | PUProbe (sleepable multi : bool) | PURetProbe (sleepable multi : bool)
| PXdp (frags : bool) (at_ : Z) | PTpBtf | PTracePoint | PSocket | PSkMsg | PSkSkb (verdict : bool) | PSockOps
| PClassifier | PCgroupSkb (at_ : option bool) | PCgroupSysctl | PCgroupDevice | PCgroupSockopt (set : bool)
| PCgroupSock (at_ : Z) | PCgroupSockAddr (at_ : Z) | PLirc | PPerfEvent | PRawTp | PLsm (sleepable : bool) | PLsmCgroup
| PFEntry (sleepable : bool) | PFExit (sleepable : bool) | PFlowDissector | PExtension | PSkLookup
| PSkReuseport (migrate : bool) | PIter (sleepable : bool).
(** [split('/')]. *)
Fixpoint split_slash (s : list Z) : list (list Z) :=
  match s with
  | [] => [[]]
  | x :: r =>
      if x =? 47 then [] :: split_slash r
      else match split_slash r with p :: ps => (x :: p) :: ps | [] => [[x]] end
  end.
Definition second (l : list (list Z)) : option (list Z) := nth_error l 1.
Definition lookup_str {A} (tab : list (list Z * A)) (s : list Z) : option A := assoc str_eqb s tab.
(** Kinds decided by the first component. *)
Definition simple_kinds : list (list Z * psec) :=
  [(txt "kprobe", PKProbe); (txt "kretprobe", PKRetProbe);
   (txt "uprobe", PUProbe false false); (txt "uprobe.s", PUProbe true false);
   (txt "uprobe.multi", PUProbe false true); (txt "uprobe.multi.s", PUProbe true true);
   (txt "uretprobe", PURetProbe false false); (txt "uretprobe.s", PURetProbe true false);
   (txt "uretprobe.multi", PURetProbe false true); (txt "uretprobe.multi.s", PURetProbe true true);
   (txt "tp_btf", PTpBtf); (txt "tracepoint", PTracePoint); (txt "tp", PTracePoint); (txt "socket", PSocket);
   (txt "sk_msg", PSkMsg); (txt "sockops", PSockOps); (txt "classifier", PClassifier); (txt "lirc_mode2", PLirc);
   (txt "perf_event", PPerfEvent); (txt "raw_tp", PRawTp); (txt "raw_tracepoint", PRawTp); (txt "lsm", PLsm false);
   (txt "lsm.s", PLsm true); (txt "lsm_cgroup", PLsmCgroup); (txt "fentry", PFEntry false); (txt "fentry.s", PFEntry true);
   (txt "fexit", PFExit false); (txt "fexit.s", PFExit true); (txt "flow_dissector", PFlowDissector);
   (txt "freplace", PExtension); (txt "sk_lookup", PSkLookup); (txt "iter", PIter false); (txt "iter.s", PIter true)].
Definition cgroup_kinds : list (list Z * psec) :=
  [(txt "skb", PCgroupSkb None); (txt "sysctl", PCgroupSysctl); (txt "dev", PCgroupDevice);
   (txt "getsockopt", PCgroupSockopt false); (txt "setsockopt", PCgroupSockopt true);
   (txt "sock", PCgroupSock 0); (txt "post_bind4", PCgroupSock 1); (txt "post_bind6", PCgroupSock 2);
   (txt "sock_create", PCgroupSock 0); (txt "sock_release", PCgroupSock 3);
   (txt "bind4", PCgroupSockAddr 0); (txt "bind6", PCgroupSockAddr 1); (txt "connect4", PCgroupSockAddr 2);
   (txt "connect6", PCgroupSockAddr 3); (txt "getpeername4", PCgroupSockAddr 4); (txt "getpeername6", PCgroupSockAddr 5);
   (txt "getsockname4", PCgroupSockAddr 6); (txt "getsockname6", PCgroupSockAddr 7); (txt "sendmsg4", PCgroupSockAddr 8);
   (txt "sendmsg6", PCgroupSockAddr 9); (txt "recvmsg4", PCgroupSockAddr 10); (txt "recvmsg6", PCgroupSockAddr 11)].
Definition need (o : option psec) : res oerr psec := match o with Some p => Ok p | None => Err OProgramSection end.
Definition sub (tab : list (list Z * psec)) (ps : list (list Z)) : res oerr psec :=
  need (match second ps with Some n => lookup_str tab n | None => None end).
Definition parse_psec (s : list Z) : res oerr psec :=
  let ps := split_slash s in
  match ps with
  | [] => Err OProgramSection
  | k :: _ =>
      if str_eqb k (txt "xdp") || str_eqb k (txt "xdp.frags") then
        let f := str_eqb k (txt "xdp.frags") in
        match second ps with
        | None => Ok (PXdp f 0)
        | Some n => if str_eqb n (txt "cpumap") then Ok (PXdp f 1)
                    else if str_eqb n (txt "devmap") then Ok (PXdp f 2) else Err OProgramSection
        end
      else if str_eqb k (txt "sk_skb") then
        sub [(txt "stream_parser", PSkSkb false); (txt "stream_verdict", PSkSkb true)] ps
      else if str_eqb k (txt "cgroup_skb") then
        sub [(txt "ingress", PCgroupSkb (Some false)); (txt "egress", PCgroupSkb (Some true))] ps
      else if str_eqb k (txt "cgroup") then sub cgroup_kinds ps
      else if str_eqb k (txt "sk_reuseport") then
        match second ps with
        | None => Ok (PSkReuseport false)
        | Some n => if str_eqb n (txt "migrate") then Ok (PSkReuseport true) else Err OProgramSection
        end
      else need (lookup_str simple_kinds k)
  end.

(** One instruction in memory, [bpf_insn]: code, register nibbles, 16-bit
    offset, 32-bit immediate; [copy_instructions] 1415-1424. *)
Definition dec_insn (d : list Z) : insn :=
  let g := nth 1 d 0 in
  {| code := nth 0 d 0; dst := Z.land g 15; src := Z.shiftr g 4;
     off := i16 (le_dec (slice 2 2 d)); imm := i32 (le_dec (slice 4 4 d)) |}.
Fixpoint dec_insns (n : nat) (d : list Z) : list insn :=
  match n with
  | O => []
  | S n => dec_insn (firstn 8 d) :: dec_insns n (skipn 8 d)
  end.
Definition copy_instructions (d : list Z) : res oerr (list insn) :=
  if Nat.eqb (length d mod 8) 0 then Ok (dec_insns (length d / 8) d) else Err OCode.

(** A section as the ELF reader gives it, [Section] 1042-1051. *)
Record osec := {
  os_index : nat; os_name : list Z; os_exec : bool; os_address : Z; os_data : list Z; os_size : Z;
  os_relocs : list reloc }.
(** Function and line records by section name ([BtfExt], modelled in BtfExt.v). *)
Record tables := { tb_func : list Z -> list (Z * Z); tb_line : list Z -> list (Z * Z) }.

(** [parse_text_section], 639-708.  [syms] lists the symbol table in iteration
    order with indices. *)
Definition text_sym (sec : nat) (s : symbol) : bool :=
  s_def s && symkind_eqb (s_kind s) KText && match s_section s with Some i => Nat.eqb i sec | None => false end.
Fixpoint by_address (sec : nat) (syms : list (nat * symbol)) (acc : list (Z * symbol)) : res oerr (list (Z * symbol)) :=
  match syms with
  | [] => Ok acc
  | (_, s) :: syms =>
      if text_sym sec s then
        match assoc Z.eqb (s_address s) acc with
        | Some _ => Err OConflict
        | None => by_address sec syms ((s_address s, s) :: acc)
        end
      else by_address sec syms acc
  end.
(** [&data[off..off + size]]. *)
Definition cut (d : list Z) (off size : Z) : res oerr (list Z) :=
  if (0 <=? off) && (off + size <=? Z.of_nat (length d)) then Ok (slice (Z.to_nat off) (Z.to_nat size) d) else Err OPanic.
Fixpoint text_loop (fuel : nat) (t : tables) (sec : osec) (addrs : list (Z * symbol)) (off : Z) : res oerr (list (name * func)) :=
  if Z.of_nat (length (os_data sec)) <=? off then Ok []
  else
    match fuel with
    | O => Err OPanic
    | S fuel =>
        let address := u64 (os_address sec + off) in
        match assoc Z.eqb address addrs with
        | None => Err OUnknownSymbol
        | Some s =>
            if s_size s =? 0 then Err OInvalidSymbol
            else
              bind (cut (os_data sec) off (s_size s)) (fun d =>
              match s_name s with
              | None => Err OPanic
              | Some n =>
                  bind (copy_instructions d) (fun ins =>
                  bind (text_loop fuel t sec addrs (off + s_size s)) (fun r =>
                  Ok ((n, {| f_sec := os_index sec; f_addr := address; f_secoff := off; f_ins := ins;
                             f_finfo := pick_finfo (tb_func t (os_name sec)) off false;
                             f_linfo := pick_linfo (tb_line t (os_name sec)) off (s_size s) false |}) :: r)))
              end)
        end
    end.
Definition parse_text (t : tables) (syms : list (nat * symbol)) (sec : osec) : res oerr (list (name * func)) :=
  bind (by_address (os_index sec) syms []) (fun addrs =>
  text_loop (length (os_data sec)) t sec addrs 0).

(** [parse_programs] and [parse_program], 573-637.  [syms] are the symbols of
    the section; the instruction records are relative to the section address,
    the bytes are cut at the symbol address. *)
Record program := { pg_name : name; pg_sec : psec; pg_index : nat; pg_addr : Z }.
Definition program_sym (s : symbol) : option name :=
  match s_name s with
  | Some (x :: n) => if symkind_eqb (s_kind s) KText then Some (x :: n) else None
  | _ => None
  end.
Fixpoint program_loop (t : tables) (sec : osec) (p : psec) (syms : list symbol) : res oerr (list (program * func)) :=
  match syms with
  | [] => Ok []
  | s :: syms =>
      match program_sym s with
      | None => program_loop t sec p syms
      | Some n =>
          let o := u64 (s_address s - os_address sec) in
          let e := u64 (s_address s + s_size s) in
          bind (if s_address s <=? e then cut (os_data sec) (s_address s) (e - s_address s) else Err OPanic) (fun d =>
          bind (copy_instructions d) (fun ins =>
          bind (program_loop t sec p syms) (fun r =>
          Ok (({| pg_name := n; pg_sec := p; pg_index := os_index sec; pg_addr := s_address s |},
               {| f_sec := os_index sec; f_addr := s_address s; f_secoff := s_address s; f_ins := ins;
                  f_finfo := pick_finfo (tb_func t (os_name sec)) o true;
                  f_linfo := pick_linfo (tb_line t (os_name sec)) o (s_size s) true |}) :: r))))
      end
  end.
Definition parse_programs (t : tables) (syms : option (list symbol)) (sec : osec) : res oerr (list (program * func)) :=
  bind (parse_psec (os_name sec)) (fun p =>
  match syms with
  | None => Err ONoSymbols
  | Some syms => program_loop t sec p syms
  end).

(** [bpf_map_def], maps.rs:109-127, and [BtfMapDef] 61-77 share one record;
    legacy maps have no extra word and no type ids. *)
Record mapdef := {
  md_type : Z; md_key : Z; md_value : Z; md_entries : Z; md_flags : Z; md_extra : Z; md_pin : Z;
  md_key_id : Z; md_value_id : Z; md_id : Z }.
Definition mapdef0 : mapdef :=
  {| md_type := 0; md_key := 0; md_value := 0; md_entries := 0; md_flags := 0; md_extra := 0; md_pin := 0;
     md_key_id := 0; md_value_id := 0; md_id := 0 |}.

(** [parse_map_def], 1205-1222.  [PinningType] has the values 0 and 1; any
    other word is read into it unchecked. *)
Definition word (d : list Z) (i : nat) : Z := le_dec (slice (4 * i) 4 d).
Definition read_map_def (d : list Z) : res oerr mapdef :=
  let pin := word d 6 in
  if (pin =? 0) || (pin =? 1) then
    Ok {| md_type := word d 0; md_key := word d 1; md_value := word d 2; md_entries := word d 3;
          md_flags := word d 4; md_extra := 0; md_pin := pin; md_key_id := 0; md_value_id := 0; md_id := word d 5 |}
  else Err OUndefined.
Definition parse_map_def (d : list Z) : res oerr mapdef :=
  if (length d <? 20)%nat then Err OMapDef
  else if (length d <? 28)%nat then read_map_def (d ++ repeat 0 (28 - length d))
  else read_map_def d.

(** [Map], maps.rs:138-143. *)
Record omap := { om_btf : bool; om_kind : skind; om_section : nat; om_symbol : option nat; om_def : mapdef;
                 om_inner : option mapdef; om_data : list Z }.

(** [parse_maps_section], 760-803; [syms] the indexed symbols of the section.
    Result in the order of insertion. *)
Fixpoint maps_loop (sec : osec) (k : skind) (syms : list (nat * symbol)) : res oerr (list (name * omap)) :=
  match syms with
  | [] => Ok []
  | (i, s) :: syms =>
      bind (cut (os_data sec) (s_address s) (s_size s)) (fun d =>
      match s_name s with
      | None => Err OMapName
      | Some n =>
          bind (parse_map_def d) (fun def =>
          bind (maps_loop sec k syms) (fun r =>
          Ok ((n, {| om_btf := false; om_kind := k; om_section := os_index sec; om_symbol := Some i; om_def := def;
                     om_inner := None; om_data := [] |}) :: r)))
      end)
  end.
Definition parse_maps (sec : osec) (k : skind) (syms : list (nat * symbol)) : res oerr (list (name * omap)) :=
  match syms with
  | [] => Err ONoSymbols
  | _ => maps_loop sec k syms
  end.

(** [parse_data_map_section], 1159-1203; BPF_F_RDONLY_PROG = 128, array = 2. *)
Definition data_map (sec : osec) (k : skind) : res oerr omap :=
  let def flags := {| md_type := 2; md_key := 4; md_value := u32 (os_size sec); md_entries := 1; md_flags := flags;
                      md_extra := 0; md_pin := 0; md_key_id := 0; md_value_id := 0; md_id := 0 |} in
  let mk d data := Ok {| om_btf := false; om_kind := k; om_section := os_index sec; om_symbol := None; om_def := d;
                         om_inner := None; om_data := data |} in
  match k with
  | KDataS => mk (def 0) (os_data sec)
  | KRodata => mk (def 128) (os_data sec)
  | KBss => mk (def 0) (repeat 0 (Z.to_nat (os_size sec)))
  | _ => Err OPanic
  end.

(** [get_map_field], 1137-1155. *)
Definition get_map_field (b : btf) (id : Z) : res oerr Z :=
  bind (liftb (type_by_id (b_types b) id)) (fun t =>
  match t with
  | TPtr h =>
      bind (liftb (type_by_id (b_types b) (h_third h))) (fun a =>
      match a with TArray _ _ _ len => Ok len | _ => Err OUnexpected end)
  | _ => Err OUnexpected
  end).

(** Size and id behind the pointer of a [key] or [value] field. *)
Definition pointee (b : btf) (id : Z) : res oerr (Z * Z) :=
  bind (liftb (type_by_id (b_types b) id)) (fun t =>
  match t with
  | TPtr h => bind (liftb (type_size (b_types b) (h_third h))) (fun n => Ok (u32 n, h_third h))
  | _ => Err OUnexpected
  end).

(** [parse_btf_map_struct], 1256-1369: one member. *)
Definition mstate := (mapdef * option mapdef)%type.
Definition set_type v d := {| md_type := v; md_key := md_key d; md_value := md_value d; md_entries := md_entries d; md_flags := md_flags d; md_extra := md_extra d; md_pin := md_pin d; md_key_id := md_key_id d; md_value_id := md_value_id d; md_id := md_id d |}.
Definition set_key v d := {| md_type := md_type d; md_key := v; md_value := md_value d; md_entries := md_entries d; md_flags := md_flags d; md_extra := md_extra d; md_pin := md_pin d; md_key_id := md_key_id d; md_value_id := md_value_id d; md_id := md_id d |}.
Definition set_key_id v d := {| md_type := md_type d; md_key := md_key d; md_value := md_value d; md_entries := md_entries d; md_flags := md_flags d; md_extra := md_extra d; md_pin := md_pin d; md_key_id := v; md_value_id := md_value_id d; md_id := md_id d |}.
Definition set_value v d := {| md_type := md_type d; md_key := md_key d; md_value := v; md_entries := md_entries d; md_flags := md_flags d; md_extra := md_extra d; md_pin := md_pin d; md_key_id := md_key_id d; md_value_id := md_value_id d; md_id := md_id d |}.
Definition set_value_id v d := {| md_type := md_type d; md_key := md_key d; md_value := md_value d; md_entries := md_entries d; md_flags := md_flags d; md_extra := md_extra d; md_pin := md_pin d; md_key_id := md_key_id d; md_value_id := v; md_id := md_id d |}.
Definition set_entries v d := {| md_type := md_type d; md_key := md_key d; md_value := md_value d; md_entries := v; md_flags := md_flags d; md_extra := md_extra d; md_pin := md_pin d; md_key_id := md_key_id d; md_value_id := md_value_id d; md_id := md_id d |}.
Definition set_flags v d := {| md_type := md_type d; md_key := md_key d; md_value := md_value d; md_entries := md_entries d; md_flags := v; md_extra := md_extra d; md_pin := md_pin d; md_key_id := md_key_id d; md_value_id := md_value_id d; md_id := md_id d |}.
Definition set_extra v d := {| md_type := md_type d; md_key := md_key d; md_value := md_value d; md_entries := md_entries d; md_flags := md_flags d; md_extra := v; md_pin := md_pin d; md_key_id := md_key_id d; md_value_id := md_value_id d; md_id := md_id d |}.
Definition set_pin v d := {| md_type := md_type d; md_key := md_key d; md_value := md_value d; md_entries := md_entries d; md_flags := md_flags d; md_extra := md_extra d; md_pin := v; md_key_id := md_key_id d; md_value_id := md_value_id d; md_id := md_id d |}.

Inductive field := FType | FKey | FKeySize | FValue | FValueSize | FEntries | FFlags | FExtra | FPinning | FValues.
Definition field_names : list (list Z * field) :=
  [(txt "type", FType); (txt "key", FKey); (txt "key_size", FKeySize); (txt "value", FValue);
   (txt "value_size", FValueSize); (txt "max_entries", FEntries); (txt "map_flags", FFlags);
   (txt "map_extra", FExtra); (txt "pinning", FPinning); (txt "values", FValues)].

(** The definition an inner map's [values] array points to, 1327-1358. *)
Definition inner_members (b : btf) (id : Z) : res oerr (list member) :=
  bind (liftb (type_by_id (b_types b) id)) (fun t =>
  match t with
  | TArray _ elem _ len =>
      if len =? 0 then
        bind (liftb (resolve_type (b_types b) elem)) (fun e =>
        bind (liftb (type_by_id (b_types b) e)) (fun p =>
        match p with
        | TPtr h =>
            bind (liftb (resolve_type (b_types b) (h_third h))) (fun s =>
            bind (liftb (type_by_id (b_types b) s)) (fun st =>
            match st with TStruct _ ms => Ok ms | _ => Err OUnexpected end))
        | _ => Err OUnexpected
        end))
      else Err OValues
  | _ => Err OUnexpected
  end).

(** What a field does to the definition. *)
Definition field_effect (inner : option (list member -> res oerr mapdef)) (b : btf) (f : field) (id : Z)
    : res oerr (mstate -> mstate) :=
  let on (g : mapdef -> mapdef) : mstate -> mstate := fun st => (g (fst st), snd st) in
  let num (set : Z -> mapdef -> mapdef) := bind (get_map_field b id) (fun v => Ok (on (set v))) in
  match f with
  | FType => num set_type
  | FKeySize => num set_key
  | FValueSize => num set_value
  | FEntries => num set_entries
  | FFlags => num set_flags
  | FExtra => num set_extra
  | FKey => bind (pointee b id) (fun p => Ok (on (fun d => set_key_id (snd p) (set_key (fst p) d))))
  | FValue => bind (pointee b id) (fun p => Ok (on (fun d => set_value_id (snd p) (set_value (fst p) d))))
  | FPinning =>
      match inner with
      | None => Err OInnerPinned
      | Some _ => bind (get_map_field b id) (fun v => Ok (on (set_pin (if v =? 1 then 1 else 0))))
      end
  | FValues =>
      match inner with
      | None => Err OMultiLevel
      | Some p =>
          bind (inner_members b id) (fun ms =>
          bind (p ms) (fun d => Ok (fun st => (set_value 4 (fst st), Some d))))
      end
  end.
Definition map_member (inner : option (list member -> res oerr mapdef)) (b : btf) (m : member) : res oerr (mstate -> mstate) :=
  bind (liftb (string_at b (m_name m))) (fun n =>
  match assoc str_eqb n field_names with
  | Some f => field_effect inner b f (m_type m)
  | None => Ok (fun st => st)
  end).
Fixpoint map_members (inner : option (list member -> res oerr mapdef)) (b : btf) (ms : list member) (st : mstate) : res oerr mstate :=
  match ms with
  | [] => Ok st
  | m :: ms => bind (map_member inner b m) (fun g => map_members inner b ms (g st))
  end.
Definition inner_def (b : btf) (ms : list member) : res oerr mapdef :=
  bind (map_members None b ms (mapdef0, None)) (fun st => Ok (fst st)).
Definition map_struct (b : btf) (ms : list member) : res oerr mstate :=
  map_members (Some (inner_def b)) b ms (mapdef0, None).

(** [parse_btf_map_def], 1224-1250. *)
Definition btf_map_def (b : btf) (e : dsentry) : res oerr (list Z * mstate) :=
  bind (liftb (type_by_id (b_types b) (de_type e))) (fun t =>
  match t with
  | TVar h _ =>
      bind (liftb (string_at b (h_name h))) (fun n =>
      bind (liftb (resolve_type (b_types b) (h_third h))) (fun r =>
      bind (liftb (type_by_id (b_types b) r)) (fun s =>
      match s with
      | TStruct _ ms => bind (map_struct b ms) (fun d => Ok (n, d))
      | _ => Err OUnexpected
      end)))
  | _ => Err OUnexpected
  end).

(** [parse_btf_maps], 710-755; [syms] names and indices of the section. *)
Fixpoint btf_entries (b : btf) (sec : osec) (syms : list (name * nat)) (es : list dsentry) : res oerr (list (name * omap)) :=
  match es with
  | [] => Ok []
  | e :: es =>
      bind (btf_map_def b e) (fun d =>
      match assoc str_eqb (fst d) syms with
      | None => Err OSymbolNotFound
      | Some i =>
          bind (btf_entries b sec syms es) (fun r =>
          Ok ((fst d, {| om_btf := true; om_kind := KBtfMaps; om_section := os_index sec; om_symbol := Some i;
                         om_def := fst (snd d); om_inner := snd (snd d); om_data := [] |}) :: r))
      end)
  end.
Fixpoint btf_secs (b : btf) (sec : osec) (syms : list (name * nat)) (ts : list btype) : res oerr (list (name * omap)) :=
  match ts with
  | [] => Ok []
  | TDataSec h es :: ts =>
      bind (liftb (string_at b (h_name h))) (fun n =>
      bind (if str_eqb n (os_name sec) then btf_entries b sec syms es else Ok []) (fun l =>
      bind (btf_secs b sec syms ts) (fun r => Ok (l ++ r))))
  | _ :: ts => btf_secs b sec syms ts
  end.

(** [patch_map_data], 510-556.  [syms] the symbol table in iteration order: a
    later symbol of the same name replaces an earlier one; [maps] in iteration
    order, of which the first of the symbol's section is taken; [globals] in
    iteration order. *)
Definition find_sym (syms : list symbol) (n : name) : option symbol :=
  find (fun s => match s_name s with Some m => str_eqb m n | None => false end) (rev syms).
Fixpoint map_at (sec : nat) (maps : list (name * omap)) (i : nat) : option nat :=
  match maps with
  | [] => None
  | (_, m) :: maps => if Nat.eqb (om_section m) sec then Some i else map_at sec maps (S i)
  end.
Definition set_data (d : list Z) (m : omap) : omap :=
  {| om_btf := om_btf m; om_kind := om_kind m; om_section := om_section m; om_symbol := om_symbol m;
     om_def := om_def m; om_inner := om_inner m; om_data := d |}.
Definition patch_one (syms : list symbol) (maps : list (name * omap)) (n : name) (data : list Z) (must : bool)
    : res oerr (list (name * omap)) :=
  match find_sym syms n with
  | None => if must then Err OSymbolNotFound else Ok maps
  | Some s =>
      if negb (Z.of_nat (length data) =? s_size s) then Err OGlobal
      else
        match s_section s with
        | None => Err OMapNotFound
        | Some sec =>
            match map_at sec maps 0 with
            | None => Err OMapNotFound
            | Some i =>
                match nth_error maps i with
                | None => Err OMapNotFound
                | Some (mn, m) =>
                    let start := s_address s in
                    let end_ := u64 (start + s_size s) in
                    if (end_ <? start) || (Z.of_nat (length (om_data m)) <? end_) then Err OGlobal
                    else Ok (upd i (mn, set_data (splice (Z.to_nat start) data (om_data m)) m) maps)
                end
            end
        end
  end.
Fixpoint patch_map_data (syms : list symbol) (maps : list (name * omap)) (globals : list (name * list Z * bool))
    : res oerr (list (name * omap)) :=
  match globals with
  | [] => Ok maps
  | (n, d, must) :: globals => bind (patch_one syms maps n d must) (fun maps => patch_map_data syms maps globals)
  end.

(** [Function::sanitize] 881-906 and [sanitize_functions] 859-871.  [probe] is
    the answer of the kernel probe; the state is the remembered answer and the
    number of times the kernel was asked. *)
Definition fallback_helper (imm : Z) : option Z :=
  if (imm =? 113) || (imm =? 112) then Some 4
  else if (imm =? 115) || (imm =? 114) then Some 45
  else None.
Fixpoint sanitize_ins (probe : bool) (st : option bool * nat) (l : list insn) : list insn * (option bool * nat) :=
  match l with
  | [] => ([], st)
  | x :: l =>
      match (if insn_is_helper_call x then fallback_helper (imm x) else None) with
      | None => let r := sanitize_ins probe st l in (x :: fst r, snd r)
      | Some h =>
          let st := match fst st with Some _ => st | None => (Some probe, S (snd st)) end in
          let r := sanitize_ins probe st l in
          ((if match fst st with Some b => b | None => probe end then x else set_imm h x) :: fst r, snd r)
      end
  end.
Fixpoint sanitize_funs (probe : bool) (st : option bool * nat) (fs : list func) : list func * (option bool * nat) :=
  match fs with
  | [] => ([], st)
  | f :: fs =>
      let r := sanitize_ins probe st (f_ins f) in
      let q := sanitize_funs probe (snd r) fs in
      ({| f_sec := f_sec f; f_addr := f_addr f; f_secoff := f_secoff f; f_ins := fst r;
          f_finfo := f_finfo f; f_linfo := f_linfo f |} :: fst q, snd q)
  end.
Definition sanitize_functions (probe : bool) (fs : list func) : list func * (option bool * nat) :=
  sanitize_funs probe (None, O) fs.
