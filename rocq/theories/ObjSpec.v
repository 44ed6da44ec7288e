(** What the object parsing theorems speak about. *)
From Coq Require Import String.
From Verif Require Import Base Text Insn LinkModel BtfTypes BtfModel ObjModel.
Local Open Scope Z_scope.

(** The bytes of an instruction and of a sequence of them. *)
Definition enc_insn (i : insn) : list Z :=
  [code i; dst i + 16 * src i] ++ le_enc 2 (off i mod 2 ^ 16) ++ le_enc 4 (imm i mod 2 ^ 32).
Definition insn_ok (i : insn) : Prop :=
  0 <= code i < 256 /\ 0 <= dst i < 16 /\ 0 <= src i < 16 /\ - 2 ^ 15 <= off i < 2 ^ 15 /\ - 2 ^ 31 <= imm i < 2 ^ 31.

(** Functions that tile the bytes of a section from [o] on: each starts where
    the one before ended, is a positive number of whole instructions long, and
    the last ends with the section. *)
Inductive tiles (sec : osec) : Z -> list (name * func) -> Prop :=
| tiles_end : tiles sec (Z.of_nat (length (os_data sec))) []
| tiles_fun o n f l ins : ins <> [] ->
    f_sec f = os_index sec -> f_secoff f = o -> f_addr f = u64 (os_address sec + o) -> f_ins f = ins ->
    o + 8 * Z.of_nat (length ins) <= Z.of_nat (length (os_data sec)) ->
    copy_instructions (slice (Z.to_nat o) (8 * length ins) (os_data sec)) = Ok ins ->
    tiles sec (o + 8 * Z.of_nat (length ins)) l -> tiles sec o ((n, f) :: l).

(** The function symbols of a section: defined, of kind text, in it. *)
Definition fun_sym (sec : nat) (s : symbol) : bool :=
  match s_def s, s_kind s, s_section s with true, KText, Some i => Nat.eqb i sec | _, _, _ => false end.
Definition fun_syms (sec : nat) (syms : list (nat * symbol)) : list symbol :=
  filter (fun_sym sec) (map snd syms).
(** [chain syms o e]: symbols taken one after the other, each of a positive
    number of whole instructions, named and inside the section, lead from offset
    [o] to offset [e]. *)
Inductive chain (sec : osec) (syms : list symbol) : Z -> Z -> Prop :=
| chain_end o : chain sec syms o o
| chain_sym o s n e : o < Z.of_nat (length (os_data sec)) -> In s syms -> s_address s = u64 (os_address sec + o) ->
    0 < s_size s -> s_size s mod 8 = 0 -> s_name s = Some n ->
    o + s_size s <= Z.of_nat (length (os_data sec)) ->
    chain sec syms (o + s_size s) e -> chain sec syms o e.
(** What stops the parser at offset [o]. *)
Inductive fault (sec : osec) (syms : list symbol) (o : Z) : oerr -> Prop :=
| fault_gap : (forall s, In s syms -> s_address s <> u64 (os_address sec + o)) -> fault sec syms o OUnknownSymbol
| fault_empty s : In s syms -> s_address s = u64 (os_address sec + o) -> s_size s = 0 -> fault sec syms o OInvalidSymbol
| fault_long s : In s syms -> s_address s = u64 (os_address sec + o) -> Z.of_nat (length (os_data sec)) < o + s_size s -> fault sec syms o OPanic
| fault_name s : In s syms -> s_address s = u64 (os_address sec + o) -> 0 < s_size s -> o + s_size s <= Z.of_nat (length (os_data sec)) ->
    s_name s = None -> fault sec syms o OPanic
| fault_code s n : In s syms -> s_address s = u64 (os_address sec + o) -> o + s_size s <= Z.of_nat (length (os_data sec)) ->
    s_name s = Some n -> s_size s mod 8 <> 0 -> fault sec syms o OCode.

(** Symbols as the ELF reader gives them: unsigned 64-bit address and size. *)
Definition sym_ok (s : symbol) : Prop := 0 <= s_address s < 2 ^ 64 /\ 0 <= s_size s < 2 ^ 64.
(** The program a symbol of a program section is turned into. *)
Definition prog_of (t : tables) (sec : osec) (p : psec) (s : symbol) (x : program * func) : Prop :=
  s_name s = Some (pg_name (fst x)) /\ pg_sec (fst x) = p /\ pg_index (fst x) = os_index sec /\ pg_addr (fst x) = s_address s /\
  f_sec (snd x) = os_index sec /\ f_addr (snd x) = s_address s /\ f_secoff (snd x) = s_address s /\
  copy_instructions (slice (Z.to_nat (s_address s)) (Z.to_nat (s_size s)) (os_data sec)) = Ok (f_ins (snd x)) /\
  f_finfo (snd x) = pick_finfo (tb_func t (os_name sec)) (u64 (s_address s - os_address sec)) true /\
  f_linfo (snd x) = pick_linfo (tb_line t (os_name sec)) (u64 (s_address s - os_address sec)) (s_size s) true.
(** Named text symbols become programs. *)
Definition is_prog_sym (s : symbol) : bool := match s_kind s, s_name s with KText, Some (_ :: _) => true | _, _ => false end.
(** The symbol's bytes lie in the section and are whole instructions. *)
Definition prog_fits (sec : osec) (s : symbol) : Prop :=
  s_address s + s_size s <= Z.of_nat (length (os_data sec)) /\ s_size s mod 8 = 0.

(** Where a global lives: index of its map, offset, size. *)
Definition place_of (syms : list symbol) (maps : list (name * omap)) (n : name) : option (nat * Z * Z) :=
  match find_sym syms n with
  | Some s =>
      match s_section s with
      | Some sec => match map_at sec maps 0 with Some i => Some (i, s_address s, s_size s) | None => None end
      | None => None
      end
  | None => None
  end.
Definition apart (p q : nat * Z * Z) : Prop :=
  let '(i, a, n) := p in let '(j, b, m) := q in i <> j \/ a + n <= b \/ b + m <= a.
(** The data of map [i]. *)
Definition data_of (maps : list (name * omap)) (i : nat) : list Z :=
  match nth_error maps i with Some (_, m) => om_data m | None => [] end.
(** What makes a global acceptable and what it does. *)
Definition global := (name * list Z * bool)%type.
Definition global_ok (syms : list symbol) (maps : list (name * omap)) (g : global) : Prop :=
  match find_sym syms (fst (fst g)) with
  | None => snd g = false
  | Some s => exists i, place_of syms maps (fst (fst g)) = Some (i, s_address s, s_size s) /\
      Z.of_nat (length (snd (fst g))) = s_size s /\ s_address s + s_size s <= Z.of_nat (length (data_of maps i))
  end.
Definition write (i : nat) (a : Z) (d : list Z) (maps : list (name * omap)) : list (name * omap) :=
  match nth_error maps i with
  | Some (mn, m) => upd i (mn, set_data (splice (Z.to_nat a) d (om_data m)) m) maps
  | None => maps
  end.
Definition do_global (syms : list symbol) (maps : list (name * omap)) (g : global) : list (name * omap) :=
  match place_of syms maps (fst (fst g)) with
  | Some (i, a, _) => write i a (snd (fst g)) maps
  | None => maps
  end.
(** Globals whose places do not overlap. *)
Definition apart_globals (syms : list symbol) (maps : list (name * omap)) (gs : list global) : Prop :=
  ForallOrdPairs (fun g h => forall p q, place_of syms maps (fst (fst g)) = Some p -> place_of syms maps (fst (fst h)) = Some q -> apart p q) gs.
(** Byte vectors are shorter than the address space. *)
Definition maps_small (maps : list (name * omap)) : Prop := forall i, Z.of_nat (length (data_of maps i)) < 2 ^ 64.
(** Everything but the data. *)
Definition frame_of (x : name * omap) : name * omap := (fst x, set_data [] (snd x)).

(** The helper fallback, instruction by instruction. *)
Definition is_probe_call (x : insn) : bool :=
  insn_is_helper_call x && ((imm x =? 112) || (imm x =? 113) || (imm x =? 114) || (imm x =? 115)).
Definition legacy_call (x : insn) : insn :=
  if is_probe_call x then set_imm (if (imm x =? 112) || (imm x =? 113) then 4 else 45) x else x.
Definition with_insns (f : func) (ins : list insn) : func :=
  {| f_sec := f_sec f; f_addr := f_addr f; f_secoff := f_secoff f; f_ins := ins; f_finfo := f_finfo f; f_linfo := f_linfo f |}.

(** Prefix. *)
Definition begins (p n : list Z) : Prop := exists r, n = p ++ r.

(** The field a member of a map definition is, if any. *)
Definition field_of_member (b : btf) (m : member) : option field :=
  match string_at b (m_name m) with Ok n => assoc str_eqb n field_names | Err _ => None end.
Definition field_eqb (f g : field) : bool :=
  match f, g with
  | FType, FType | FKey, FKey | FKeySize, FKeySize | FValue, FValue | FValueSize, FValueSize | FEntries, FEntries
  | FFlags, FFlags | FExtra, FExtra | FPinning, FPinning | FValues, FValues => true
  | _, _ => false
  end.
(** Two fields that set the same thing. *)
Definition clash (f g : field) : bool :=
  field_eqb f g ||
  match f, g with
  | FKey, FKeySize | FKeySize, FKey => true
  | FValue, FValueSize | FValueSize, FValue | FValue, FValues | FValues, FValue
  | FValueSize, FValues | FValues, FValueSize => true
  | _, _ => false
  end.
Definition clash_free (b : btf) (ms : list member) : Prop :=
  ForallOrdPairs (fun m m' => forall f g, field_of_member b m = Some f -> field_of_member b m' = Some g -> clash f g = false) ms.

(** Canonical names of program sections. *)
Definition psec_names (p : psec) : list (list Z) :=
  match p with
  | PKProbe => [txt "kprobe"] | PKRetProbe => [txt "kretprobe"]
  | PUProbe s m => [txt "uprobe" ++ (if m then txt ".multi" else []) ++ (if s then txt ".s" else [])]
  | PURetProbe s m => [txt "uretprobe" ++ (if m then txt ".multi" else []) ++ (if s then txt ".s" else [])]
  | PXdp f a => (txt "xdp" ++ (if f then txt ".frags" else [])) :: (if a =? 1 then [txt "cpumap"] else if a =? 2 then [txt "devmap"] else [])
  | PTpBtf => [txt "tp_btf"] | PTracePoint => [txt "tracepoint"] | PSocket => [txt "socket"] | PSkMsg => [txt "sk_msg"]
  | PSkSkb v => [txt "sk_skb"; if v then txt "stream_verdict" else txt "stream_parser"]
  | PSockOps => [txt "sockops"] | PClassifier => [txt "classifier"]
  | PCgroupSkb None => [txt "cgroup"; txt "skb"]
  | PCgroupSkb (Some e) => [txt "cgroup_skb"; if e then txt "egress" else txt "ingress"]
  | PCgroupSysctl => [txt "cgroup"; txt "sysctl"] | PCgroupDevice => [txt "cgroup"; txt "dev"]
  | PCgroupSockopt s => [txt "cgroup"; if s then txt "setsockopt" else txt "getsockopt"]
  | PCgroupSock a => [txt "cgroup"; nth (Z.to_nat a) [txt "sock_create"; txt "post_bind4"; txt "post_bind6"; txt "sock_release"] []]
  | PCgroupSockAddr a =>
      [txt "cgroup"; nth (Z.to_nat a) [txt "bind4"; txt "bind6"; txt "connect4"; txt "connect6"; txt "getpeername4";
         txt "getpeername6"; txt "getsockname4"; txt "getsockname6"; txt "sendmsg4"; txt "sendmsg6"; txt "recvmsg4"; txt "recvmsg6"] []]
  | PLirc => [txt "lirc_mode2"] | PPerfEvent => [txt "perf_event"] | PRawTp => [txt "raw_tracepoint"]
  | PLsm s => [txt "lsm" ++ (if s then txt ".s" else [])] | PLsmCgroup => [txt "lsm_cgroup"]
  | PFEntry s => [txt "fentry" ++ (if s then txt ".s" else [])]
  | PFExit s => [txt "fexit" ++ (if s then txt ".s" else [])]
  | PFlowDissector => [txt "flow_dissector"] | PExtension => [txt "freplace"] | PSkLookup => [txt "sk_lookup"]
  | PSkReuseport m => txt "sk_reuseport" :: (if m then [txt "migrate"] else [])
  | PIter s => [txt "iter" ++ (if s then txt ".s" else [])]
  end.
Definition psec_ok (p : psec) : Prop :=
  match p with
  | PXdp _ a => 0 <= a <= 2
  | PCgroupSock a => 0 <= a <= 3
  | PCgroupSockAddr a => 0 <= a <= 11
  | _ => True
  end.
Definition join_slash (l : list (list Z)) : list Z :=
  match l with [] => [] | x :: r => x ++ flat_map (fun y => 47 :: y) r end.
Definition no_slash (s : list Z) : Prop := ~ In 47 s.
(** Kinds whose section name is followed by a free name. *)
Definition takes_name (p : psec) : bool :=
  match p with PXdp _ a => negb (a =? 0) | PSkReuseport m => m | _ => true end.
