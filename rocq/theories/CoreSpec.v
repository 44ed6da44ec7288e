(** What CO-RE relocations are for: reading a field of the running kernel's
    layout with a load, a left shift and a right shift; the name a flavoured
    type stands for; the layout an access string describes. *)
From Verif Require Import Base Text Insn LinkModel BtfTypes BtfModel BtfExt CoreModel.
Local Open Scope Z_scope.

(** Memory as one number, and a load of [n] bytes at [o]. *)
Definition mem_val (be : bool) (mem : list Z) : Z := le_dec (if be then rev mem else mem).
Definition load (be : bool) (mem : list Z) (o n : Z) : Z :=
  mem_val be (slice (Z.to_nat o) (Z.to_nat n) mem).

(** The field of [size] bits at bit [off].  On a big-endian machine bits are
    counted from the most significant bit of the first byte. *)
Definition field_bits (be : bool) (mem : list Z) (off size : Z) : Z :=
  (mem_val be mem / 2 ^ (if be then 8 * Z.of_nat (length mem) - off - size else off)) mod 2 ^ size.
(** The value of the field as a 64-bit register. *)
Definition field_reg (be signed : bool) (mem : list Z) (off size : Z) : Z :=
  if signed then u64 (swrap size (field_bits be mem off size)) else field_bits be mem off size.

(** What the program does with the loaded value (64-bit shifts of eBPF use the
    low six bits of the count): bpf_core_read.h, BPF_CORE_READ_BITFIELD. *)
Definition shifts (signed : bool) (l r v : Z) : Z :=
  let x := u64 (Z.shiftl v (l mod 64)) in
  if signed then u64 (Z.shiftr (i64 x) (r mod 64)) else Z.shiftr x (r mod 64).

(** A load of [p_byte_size] bytes at [p_byte_off] covers the field. *)
Definition covers (p : place) : Prop :=
  0 <= p_byte_off p /\ p_byte_off p * 8 <= p_bit_off p /\ 1 <= p_bit_size p /\ p_byte_size p <= 8 /\
  p_bit_off p + p_bit_size p <= (p_byte_off p + p_byte_size p) * 8 /\
  (p_byte_off p + p_byte_size p) * 8 < 2 ^ 32.

Definition word_size (n : Z) : Prop := n = 1 \/ n = 2 \/ n = 4 \/ n = 8.

(** The member a specification ends in. *)
Definition last_member (b : btf) (s : spec) (info : Z) (m : member) : Prop :=
  exists a n ty ms, last_acc (sp_acc s) = Some a /\ ac_name a = Some n /\
    type_by_id (b_types b) (ac_type a) = Ok ty /\ members_of ty = Some (info, ms) /\
    zget (ac_index a) ms = Some m.

(** Its declared size in bits: the bitfield size, or the size of its type. *)
Definition declared_bits (info : Z) (m : member) (type_bytes : Z) : Z :=
  if 0 <? member_bit_field_size info m then member_bit_field_size info m else 8 * type_bytes.

(** Signedness of the C type. *)
Definition c_signed (t : btype) : bool :=
  match t with
  | TEnum h _ | TEnum64 h _ => info_flag (h_info h)
  | TInt _ data => Z.testbit (int_encoding data) 0
  | _ => false
  end.
(** Encodings the kernel admits. *)
Definition c_encoding (t : btype) : Prop :=
  match t with
  | TInt _ data => In (int_encoding data) [0; 1; 2; 4]
  | _ => True
  end.

(** The width in bytes of a load or store instruction. *)
Definition insn_width (c : Z) : Z :=
  let s := Z.land c 24 in
  if s =? 0 then 4 else if s =? 8 then 2 else if s =? 16 then 1 else 8.
Definition is_mem_class (c : Z) : bool := (Z.land c 7 =? 1) || (Z.land c 7 =? 2) || (Z.land c 7 =? 3).
Definition is_alu_class (c : Z) : bool := (Z.land c 7 =? 4) || (Z.land c 7 =? 7).
Definition is_ld_class (c : Z) : bool := Z.land c 7 =? 0.

(** "___" occurs in a name at its beginning / somewhere. *)
Definition SEP : list Z := [95; 95; 95].
Definition has_sep (n : list Z) : Prop := exists a b, n = a ++ SEP ++ b.
(** The name before the first "___". *)
Definition essential (n e : list Z) : Prop :=
  (exists r, n = e ++ SEP ++ r /\ forall a b, n = a ++ SEP ++ b -> (length e <= length a)%nat) \/
  (~ has_sep n /\ e = n).

(** [ExternDesc::new], extern_types.rs:397-405: [split_once("___")]. *)
Fixpoint split_once (n : list Z) : option (list Z) :=
  match n with
  | [] => None
  | x :: r =>
      match n with
      | a :: b :: c :: _ =>
          if (a =? US) && (b =? US) && (c =? US) then Some []
          else match split_once r with Some p => Some (x :: p) | None => None end
      | _ => match split_once r with Some p => Some (x :: p) | None => None end
      end
  end.

(** All answers of the candidate loop carry a value, or none does. *)
Definition uniform (ms : list (Z * computed)) : Prop :=
  (forall m, In m ms -> c_target (snd m) <> None) \/ (forall m, In m ms -> c_target (snd m) = None).

(** Value of an answer. *)
Definition target_value (c : computed) : option Z :=
  match c_target c with Some v => Some (v_value v) | None => None end.

(** A field [name] of struct or union [id] lies at bit [off] and has type
    [next]: a member of that name, or one found inside an anonymous member. *)
Inductive field_of (b : btf) (name : list Z) : Z -> Z -> Z -> Prop :=
| field_here id rid ty info ms m :
    resolve_type (b_types b) id = Ok rid -> type_by_id (b_types b) rid = Ok ty ->
    members_of ty = Some (info, ms) -> In m ms -> string_at b (m_name m) = Ok name -> name <> [] ->
    field_of b name id (member_bit_offset info m) (m_type m)
| field_inner id rid ty info ms m off next :
    resolve_type (b_types b) id = Ok rid -> type_by_id (b_types b) rid = Ok ty ->
    members_of ty = Some (info, ms) -> In m ms -> string_at b (m_name m) = Ok [] ->
    field_of b name (m_type m) off next ->
    field_of b name id (member_bit_offset info m + off) next.

(** A path of field names and array indices through the target layout:
    [path b steps id off] says that following [steps] from type [id] ends
    [off] bits from the start. *)
Inductive pstep := PField (name : list Z) | PIndex (i : Z).
Inductive path (b : btf) : list pstep -> Z -> Z -> Prop :=
| path_nil id : path b [] id 0
| path_field name off next steps o id rid :
    resolve_type (b_types b) id = Ok rid ->
    field_of b name rid off next -> path b steps next o -> path b (PField name :: steps) id (off + o)
| path_index h i elem idx len eid size steps o id rid :
    resolve_type (b_types b) id = Ok rid ->
    type_by_id (b_types b) rid = Ok (TArray h elem idx len) ->
    resolve_type (b_types b) elem = Ok eid -> type_size (b_types b) eid = Ok size ->
    path b steps eid o -> path b (PIndex i :: steps) id (i * size * 8 + o).

(** The same through indices, as an access string gives it. *)
Inductive ipath (b : btf) : list Z -> Z -> Z -> Prop :=
| ipath_nil id : ipath b [] id 0
| ipath_member i info ms m ty steps o id rid :
    resolve_type (b_types b) id = Ok rid -> type_by_id (b_types b) rid = Ok ty ->
    members_of ty = Some (info, ms) -> zget i ms = Some m ->
    ipath b steps (m_type m) o -> ipath b (i :: steps) id (member_bit_offset info m + o)
| ipath_elem h i elem idx len eid size steps o id rid :
    resolve_type (b_types b) id = Ok rid ->
    type_by_id (b_types b) rid = Ok (TArray h elem idx len) ->
    resolve_type (b_types b) elem = Ok eid -> type_size (b_types b) eid = Ok size ->
    ipath b steps eid o -> ipath b (i :: steps) id (i * size * 8 + o).

(** What a local accessor asks for in the target. *)
Definition step_of (a : accessor) : pstep :=
  match ac_name a with Some n => PField n | None => PIndex (ac_index a) end.

(** The mathematical value of an enumerator. *)
Definition enumerator (t : btype) (i : nat) : option Z :=
  match t with
  | TEnum h vs =>
      match nth_error vs i with
      | Some v => Some (if info_flag (h_info h) then i32 (snd v) else snd v)
      | None => None
      end
  | TEnum64 h vs =>
      match nth_error vs i with
      | Some v => let w := snd (fst v) + 2 ^ 32 * snd v in Some (if info_flag (h_info h) then i64 w else w)
      | None => None
      end
  | _ => None
  end.
(** Value words are 32-bit words. *)
Definition enum_words (t : btype) : Prop :=
  match t with
  | TEnum _ vs => forall v, In v vs -> 0 <= snd v < 2 ^ 32
  | TEnum64 _ vs => forall v, In v vs -> 0 <= snd (fst v) < 2 ^ 32 /\ 0 <= snd v < 2 ^ 32
  | _ => False
  end.

(** Relocations [rs] of section [sec] carried out one after the other, each in
    the function that contains its instruction and each on its own. *)
Inductive carried (stack : nat) (be : bool) (lb tb : btf) (sec : nat) : list relo -> list func -> list func -> Prop :=
| carried_nil funs : carried stack be lb tb sec [] funs funs
| carried_cons r rs funs funs' i f c ch ins :
    nth_error funs i = Some f -> f_sec f = sec ->
    f_secoff f / 8 <= rl_ins_off r / 8 < f_secoff f / 8 + Z.of_nat (length (f_ins f)) ->
    solve stack be lb tb [] r = Ok (c, ch) ->
    apply_at lb tb c (f_ins f) (rl_ins_off r / 8 - f_secoff f / 8) = Ok ins ->
    carried stack be lb tb sec rs (upd i (set_ins f ins) funs) funs' ->
    carried stack be lb tb sec (r :: rs) funs funs'.
(** All tables in turn. *)
Inductive carried_all (stack : nat) (be : bool) (lb tb : btf) (sections : list (list Z * nat))
  : list (Z * list relo) -> list func -> list func -> Prop :=
| carried_all_nil funs : carried_all stack be lb tb sections [] funs funs
| carried_all_cons o rs relos name sec funs mid funs' :
    string_at lb o = Ok name -> assoc str_eqb name sections = Some sec ->
    carried stack be lb tb sec rs funs mid -> carried_all stack be lb tb sections relos mid funs' ->
    carried_all stack be lb tb sections ((o, rs) :: relos) funs funs'.
(** Functions start at an instruction boundary; offsets are 32-bit words. *)
Definition aligned (funs : list func) : Prop := forall f, In f funs -> f_secoff f mod 8 = 0 /\ 0 <= f_secoff f.
Definition relos_ok (rs : list relo) : Prop := forall r, In r rs -> 0 <= rl_ins_off r < 2 ^ 32.

(** * Kinds and panics *)

(** [bpf_core_relo_kind] of the kernel's uapi header. *)
Definition uapi_kinds : list (Z * rkind) :=
  [(0, FByteOffset); (1, FByteSize); (2, FExists); (3, FSigned); (4, FLShift64); (5, FRShift64);
   (6, TIdLocal); (7, TIdTarget); (8, TExists); (9, TSize); (10, EExists); (11, EValue)].
(** The process stops instead of returning an error. *)
Definition aborts (e : rerr) : Prop := e = RPanic \/ e = RStack \/ e = RBtf BPanic.
(** What the value of a relocation in the kernel is computed to. *)
Definition kernel_value (be : bool) (tb : btf) (k : rkind) (ls : spec) (ts : option spec) (r : res rerr rval) : Prop :=
  (class_of k = CField /\ compute_field be tb k ts = r) \/ (class_of k = CType /\ compute_type tb k ls ts = r)
  \/ (class_of k = CEnum /\ compute_enum tb k ts = r).

(** * Access strings, members and enumerators *)

(** Decimal digits after an optional plus sign; the value fits 64 bits. *)
Definition number (s : list Z) (v : Z) : Prop :=
  exists d, (s = d \/ s = 43 :: d) /\ d <> [] /\ (forall c, In c d -> 48 <= c <= 57) /\ v = dec_val d /\ v < 2 ^ 64.
(** Numbers with colons between them. *)
Inductive indices : list Z -> list Z -> Prop :=
| ix_last s v : number s v -> indices s [v]
| ix_more s v r l : number s v -> indices r l -> indices (s ++ 58 :: r) (v :: l).

(** A type with members; [info] tells whether offsets of members carry sizes
    of bit fields. *)
Definition aggregate (t : btype) (info : Z) (ms : list member) : Prop :=
  (exists h, t = TStruct h ms /\ info = h_info h) \/ (exists h fb, t = TUnion h ms fb /\ info = h_info h).

(** Enumerators, by name and value as a 64-bit word, of a type: 64-bit enums may
    have been rewritten to unions. *)
Inductive enumerators : btype -> list (Z * Z) -> Prop :=
| en_enum h vs : enumerators (TEnum h vs) (map (fun v => (fst v, if info_flag (h_info h) then u64 (i32 (snd v)) else snd v)) vs)
| en_enum64 h vs : enumerators (TEnum64 h vs) (map (fun v => (fst (fst v), Z.lor (snd v * 2 ^ 32) (snd (fst v)))) vs)
| en_union h ms fb : enumerators (TUnion h ms (Some fb)) (fb_variants fb).
