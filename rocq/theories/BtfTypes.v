(** Model of the BTF type codec, /repo/aya-obj/src/btf/types.rs.

    Simplifications: the host is little-endian and so is the data; a type is
    its three leading 32-bit words (name offset, info, and the third word:
    size, referenced type or unused) plus what follows them.  Reading a
    [VarLinkage] whose value is no variant of the enum is undefined behaviour
    in Rust and an explicit [BUndefined] here. *)
From Verif Require Import Base.
Local Open Scope Z_scope.

(** [BtfError], the constructors that matter, plus panics and undefined
    behaviour; btf.rs:38-224. *)
Inductive berr :=
| BInvalidHeader
| BInvalidTypeInfo
| BInvalidTypeKind (kind : Z)
| BInvalidStringOffset (offset : Z)
| BUnknownBtfType (id : Z)
| BUnexpectedBtfType (id : Z)
| BUnknownBtfTypeName
| BMaximumTypeDepthReached (id : Z)
| BInvalidDatasec
| BInvalidSymbolName
| BUnknownSectionSize
| BSymbolOffsetNotFound
| BInvalidInfo
| BInvalidRelocationKind (k : Z)
| BInvalidRelocationInfo
| BPanic
| BUndefined.

(** [BtfKind], types.rs:1039-1095. *)
Inductive bkind :=
| KUnknown | KInt | KPtr | KArray | KStruct | KUnion | KEnum | KFwd | KTypedef | KVolatile
| KConst | KRestrict | KFunc | KFuncProto | KVar | KDataSec | KFloat | KDeclTag | KTypeTag | KEnum64.

Definition kind_num (k : bkind) : Z :=
  match k with
  | KUnknown => 0 | KInt => 1 | KPtr => 2 | KArray => 3 | KStruct => 4 | KUnion => 5 | KEnum => 6
  | KFwd => 7 | KTypedef => 8 | KVolatile => 9 | KConst => 10 | KRestrict => 11 | KFunc => 12
  | KFuncProto => 13 | KVar => 14 | KDataSec => 15 | KFloat => 16 | KDeclTag => 17 | KTypeTag => 18
  | KEnum64 => 19
  end.
Definition all_kinds : list bkind :=
  [KUnknown; KInt; KPtr; KArray; KStruct; KUnion; KEnum; KFwd; KTypedef; KVolatile;
   KConst; KRestrict; KFunc; KFuncProto; KVar; KDataSec; KFloat; KDeclTag; KTypeTag; KEnum64].
Definition kind_of_num (n : Z) : option bkind := find (fun k => kind_num k =? n) all_kinds.
Definition kind_eqb (a b : bkind) : bool := kind_num a =? kind_num b.

(** [type_kind] and [type_vlen], types.rs:1456-1462. *)
Definition info_kind (info : Z) : Z := Z.land (Z.shiftr info 24) 31.
Definition type_kind (info : Z) : res berr bkind :=
  match kind_of_num (info_kind info) with
  | Some k => Ok k
  | None => Err (BInvalidTypeKind (info_kind info))
  end.
Definition type_vlen (info : Z) : Z := Z.land info 65535.

(** The three leading words. *)
Record thead := { h_name : Z; h_info : Z; h_third : Z }.

(** [BtfMember] types.rs:561-567, [DataSecEntry] 952-958, [BtfEnum64] 478-484,
    [BtfArray] 764-770, [Enum64Fallback] 636-650. *)
Record member := { m_name : Z; m_type : Z; m_off : Z }.
Record dsentry := { de_type : Z; de_off : Z; de_size : Z }.
Record fallback := { fb_signed : bool; fb_variants : list (Z * Z) }.

(** [BtfType], types.rs:10-32. *)
Inductive btype :=
| TUnknown
| TFwd (h : thead)
| TConst (h : thead)
| TVolatile (h : thead)
| TRestrict (h : thead)
| TPtr (h : thead)
| TTypedef (h : thead)
| TFunc (h : thead)
| TInt (h : thead) (data : Z)
| TFloat (h : thead)
| TEnum (h : thead) (variants : list (Z * Z))
| TArray (h : thead) (elem index len : Z)
| TStruct (h : thead) (members : list member)
| TUnion (h : thead) (members : list member) (fb : option fallback)
| TFuncProto (h : thead) (params : list (Z * Z))
| TVar (h : thead) (linkage : Z)
| TDataSec (h : thead) (entries : list dsentry)
| TDeclTag (h : thead) (component : Z)
| TTypeTag (h : thead)
| TEnum64 (h : thead) (variants : list (Z * Z * Z)).

Definition kind_of (t : btype) : bkind :=
  match t with
  | TUnknown => KUnknown | TFwd _ => KFwd | TConst _ => KConst | TVolatile _ => KVolatile
  | TRestrict _ => KRestrict | TPtr _ => KPtr | TTypedef _ => KTypedef | TFunc _ => KFunc
  | TInt _ _ => KInt | TFloat _ => KFloat | TEnum _ _ => KEnum | TArray _ _ _ _ => KArray
  | TStruct _ _ => KStruct | TUnion _ _ _ => KUnion | TFuncProto _ _ => KFuncProto
  | TVar _ _ => KVar | TDataSec _ _ => KDataSec | TDeclTag _ _ => KDeclTag
  | TTypeTag _ => KTypeTag | TEnum64 _ _ => KEnum64
  end.

Definition head_of (t : btype) : option thead :=
  match t with
  | TUnknown => None
  | TFwd h | TConst h | TVolatile h | TRestrict h | TPtr h | TTypedef h | TFunc h | TInt h _
  | TFloat h | TEnum h _ | TArray h _ _ _ | TStruct h _ | TUnion h _ _ | TFuncProto h _
  | TVar h _ | TDataSec h _ | TDeclTag h _ | TTypeTag h | TEnum64 h _ => Some h
  end.

(** [name_offset], types.rs:1366-1389. *)
Definition name_offset (t : btype) : Z := match head_of t with Some h => h_name h | None => 0 end.

(** [size] 1311-1323 (pointers are 8 bytes) and [btf_type] 1325-1339. *)
Definition size_of (t : btype) : option Z :=
  match t with
  | TInt h _ | TFloat h | TEnum h _ | TEnum64 h _ | TStruct h _ | TUnion h _ _ | TDataSec h _ => Some (h_third h)
  | TPtr _ => Some 8
  | _ => None
  end.
Definition btf_type (t : btype) : option Z :=
  match t with
  | TConst h | TVolatile h | TRestrict h | TPtr h | TTypedef h | TFuncProto h _ | TVar h _
  | TDeclTag h _ | TTypeTag h => Some (h_third h)
  | _ => None
  end.

(** Native encoding of 32-bit words. *)
Definition words (ws : list Z) : list Z := concat (map (le_enc 4) ws).
Fixpoint unwords (n : nat) (l : list Z) : list Z :=
  match n with O => [] | S n => le_dec (firstn 4 l) :: unwords n (skipn 4 l) end.

Definition pair_words (l : list (Z * Z)) : list Z := flat_map (fun p => [fst p; snd p]) l.
Definition member_words (l : list member) : list Z := flat_map (fun m => [m_name m; m_type m; m_off m]) l.
Definition entry_words (l : list dsentry) : list Z := flat_map (fun e => [de_type e; de_off e; de_size e]) l.
Definition triple_words (l : list (Z * Z * Z)) : list Z := flat_map (fun p => [fst (fst p); snd (fst p); snd p]) l.

(** What follows the three leading words. *)
Definition payload (t : btype) : list Z :=
  match t with
  | TInt _ d => [d]
  | TEnum _ vs => pair_words vs
  | TArray _ e i l => [e; i; l]
  | TStruct _ ms => member_words ms
  | TUnion _ ms _ => member_words ms
  | TFuncProto _ ps => pair_words ps
  | TVar _ l => [l]
  | TDataSec _ es => entry_words es
  | TDeclTag _ c => [c]
  | TEnum64 _ vs => triple_words vs
  | _ => []
  end.

(** [to_bytes], types.rs:1286-1309 and the per-type methods. *)
Definition to_bytes (t : btype) : list Z :=
  match head_of t with
  | None => []
  | Some h => words [h_name h; h_info h; h_third h] ++ words (payload t)
  end.

(** [type_info_size], types.rs:1341-1364. *)
Definition type_info_size (t : btype) : nat :=
  match t with
  | TUnknown => 12
  | TInt _ _ | TVar _ _ | TDeclTag _ _ => 16
  | TEnum _ vs => 12 + 8 * length vs
  | TArray _ _ _ _ => 24
  | TStruct _ ms => 12 + 12 * length ms
  | TUnion _ ms _ => 12 + 12 * length ms
  | TFuncProto _ ps => 12 + 8 * length ps
  | TDataSec _ es => 12 + 12 * length es
  | TEnum64 _ vs => 12 + 12 * length vs
  | _ => 12
  end%nat.

(** [read_array::<T>] for a [T] of [k] words, types.rs:1153-1163: all words,
    or the error. *)
Definition read_words (n : nat) (l : list Z) : res berr (list Z) :=
  if (length l <? 4 * n)%nat then Err BInvalidTypeInfo else Ok (unwords n l).

Fixpoint to_pairs (ws : list Z) : list (Z * Z) :=
  match ws with a :: b :: r => (a, b) :: to_pairs r | _ => [] end.
Fixpoint to_members (ws : list Z) : list member :=
  match ws with
  | a :: b :: c :: r => {| m_name := a; m_type := b; m_off := c |} :: to_members r
  | _ => []
  end.
Fixpoint to_entries (ws : list Z) : list dsentry :=
  match ws with
  | a :: b :: c :: r => {| de_type := a; de_off := b; de_size := c |} :: to_entries r
  | _ => []
  end.
Fixpoint to_triples (ws : list Z) : list (Z * Z * Z) :=
  match ws with a :: b :: c :: r => (a, b, c) :: to_triples r | _ => [] end.

(** [BtfType::read], types.rs:1165-1284. *)
Definition read (data : list Z) : res berr btype :=
  bind (read_words 3 data) (fun ty =>
    let name := nth 0 ty 0 in
    let info := nth 1 ty 0 in
    let h := {| h_name := name; h_info := info; h_third := nth 2 ty 0 |} in
    let h0 := {| h_name := name; h_info := info; h_third := 0 |} in
    let data := skipn 12 data in
    let vlen := Z.to_nat (type_vlen info) in
    bind (type_kind info) (fun k =>
      match k with
      | KUnknown => Ok TUnknown
      | KFwd => Ok (TFwd h0)
      | KConst => Ok (TConst h)
      | KVolatile => Ok (TVolatile h)
      | KRestrict => Ok (TRestrict h)
      | KPtr => Ok (TPtr h)
      | KTypedef => Ok (TTypedef h)
      | KFunc => Ok (TFunc h)
      | KInt => bind (read_words 1 data) (fun ws => Ok (TInt h (nth 0 ws 0)))
      | KFloat => Ok (TFloat h)
      | KEnum => bind (read_words (2 * vlen) data) (fun ws => Ok (TEnum h (to_pairs ws)))
      | KEnum64 => bind (read_words (3 * vlen) data) (fun ws => Ok (TEnum64 h (to_triples ws)))
      | KArray => bind (read_words 3 data) (fun ws => Ok (TArray h0 (nth 0 ws 0) (nth 1 ws 0) (nth 2 ws 0)))
      | KStruct => bind (read_words (3 * vlen) data) (fun ws => Ok (TStruct h (to_members ws)))
      | KUnion => bind (read_words (3 * vlen) data) (fun ws => Ok (TUnion h (to_members ws) None))
      | KFuncProto => bind (read_words (2 * vlen) data) (fun ws => Ok (TFuncProto h (to_pairs ws)))
      | KVar => bind (read_words 1 data) (fun ws =>
          if nth 0 ws 0 <=? 3 then Ok (TVar h (nth 0 ws 0)) else Err BUndefined)
      | KDataSec => bind (read_words (3 * vlen) data) (fun ws => Ok (TDataSec h (to_entries ws)))
      | KDeclTag => bind (read_words 1 data) (fun ws => Ok (TDeclTag h (i32 (nth 0 ws 0))))
      | KTypeTag => Ok (TTypeTag h)
      end)).

(** * Constructors used by the loader *)
Definition kind_info (k : bkind) : Z := Z.shiftl (kind_num k) 24.
(** [(len as u32) & 0xFFFF] in the constructors' info word. *)
Definition vlen_bits {A} (l : list A) : Z := Z.land (u32 (Z.of_nat (length l))) 65535.

(** [Int::new], types.rs:366-378. *)
Definition new_int (name size enc off : Z) : btype :=
  TInt {| h_name := name; h_info := kind_info KInt; h_third := size |}
       (Z.lor (Z.lor (Z.shiftl (Z.land enc 15) 24) (Z.shiftl (Z.land off 255) 16)) (Z.land (u32 (size * 8)) 255)).
(** [Struct::new] 607-616, [Union::new] 663-678, [Enum::new] 435-447,
    [Typedef::new] 181-188, [Const::new] 74-81, [Func::new] 253-261,
    [FuncProto::new] 868-877, [Var::new] 940-948, [DataSec::new] 1004-1013,
    [DeclTag::new] 1047-1055, [Float::new] 208-215, [Ptr::new] 146-153,
    [TypeTag::new] 294-301, [Enum64::new] 530-551. *)
Definition new_struct (name : Z) (ms : list member) (size : Z) : btype :=
  TStruct {| h_name := name; h_info := Z.lor (kind_info KStruct) (vlen_bits ms); h_third := size |} ms.
Definition new_union (name size : Z) (ms : list member) (fb : option fallback) : btype :=
  TUnion {| h_name := name; h_info := Z.lor (kind_info KUnion) (vlen_bits ms); h_third := size |} ms fb.
Definition new_enum (name : Z) (signed : bool) (vs : list (Z * Z)) : btype :=
  let info := Z.lor (kind_info KEnum) (vlen_bits vs) in
  TEnum {| h_name := name; h_info := if signed then Z.lor info (2 ^ 31) else info; h_third := 4 |} vs.
Definition new_enum64 (name : Z) (signed : bool) (vs : list (Z * Z * Z)) : btype :=
  let info := if signed then Z.lor (kind_info KEnum64) (2 ^ 31) else kind_info KEnum64 in
  TEnum64 {| h_name := name; h_info := Z.lor info (vlen_bits vs); h_third := 8 |} vs.
Definition new_typedef (name t : Z) : btype :=
  TTypedef {| h_name := name; h_info := kind_info KTypedef; h_third := t |}.
Definition new_const (t : Z) : btype :=
  TConst {| h_name := 0; h_info := kind_info KConst; h_third := t |}.
Definition new_ptr (name t : Z) : btype :=
  TPtr {| h_name := name; h_info := kind_info KPtr; h_third := t |}.
Definition new_float (name size : Z) : btype :=
  TFloat {| h_name := name; h_info := kind_info KFloat; h_third := size |}.
Definition new_typetag (name t : Z) : btype :=
  TTypeTag {| h_name := name; h_info := kind_info KTypeTag; h_third := t |}.
Definition new_func (name proto linkage : Z) : btype :=
  TFunc {| h_name := name; h_info := Z.lor (kind_info KFunc) (Z.land linkage 65535); h_third := proto |}.
Definition new_func_proto (ps : list (Z * Z)) (ret : Z) : btype :=
  TFuncProto {| h_name := 0; h_info := Z.lor (kind_info KFuncProto) (vlen_bits ps); h_third := ret |} ps.
Definition new_var (name t linkage : Z) : btype :=
  TVar {| h_name := name; h_info := kind_info KVar; h_third := t |} linkage.
Definition new_datasec (name : Z) (es : list dsentry) (size : Z) : btype :=
  TDataSec {| h_name := name; h_info := Z.lor (kind_info KDataSec) (vlen_bits es); h_third := size |} es.
Definition new_decl_tag (name t comp : Z) : btype :=
  TDeclTag {| h_name := name; h_info := kind_info KDeclTag; h_third := t |} comp.

(** * Accessors *)
(** [Int::offset] 384-386, [Func::linkage] 263-265, [is_signed] 449-451 /
    524-526, [member_bit_offset] 618-627 and [member_bit_field_size] 629-634. *)
Definition int_offset (data : Z) : Z := Z.shiftr (Z.land data 16711680) 16.
Definition int_encoding (data : Z) : Z := Z.shiftr (Z.land data 251658240) 24.
Definition func_linkage (info : Z) : Z := Z.land info 65535.
Definition set_linkage (info linkage : Z) : Z := Z.lor (Z.land info 4294901760) (Z.land linkage 65535).
Definition info_flag (info : Z) : bool := Z.shiftr info 31 =? 1.
Definition member_bit_offset (info : Z) (m : member) : Z :=
  if info_flag info then Z.land (m_off m) 16777215 else m_off m.
Definition member_bit_field_size (info : Z) (m : member) : Z :=
  if info_flag info then Z.shiftr (m_off m) 24 else 0.

Definition is_composite (t : btype) : bool := match t with TStruct _ _ | TUnion _ _ _ => true | _ => false end.

(** [is_compatible], types.rs:1444-1453. *)
Definition is_compatible (a b : btype) : bool :=
  kind_eqb (kind_of a) (kind_of b) ||
  match kind_of a, kind_of b with
  | KEnum, KEnum64 | KEnum64, KEnum => true
  | _, _ => false
  end.
