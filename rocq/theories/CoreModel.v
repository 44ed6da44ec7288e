(** CO-RE relocations: /repo/aya-obj/src/btf/relocation.rs:219-1298.
    Sizes and offsets are [usize] on a 64-bit host and [u32]; additions,
    subtractions and products wrap (release profile).  Error values keep the
    variant and drop the diagnostic payload.  [RPanic] marks [unwrap],
    [unreachable!], index and division panics, [RStack] an exhausted stack
    (the recursion of [match_member] through anonymous members and of
    [types_are_compatible] through parameters is not bounded by the code;
    [stack] is the bound of the model). *)
From Verif Require Import Base Text Insn LinkModel BtfTypes BtfModel BtfExt.
Local Open Scope Z_scope.

Inductive rerr :=
| RBtf (e : berr) | RInvalidAccessString | RInvalidAccessIndex | RInvalidKindForType
| RMaxNesting | RConflict | RFunctionNotFound | RInvalidInsIndex | RInvalidInsn
| RMissingTarget | RSectionNotFound | RPanic | RStack.

(** Not a value the code returns: the process aborts. *)
Definition fatal (e : rerr) : bool :=
  match e with RPanic | RStack | RBtf BPanic => true | _ => false end.

Definition lift {A} (r : res berr A) : res rerr A :=
  match r with Ok a => Ok a | Err e => Err (RBtf e) end.

(** [Result::ok], which does not catch panics. *)
Definition ok_opt {A} (r : res rerr A) : res rerr (option A) :=
  match r with Ok a => Ok (Some a) | Err e => if fatal e then Err e else Ok None end.

(** [RelocationKind], relocation.rs:115-190; the numbers of the uapi enum. *)
Inductive rkind :=
| FByteOffset | FByteSize | FExists | FSigned | FLShift64 | FRShift64
| TIdLocal | TIdTarget | TExists | TSize | EExists | EValue.
Definition rkind_of (n : Z) : rkind :=
  nth (Z.to_nat n) [FByteOffset; FByteSize; FExists; FSigned; FLShift64; FRShift64;
                    TIdLocal; TIdTarget; TExists; TSize; EExists] EValue.

Inductive rclass := CField | CType | CEnum.
Definition class_of (k : rkind) : rclass :=
  match k with
  | FByteOffset | FByteSize | FExists | FSigned | FLShift64 | FRShift64 => CField
  | TIdLocal | TIdTarget | TExists | TSize => CType
  | EExists | EValue => CEnum
  end.

(** [Accessor] 876-880 and [AccessSpec] 658-666 (the relocation and the BTF are
    passed separately). *)
Record accessor := { ac_type : Z; ac_index : Z; ac_name : option (list Z) }.
Record spec := { sp_root : Z; sp_parts : list Z; sp_acc : list accessor; sp_bit : Z }.

Definition push_part (i : Z) (s : spec) : spec :=
  {| sp_root := sp_root s; sp_parts := sp_parts s ++ [i]; sp_acc := sp_acc s; sp_bit := sp_bit s |}.
Definition push_acc (a : accessor) (s : spec) : spec :=
  {| sp_root := sp_root s; sp_parts := sp_parts s; sp_acc := sp_acc s ++ [a]; sp_bit := sp_bit s |}.
Definition add_bit (n : Z) (s : spec) : spec :=
  {| sp_root := sp_root s; sp_parts := sp_parts s; sp_acc := sp_acc s; sp_bit := u64 (sp_bit s + n) |}.

(** [split(':')] and [str::parse::<usize>] (one leading '+' is accepted). *)
Fixpoint split_on (c : Z) (l : list Z) : list (list Z) :=
  match l with
  | [] => [[]]
  | x :: r =>
      if x =? c then [] :: split_on c r
      else match split_on c r with p :: ps => (x :: p) :: ps | [] => [[x]] end
  end.
Definition digits_val (s : list Z) : option Z :=
  match s with
  | [] => None
  | _ => if forallb is_digit s && (dec_val s <? 2 ^ 64) then Some (dec_val s) else None
  end.
Definition parse_usize (s : list Z) : option Z :=
  match s with
  | 43 :: r => digits_val r
  | _ => digits_val s
  end.
Definition parse_parts (s : list Z) : res rerr (list Z) :=
  mapM (fun p => match parse_usize p with Some n => Ok n | None => Err RInvalidAccessString end) (split_on 58 s).

Definition zget {A} (i : Z) (l : list A) : option A :=
  if (0 <=? i) && (i <? Z.of_nat (length l)) then nth_error l (Z.to_nat i) else None.

(** [info] word and members of a struct or union. *)
Definition members_of (t : btype) : option (Z * list member) :=
  match t with
  | TStruct h ms => Some (h_info h, ms)
  | TUnion h ms _ => Some (h_info h, ms)
  | _ => None
  end.

(** Names of the variants of an enum, or of the fallback of an enum64 that was
    turned into a union. *)
Definition variant_names (t : btype) : option (list Z) :=
  match t with
  | TEnum _ vs => Some (map fst vs)
  | TEnum64 _ vs => Some (map (fun v => fst (fst v)) vs)
  | TUnion _ _ (Some fb) => Some (map fst (fb_variants fb))
  | _ => None
  end.

Definition last_acc (s : list accessor) : option accessor := nth_error (rev s) 0.

(** One further index of a field access string, relocation.rs:789-858.  The
    array case tests [index], not the parent's index, against the last member. *)
Record walk := { w_type : Z; w_acc : list accessor; w_bit : Z }.
Definition access_step (b : btf) (w : walk) (index : Z) : res rerr walk :=
  bind (lift (resolve_type (b_types b) (w_type w))) (fun id =>
  bind (lift (type_by_id (b_types b) id)) (fun ty =>
  match ty with
  | TStruct _ _ | TUnion _ _ _ =>
      match members_of ty with
      | None => Err RPanic
      | Some (info, ms) =>
          match zget index ms with
          | None => Err RInvalidAccessIndex
          | Some m =>
              bind (if m_name m =? 0 then Ok (w_acc w)
                    else bind (lift (string_at b (m_name m))) (fun n =>
                         Ok (w_acc w ++ [{| ac_type := id; ac_index := index; ac_name := Some n |}]))) (fun acc =>
              Ok {| w_type := m_type m; w_acc := acc; w_bit := u64 (w_bit w + member_bit_offset info m) |})
          end
      end
  | TArray _ elem _ len =>
      bind (lift (resolve_type (b_types b) elem)) (fun eid =>
      bind (if len =? 0 then
              match last_acc (w_acc w) with
              | None => Err RPanic
              | Some p =>
                  bind (lift (type_by_id (b_types b) (ac_type p))) (fun pt =>
                  Ok (match pt with
                      | TStruct _ ms => index =? u64 (Z.of_nat (length ms) - 1)
                      | _ => false
                      end))
              end
            else Ok false) (fun var_len =>
      if negb var_len && (len <=? index) then Err RInvalidAccessIndex
      else
        bind (lift (type_size (b_types b) eid)) (fun size =>
        Ok {| w_type := eid;
              w_acc := w_acc w ++ [{| ac_type := eid; ac_index := index; ac_name := None |}];
              w_bit := u64 (w_bit w + u64 (u64 (index * size) * 8)) |})))
  | _ => Err RInvalidKindForType
  end)).
Fixpoint access_walk (b : btf) (w : walk) (parts : list Z) : res rerr walk :=
  match parts with
  | [] => Ok w
  | i :: r => bind (access_step b w i) (fun w => access_walk b w r)
  end.

(** [AccessSpec::new], 668-873.  The initial offset is [index * size], without
    the factor 8 the other terms have (line 788). *)
Definition access_new (b : btf) (k : rkind) (root : Z) (s : list Z) : res rerr spec :=
  bind (parse_parts s) (fun parts =>
  bind (lift (resolve_type (b_types b) root)) (fun id =>
  bind (lift (type_by_id (b_types b) id)) (fun ty =>
  match class_of k with
  | CType =>
      if str_eqb parts [0] then Ok {| sp_root := root; sp_parts := parts; sp_acc := []; sp_bit := 0 |}
      else Err RInvalidAccessString
  | CEnum =>
      match variant_names ty with
      | None => Err RInvalidKindForType
      | Some ns =>
          match parts with
          | [i] =>
              match zget i ns with
              | None => Err RInvalidAccessIndex
              | Some no =>
                  bind (lift (string_at b no)) (fun n =>
                  Ok {| sp_root := root; sp_parts := parts;
                        sp_acc := [{| ac_type := id; ac_index := i; ac_name := Some n |}]; sp_bit := 0 |})
              end
          | _ => Err RInvalidAccessString
          end
      end
  | CField =>
      match parts with
      | [] => Err RPanic
      | i :: r =>
          bind (lift (type_size (b_types b) id)) (fun size =>
          bind (access_walk b {| w_type := id;
                                 w_acc := [{| ac_type := id; ac_index := i; ac_name := None |}];
                                 w_bit := u64 (i * size) |} r) (fun w =>
          Ok {| sp_root := root; sp_parts := parts; sp_acc := w_acc w; sp_bit := w_bit w |}))
      end
  end))).

(** [find_candidates], 401-442: ids and names, in target order. *)
Definition cand_kind (l t : btype) : bool :=
  kind_eqb (kind_of t) (kind_of l) ||
  match l with TUnion _ _ (Some _) => kind_eqb (kind_of t) KEnum64 | _ => false end.
Fixpoint find_cands (tb : btf) (l : btype) (lname : list Z) (ts : list btype) (id : Z) : res rerr (list (Z * list Z)) :=
  match ts with
  | [] => Ok []
  | t :: ts =>
      if cand_kind l t then
        bind (lift (type_name tb t)) (fun n =>
        bind (find_cands tb l lname ts (id + 1)) (fun r =>
        Ok (if str_eqb (flavorless lname) (flavorless n) then (u32 id, n) :: r else r)))
      else find_cands tb l lname ts (id + 1)
  end.
Definition find_candidates (tb : btf) (l : btype) (lname : list Z) : res rerr (list (Z * list Z)) :=
  find_cands tb l lname (b_types tb) 0.

Definition MAX_SPEC_LEN : nat := 64.

(** The member loop of [match_member], 609-653. *)
Fixpoint member_loop (rec : Z -> spec -> res rerr (option Z * spec)) (lb tb : btf) (lname : list Z)
    (ltype tid info : Z) (ms : list member) (i : Z) (sp : spec) : res rerr (option Z * spec) :=
  match ms with
  | [] => Ok (None, sp)
  | m :: ms =>
      if (length (sp_parts sp) =? MAX_SPEC_LEN)%nat then Err RMaxNesting
      else
        bind (lift (string_at tb (m_name m))) (fun tn =>
        match tn with
        | [] =>
            bind (rec (m_type m) sp) (fun r =>
            match fst r with
            | Some _ => Ok (fst r, push_part i (add_bit (member_bit_offset info m) (snd r)))
            | None => member_loop rec lb tb lname ltype tid info ms (i + 1) (snd r)
            end)
        | _ =>
            if str_eqb lname tn then
              bind (lift (fields_are_compatible lb tb ltype (m_type m))) (fun c =>
              if c then
                Ok (Some (m_type m),
                    push_acc {| ac_type := tid; ac_index := i; ac_name := Some tn |}
                      (push_part i (add_bit (member_bit_offset info m) sp)))
              else Ok (None, sp))
            else member_loop rec lb tb lname ltype tid info ms (i + 1) sp
        end)
  end.

(** [match_member], 582-656, for the local member called [lname] of type
    [ltype]. *)
Fixpoint match_member_go (stack : nat) (lb tb : btf) (lname : list Z) (ltype tid : Z) (sp : spec)
    : res rerr (option Z * spec) :=
  match stack with
  | O => Err RStack
  | S stack =>
      bind (lift (resolve_type (b_types tb) tid)) (fun tid =>
      bind (lift (type_by_id (b_types tb) tid)) (fun ty =>
      match members_of ty with
      | None => Ok (None, sp)
      | Some (info, ms) =>
          member_loop (match_member_go stack lb tb lname ltype) lb tb lname ltype tid info ms 0 sp
      end))
  end.
Definition match_member (stack : nat) (lb tb : btf) (a : accessor) (tid : Z) (sp : spec)
    : res rerr (option Z * spec) :=
  bind (lift (type_by_id (b_types lb) (ac_type a))) (fun lty =>
  match members_of lty with
  | None => Err RPanic
  | Some (_, ms) =>
      match zget (ac_index a) ms with
      | None => Err RPanic
      | Some m =>
          bind (lift (string_at lb (m_name m))) (fun lname =>
          match_member_go stack lb tb lname (m_type m) tid sp)
      end
  end).

(** The accessor loop of [match_candidate], 520-577; [first] is [i == 0]. *)
Definition match_index (tb : btf) (first : bool) (a : accessor) (tid : Z) (sp : spec)
    : res rerr (option (Z * spec)) :=
  bind (if first then Ok (Some tid)
        else
          bind (lift (type_by_id (b_types tb) tid)) (fun ty =>
          match ty with
          | TArray _ elem _ len =>
              bind (if len =? 0 then
                      match last_acc (sp_acc sp) with
                      | None => Err RPanic
                      | Some p =>
                          bind (lift (type_by_id (b_types tb) (ac_type p))) (fun pt =>
                          Ok (match pt with
                              | TStruct _ ms => ac_index p =? u64 (Z.of_nat (length ms) - 1)
                              | _ => false
                              end))
                      end
                    else Ok false) (fun var_len =>
              if negb var_len && (len <=? ac_index a) then Ok None
              else bind (lift (resolve_type (b_types tb) elem)) (fun id => Ok (Some id)))
          | _ => Ok None
          end)) (fun r =>
  match r with
  | None => Ok None
  | Some tid =>
      if (length (sp_parts sp) =? MAX_SPEC_LEN)%nat then Err RMaxNesting
      else
        bind (lift (type_size (b_types tb) tid)) (fun size =>
        Ok (Some (tid, add_bit (u64 (u64 (ac_index a * size) * 8))
                         (push_acc {| ac_type := tid; ac_index := ac_index a; ac_name := None |}
                            (push_part (ac_index a) sp)))))
  end).
Fixpoint match_fields (stack : nat) (lb tb : btf) (first : bool) (acc : list accessor) (tid : Z) (sp : spec)
    : res rerr (option spec) :=
  match acc with
  | [] => Ok (Some sp)
  | a :: acc =>
      bind (lift (resolve_type (b_types tb) tid)) (fun tid =>
      match ac_name a with
      | Some _ =>
          bind (match_member stack lb tb a tid sp) (fun r =>
          match fst r with
          | Some next => match_fields stack lb tb false acc next (snd r)
          | None => Ok None
          end)
      | None =>
          bind (match_index tb first a tid sp) (fun r =>
          match r with
          | Some (next, sp) => match_fields stack lb tb false acc next sp
          | None => Ok None
          end)
      end)
  end.

(** [match_enum], 475-495. *)
Fixpoint match_variant (tb : btf) (lname : list Z) (tid : Z) (ns : list Z) (i : Z) (sp : spec) : res rerr (option spec) :=
  match ns with
  | [] => Ok None
  | no :: ns =>
      bind (lift (string_at tb no)) (fun n =>
      if str_eqb (flavorless lname) (flavorless n)
      then Ok (Some (push_acc {| ac_type := tid; ac_index := i; ac_name := None |} (push_part i sp)))
      else match_variant tb lname tid ns (i + 1) sp)
  end.

(** [match_candidate], 444-580. *)
Definition match_candidate (stack : nat) (lb tb : btf) (k : rkind) (ls : spec) (cid : Z) : res rerr (option spec) :=
  let sp := {| sp_root := cid; sp_parts := []; sp_acc := []; sp_bit := 0 |} in
  match class_of k with
  | CType =>
      match compat stack (b_types lb) (b_types tb) (sp_root ls) cid with
      | CStack => Err RStack
      | CRes r => bind (lift r) (fun c => Ok (if c then Some sp else None))
      end
  | CEnum =>
      bind (lift (resolve_type (b_types tb) cid)) (fun tid =>
      bind (lift (type_by_id (b_types tb) tid)) (fun ty =>
      match variant_names ty with
      | None => Ok None
      | Some ns =>
          match sp_acc ls with
          | {| ac_name := Some lname |} :: _ => match_variant tb lname tid ns 0 sp
          | _ => Err RPanic
          end
      end))
  | CField => match_fields stack lb tb true (sp_acc ls) cid sp
  end.

(** [ComputedRelocationValue] 896-901. *)
Record rval := { v_value : Z; v_size : Z; v_type : option Z }.
Definition only (v : Z) : rval := {| v_value := v; v_size := 0; v_type := None |}.

(** The storage unit search for a bitfield, 1182-1194.  The unit starts at
    [size] bytes and doubles until the field fits; division by a zero size
    panics.  The loop runs at most four times because it stops at 8 bytes. *)
Fixpoint unit_loop (fuel : nat) (bit_off bit_size size : Z) : res rerr (Z * Z) :=
  match fuel with
  | O => Err RPanic
  | S fuel =>
      if size =? 0 then Err RPanic
      else
        let byte_off := bit_off / 8 / size * size in
        if u32 (size * 8) <? u32 (bit_off + bit_size - byte_off * 8) then
          if 8 <=? size then Err (RBtf BInvalidTypeInfo)
          else unit_loop fuel bit_off bit_size (size * 2)
        else Ok (byte_off, size)
  end.
Definition load_unit (bit_off bit_size size : Z) : res rerr (Z * Z) := unit_loop 5 bit_off bit_size size.

(** The numbers a field relocation is made of: byte offset and size of the
    load, bit offset and size of the field. *)
Record place := { p_bitfield : bool; p_byte_off : Z; p_byte_size : Z; p_bit_off : Z; p_bit_size : Z }.

(** [IntEncoding::from], types.rs:321-332: encodings other than 0, 1, 2 and 4
    become [Unknown], whose discriminant is 5. *)
Definition encoding_disc (e : Z) : Z :=
  if (e =? 0) || (e =? 1) || (e =? 2) || (e =? 4) then e else 5.

Definition type_signed (t : btype) : Z :=
  match t with
  | TEnum h _ | TEnum64 h _ => Z.b2z (info_flag (h_info h))
  | TInt _ data => Z.land (encoding_disc (int_encoding data)) 1
  | _ => 0
  end.

(** 1169-1200. *)
Definition field_place (b : btf) (bit : Z) (info : Z) (m : member) : res rerr (place * Z * btype) :=
  let bit_off := u32 bit in
  bind (lift (resolve_type (b_types b) (m_type m))) (fun mid =>
  bind (lift (type_by_id (b_types b) mid)) (fun mty =>
  let bit_size := member_bit_field_size info m in
  if 0 <? bit_size then
    match size_of mty with
    | None => Err RPanic
    | Some size =>
        bind (load_unit bit_off bit_size size) (fun r =>
        Ok ({| p_bitfield := true; p_byte_off := fst r; p_byte_size := snd r;
               p_bit_off := bit_off; p_bit_size := bit_size |}, mid, mty))
    end
  else
    bind (lift (type_size (b_types b) mid)) (fun size =>
    Ok ({| p_bitfield := false; p_byte_off := bit_off / 8; p_byte_size := u32 size;
           p_bit_off := bit_off; p_bit_size := u32 (u32 size * 8) |}, mid, mty)))).

(** 1202-1264; [be] is [cfg!(target_endian = "big")]. *)
Definition lshift64 (be : bool) (p : place) : Z :=
  if be then u32 (u32 ((8 - p_byte_size p) * 8) + u32 (p_bit_off p - p_byte_off p * 8))
  else u64 (64 - u32 (p_bit_off p + p_bit_size p - p_byte_off p * 8)).
Definition rshift64 (p : place) : Z := u64 (64 - p_bit_size p).
Definition field_value (be : bool) (k : rkind) (p : place) (mid : Z) (mty : btype) : res rerr rval :=
  match k with
  | FByteOffset =>
      Ok {| v_value := p_byte_off p;
            v_size := if p_bitfield p then 0 else p_byte_size p;
            v_type := if p_bitfield p then None else Some mid |}
  | FByteSize => Ok (only (p_byte_size p))
  | FSigned => Ok (only (type_signed mty))
  | FLShift64 => Ok (only (lshift64 be p))
  | FRShift64 => Ok (only (rshift64 p))
  | _ => Err RPanic
  end.

(** [compute_field_relocation], 1128-1267. *)
Definition compute_field (be : bool) (b : btf) (k : rkind) (s : option spec) : res rerr rval :=
  match k with
  | FExists => Ok (only (match s with Some _ => 1 | None => 0 end))
  | _ =>
      match s with
      | None => Err RMissingTarget
      | Some s =>
          match last_acc (sp_acc s) with
          | None => Err RPanic
          | Some a =>
              match ac_name a with
              | None =>
                  match k with
                  | FByteOffset =>
                      bind (lift (type_size (b_types b) (ac_type a))) (fun size =>
                      Ok {| v_value := sp_bit s / 8; v_size := u32 size; v_type := Some (ac_type a) |})
                  | FByteSize =>
                      bind (lift (type_size (b_types b) (ac_type a))) (fun size =>
                      Ok {| v_value := size; v_size := 0; v_type := Some (ac_type a) |})
                  | _ =>
                      bind (lift (type_by_id (b_types b) (ac_type a))) (fun _ => Err RInvalidKindForType)
                  end
              | Some _ =>
                  bind (lift (type_by_id (b_types b) (ac_type a))) (fun ty =>
                  match members_of ty with
                  | None => Err RInvalidKindForType
                  | Some (info, ms) =>
                      match zget (ac_index a) ms with
                      | None => Err RPanic
                      | Some m =>
                          bind (field_place b (sp_bit s) info m) (fun r =>
                          let '(p, mid, mty) := r in field_value be k p mid mty)
                      end
                  end)
              end
          end
      end
  end.

(** [compute_type_relocation], 1269-1297. *)
Definition compute_type (tb : btf) (k : rkind) (ls : spec) (ts : option spec) : res rerr rval :=
  match k, ts with
  | TIdLocal, _ => Ok (only (sp_root ls))
  | TIdTarget, Some ts => Ok (only (sp_root ts))
  | TExists, ts => Ok (only (match ts with Some _ => 1 | None => 0 end))
  | TSize, Some ts => bind (lift (type_size (b_types tb) (sp_root ts))) (fun n => Ok (only n))
  | _, _ => Err RMissingTarget
  end.

(** [compute_enum_relocation], 1075-1126. *)
Definition variant_value (t : btype) (i : Z) : option Z :=
  match t with
  | TEnum h vs =>
      match zget i vs with
      | Some v => Some (if info_flag (h_info h) then u64 (i32 (snd v)) else snd v)
      | None => None
      end
  | TEnum64 _ vs =>
      match zget i vs with
      | Some v => Some (Z.lor (Z.shiftl (snd v) 32) (snd (fst v)))
      | None => None
      end
  | TUnion _ _ (Some fb) => match zget i (fb_variants fb) with Some v => Some (snd v) | None => None end
  | _ => None
  end.
Definition compute_enum (b : btf) (k : rkind) (s : option spec) : res rerr rval :=
  match k, s with
  | EExists, s => Ok (only (match s with Some _ => 1 | None => 0 end))
  | EValue, Some s =>
      match sp_acc s with
      | [] => Err RPanic
      | a :: _ =>
          bind (lift (type_by_id (b_types b) (ac_type a))) (fun t =>
          match variant_value t (ac_index a) with Some v => Ok (only v) | None => Err RPanic end)
      end
  | _, _ => Err RMissingTarget
  end.

(** [ComputedRelocation::new], 912-941. *)
Record computed := { c_local : rval; c_target : option rval }.
Definition compute (be : bool) (lb tb : btf) (k : rkind) (ls : spec) (ts : option spec) : res rerr computed :=
  let local :=
    match class_of k with
    | CField => compute_field be lb k (Some ls)
    | CType => compute_type tb k ls ts
    | CEnum => compute_enum lb k (Some ls)
    end in
  let target :=
    match class_of k with
    | CField => compute_field be tb k ts
    | CType => compute_type tb k ls ts
    | CEnum => compute_enum tb k ts
    end in
  bind local (fun l => bind (ok_opt target) (fun t => Ok {| c_local := l; c_target := t |})).

(** The conflict check, 352-386: [matches] are (bit offset, computed). *)
Definition agrees (first other : Z * computed) : bool :=
  (fst other =? fst first) &&
  match c_target (snd other), c_target (snd first) with
  | Some o, Some f => v_value o =? v_value f
  | _, _ => true
  end.
Definition choose (ms : list (Z * computed)) : res rerr (option computed) :=
  match ms with
  | [] => Ok None
  | m :: ms => if forallb (agrees m) ms then Ok (Some (snd m)) else Err RConflict
  end.

(** The candidate loop, 333-343. *)
Fixpoint match_all (stack : nat) (be : bool) (lb tb : btf) (k : rkind) (ls : spec) (cands : list (Z * list Z))
    : res rerr (list (Z * computed)) :=
  match cands with
  | [] => Ok []
  | c :: cands =>
      bind (match_candidate stack lb tb k ls (fst c)) (fun r =>
      match r with
      | None => match_all stack be lb tb k ls cands
      | Some ts =>
          bind (compute be lb tb k ls (Some ts)) (fun cr =>
          bind (match_all stack be lb tb k ls cands) (fun ms => Ok ((sp_bit ts, cr) :: ms)))
      end)
  end.

(** 322-386 for given candidates. *)
Definition decide (stack : nat) (be : bool) (lb tb : btf) (k : rkind) (ls : spec) (cands : list (Z * list Z))
    : res rerr computed :=
  bind (match_all stack be lb tb k ls cands) (fun ms =>
  bind (choose ms) (fun r =>
  match r with
  | Some c => Ok c
  | None => compute be lb tb k ls None
  end)).

(** [poison_insn], 903-909. *)
Definition poison : insn := {| code := CALL_CODE; dst := 0; src := 0; off := 0; imm := 195896080 |}.
Definition set_code (v : Z) (i : insn) : insn :=
  {| code := v; dst := dst i; src := src i; off := off i; imm := imm i |}.

(** Size bits of a load or store, 1026-1039. *)
Definition size_bits (size : Z) : option Z :=
  if size =? 8 then Some 24 else if size =? 4 then Some 0 else if size =? 2 then Some 8
  else if size =? 1 then Some 16 else None.
Definition int_unsigned (data : Z) : bool := Z.land (Z.shiftr data 24) 1 =? 0.

(** 1003-1042: the load width for a size that differs from the local one. *)
Definition resize (lb tb : btf) (local target : rval) (c : Z) : res rerr Z :=
  if v_size local =? v_size target then Ok c
  else
    match v_type local, v_type target with
    | Some lt, tgt =>
        bind (lift (type_by_id (b_types lb) lt)) (fun lty =>
        match tgt with
        | None => Err RPanic
        | Some tt' =>
            bind (lift (type_by_id (b_types tb) tt')) (fun tty =>
            if match lty, tty with
               | TPtr _, TPtr _ => true
               | TInt _ ld, TInt _ td => int_unsigned ld && int_unsigned td
               | _, _ => false
               end
            then match size_bits (v_size target) with
                 | Some s => Ok (Z.lor (Z.lor (Z.land c 224) s) (Z.land c 7))
                 | None => Err RInvalidInsn
                 end
            else Err RInvalidInsn)
        end)
    | None, _ => Err RPanic
    end.

(** [apply], 943-1073, on the instruction list; on an error the partial
    writes are not represented because the load is abandoned. *)
Definition apply_at (lb tb : btf) (c : computed) (ins : list insn) (idx : Z) : res rerr (list insn) :=
  match zget idx ins with
  | None => Err RInvalidInsIndex
  | Some x =>
      let i := Z.to_nat idx in
      match c_target c with
      | None =>
          if code x =? LDDW_CODE then
            match nth_error ins (S i) with
            | None => Err RInvalidInsIndex
            | Some _ => Ok (upd (S i) poison (upd i poison ins))
            end
          else Ok (upd i poison ins)
      | Some t =>
          let class := Z.land (code x) 7 in
          if (class =? 4) || (class =? 7) then
            if src x =? 0 then Ok (upd i (set_imm (i32 (v_value t)) x) ins) else Err RInvalidInsn
          else if (class =? 1) || (class =? 2) || (class =? 3) then
            if 32767 <? v_value t then Err RInvalidInsn
            else bind (resize lb tb (c_local c) t (code x)) (fun cd =>
                 Ok (upd i (set_code cd (set_off (i16 (v_value t)) x)) ins))
          else if class =? 0 then
            match nth_error ins (S i) with
            | None => Err RInvalidInsIndex
            | Some y =>
                Ok (upd (S i) (set_imm (i32 (Z.shiftr (v_value t) 32)) y)
                      (upd i (set_imm (i32 (v_value t)) x) ins))
            end
          else Err RInvalidInsn
      end
  end.

(** [is_relocation_inside_function] 264-279 and [function_by_relocation]
    281-293; [funs] in the order of the BTreeMap. *)
Definition inside (sec : nat) (f : func) (r : relo) : bool :=
  (sec =? f_sec f)%nat &&
  (f_secoff f / 8 <=? rl_ins_off r / 8) &&
  (rl_ins_off r / 8 <? f_secoff f / 8 + Z.of_nat (length (f_ins f))).
Fixpoint find_fun (sec : nat) (r : relo) (funs : list func) (i : nat) : option nat :=
  match funs with
  | [] => None
  | f :: funs => if inside sec f r then Some i else find_fun sec r funs (S i)
  end.
Definition pick_fun (sec : nat) (r : relo) (funs : list func) (last : option nat) : option nat :=
  match last with
  | Some i =>
      match nth_error funs i with
      | Some f => if inside sec f r then Some i else find_fun sec r funs 0
      | None => find_fun sec r funs 0
      end
  | None => find_fun sec r funs 0
  end.
Definition set_ins (f : func) (ins : list insn) : func :=
  {| f_sec := f_sec f; f_addr := f_addr f; f_secoff := f_secoff f; f_ins := ins;
     f_finfo := f_finfo f; f_linfo := f_linfo f |}.

(** Candidates, remembered per local type id, 322-332. *)
Definition cache := list (Z * list (Z * list Z)).
Definition cached_cands (tb : btf) (ch : cache) (id : Z) (l : btype) (lname : list Z)
    : res rerr (list (Z * list Z) * cache) :=
  match assoc Z.eqb id ch with
  | Some c => Ok (c, ch)
  | None => bind (find_candidates tb l lname) (fun c => Ok (c, (id, c) :: ch))
  end.

(** The value of one relocation, 311-386. *)
Definition solve (stack : nat) (be : bool) (lb tb : btf) (ch : cache) (r : relo) : res rerr (computed * cache) :=
  let k := rkind_of (rl_kind r) in
  bind (lift (type_by_id (b_types lb) (rl_type r))) (fun lty =>
  bind (lift (type_name lb lty)) (fun lname =>
  bind (lift (string_at lb (rl_access r))) (fun acc =>
  bind (access_new lb k (rl_type r) acc) (fun ls =>
  match k with
  | TIdLocal => bind (compute be lb tb k ls None) (fun c => Ok (c, ch))
  | _ =>
      bind (cached_cands tb ch (rl_type r) lty lname) (fun cc =>
      bind (decide stack be lb tb k ls (fst cc)) (fun c => Ok (c, snd cc)))
  end)))).

(** [relocate_btf_functions], 295-395. *)
Fixpoint relocate_funs (stack : nat) (be : bool) (lb tb : btf) (sec : nat) (rs : list relo)
    (funs : list func) (last : option nat) (ch : cache) : res rerr (list func * cache) :=
  match rs with
  | [] => Ok (funs, ch)
  | r :: rs =>
      match pick_fun sec r funs last with
      | None => Err RFunctionNotFound
      | Some i =>
          match nth_error funs i with
          | None => Err RFunctionNotFound
          | Some f =>
              let idx := u64 (rl_ins_off r - f_secoff f) / 8 in
              if Z.of_nat (length (f_ins f)) <=? idx then Err RInvalidInsIndex
              else
                bind (solve stack be lb tb ch r) (fun cc =>
                bind (apply_at lb tb (fst cc) (f_ins f) idx) (fun ins =>
                relocate_funs stack be lb tb sec rs (upd i (set_ins f ins) funs) (Some i) (snd cc)))
          end
      end
  end.

(** [relocate_btf], 220-262; [sections] is [section_infos], [relos] the pairs
    of section name offset and records of the .BTF.ext table. *)
Fixpoint relocate_secs (stack : nat) (be : bool) (lb tb : btf) (sections : list (list Z * nat))
    (relos : list (Z * list relo)) (funs : list func) (ch : cache) : res rerr (list func * cache) :=
  match relos with
  | [] => Ok (funs, ch)
  | (off, rs) :: relos =>
      bind (lift (string_at lb off)) (fun name =>
      match assoc str_eqb name sections with
      | None => Err RSectionNotFound
      | Some sec =>
          bind (relocate_funs stack be lb tb sec rs funs None ch) (fun r =>
          relocate_secs stack be lb tb sections relos (fst r) (snd r))
      end)
  end.
Definition relocate_btf (stack : nat) (be : bool) (lb tb : btf) (sections : list (list Z * nat))
    (relos : list (Z * list relo)) (funs : list func) : res rerr (list func) :=
  bind (relocate_secs stack be lb tb sections relos funs []) (fun r => Ok (fst r)).
