(** Model of a whole BTF blob, /repo/aya-obj/src/btf/btf.rs, and of the type
    compatibility checks, types.rs:1464-1589.

    Simplifications: strings are byte strings ([to_string_lossy] is the
    identity on valid UTF-8); 32-bit additions wrap as in a release build;
    the extern collection of [Btf] is kept in the files that use it. *)
From Verif Require Import Base Text BtfTypes.
Local Open Scope Z_scope.

(** [btf_header], generated/btf_internal_bindings.rs. *)
Record bhdr := {
  bh_magic : Z; bh_version : Z; bh_flags : Z;
  bh_hdr_len : Z; bh_type_off : Z; bh_type_len : Z; bh_str_off : Z; bh_str_len : Z
}.
(** [Btf], btf.rs:237-245; [b_types] includes [Unknown] at id 0. *)
Record btf := { b_hdr : bhdr; b_strings : list Z; b_types : list btype }.

Definition set_types (b : btf) (ts : list btype) : btf :=
  {| b_hdr := b_hdr b; b_strings := b_strings b; b_types := ts |}.

(** [Btf::new], btf.rs:257-274. *)
Definition btf_new : btf :=
  {| b_hdr := {| bh_magic := 60319; bh_version := 1; bh_flags := 0; bh_hdr_len := 24;
                 bh_type_off := 0; bh_type_len := 0; bh_str_off := 0; bh_str_len := 0 |};
     b_strings := [0]; b_types := [TUnknown] |}.

(** [add_string], btf.rs:285-292. *)
Definition add_string (b : btf) (name : list Z) : btf * Z :=
  let s := b_strings b ++ name ++ [0] in
  let h := b_hdr b in
  ({| b_hdr := {| bh_magic := bh_magic h; bh_version := bh_version h; bh_flags := bh_flags h;
                  bh_hdr_len := bh_hdr_len h; bh_type_off := bh_type_off h; bh_type_len := bh_type_len h;
                  bh_str_off := bh_str_off h; bh_str_len := u32 (Z.of_nat (length s)) |};
      b_strings := s; b_types := b_types b |},
   u32 (Z.of_nat (length (b_strings b)))).

(** [add_type], btf.rs:246-253. *)
Definition add_type (b : btf) (t : btype) : btf * Z :=
  let h := b_hdr b in
  let size := u32 (Z.of_nat (type_info_size t)) in
  ({| b_hdr := {| bh_magic := bh_magic h; bh_version := bh_version h; bh_flags := bh_flags h;
                  bh_hdr_len := bh_hdr_len h; bh_type_off := bh_type_off h;
                  bh_type_len := u32 (bh_type_len h + size); bh_str_off := u32 (bh_str_off h + size);
                  bh_str_len := bh_str_len h |};
      b_strings := b_strings b; b_types := b_types b ++ [t] |},
   u32 (Z.of_nat (length (b_types b)))).

Definition hdr_bytes (h : bhdr) : list Z :=
  le_enc 2 (bh_magic h) ++ le_enc 1 (bh_version h) ++ le_enc 1 (bh_flags h) ++
  words [bh_hdr_len h; bh_type_off h; bh_type_len h; bh_str_off h; bh_str_len h].

Definition types_bytes (ts : list btype) : list Z := concat (map to_bytes ts).

(** [Btf::to_bytes] and [BtfTypes::to_bytes], btf.rs:457-464, 1248-1256. *)
Definition btf_to_bytes (b : btf) : list Z :=
  hdr_bytes (b_hdr b) ++ types_bytes (skipn 1 (b_types b)) ++ b_strings b.

(** [read_btf_header], btf.rs:968-971. *)
Definition read_hdr (d : list Z) : bhdr :=
  let w := unwords 5 (skipn 4 d) in
  {| bh_magic := le_dec (slice 0 2 d); bh_version := le_dec (slice 2 1 d); bh_flags := le_dec (slice 3 1 d);
     bh_hdr_len := nth 0 w 0; bh_type_off := nth 1 w 0; bh_type_len := nth 2 w 0;
     bh_str_off := nth 3 w 0; bh_str_len := nth 4 w 0 |}.

(** The loop of [read_type_info], btf.rs:360-370.  Each type takes at least 12
    bytes, so the length of the input is enough fuel. *)
Fixpoint read_types (fuel : nat) (d : list Z) : res berr (list btype) :=
  match d with
  | [] => Ok []
  | _ =>
      match fuel with
      | O => Err BPanic
      | S fuel =>
          bind (read d) (fun t =>
            if (length d <? type_info_size t)%nat then Err BPanic
            else bind (read_types fuel (skipn (type_info_size t) d)) (fun ts => Ok (t :: ts)))
      end
  end.

(** [Btf::parse] and [read_type_info], btf.rs:320-371. *)
Definition btf_parse (d : list Z) : res berr btf :=
  if (length d <? 24)%nat then Err BInvalidHeader
  else
    let h := read_hdr d in
    let str_off := bh_hdr_len h + bh_str_off h in
    if Z.of_nat (length d) <? str_off + bh_str_len h then Err BInvalidHeader
    else
      let strings := slice (Z.to_nat str_off) (Z.to_nat (bh_str_len h)) d in
      let base := bh_hdr_len h + bh_type_off h in
      if Z.of_nat (length d) <? base + bh_type_len h then Err BInvalidTypeInfo
      else
        let td := slice (Z.to_nat base) (Z.to_nat (bh_type_len h)) d in
        bind (read_types (length td) td) (fun ts =>
          Ok {| b_hdr := h; b_strings := strings; b_types := TUnknown :: ts |}).

(** [CStr::from_bytes_until_nul]. *)
Fixpoint until_nul (l : list Z) : option (list Z) :=
  match l with
  | [] => None
  | x :: r => if x =? 0 then Some [] else option_map (cons x) (until_nul r)
  end.

(** [string_at], btf.rs:373-393; slicing past the end panics. *)
Definition string_at (b : btf) (offset : Z) : res berr (list Z) :=
  let h := b_hdr b in
  let str_off := u32 (bh_str_off h + bh_hdr_len h) in
  if u32 (str_off + bh_str_len h) <=? offset then Err (BInvalidStringOffset offset)
  else if Z.of_nat (length (b_strings b)) <? offset then Err BPanic
  else match until_nul (skipn (Z.to_nat offset) (b_strings b)) with
       | Some s => Ok s
       | None => Err (BInvalidStringOffset offset)
       end.

(** [type_by_id], btf.rs:1266-1270. *)
Definition type_by_id (ts : list btype) (id : Z) : res berr btype :=
  match nth_error ts (Z.to_nat id) with
  | Some t => if 0 <=? id then Ok t else Err (BUnknownBtfType id)
  | None => Err (BUnknownBtfType id)
  end.

(** [type_name], btf.rs:403-405. *)
Definition type_name (b : btf) (t : btype) : res berr (list Z) := string_at b (name_offset t).

(** [id_by_type_name_kind], btf.rs:412-425. *)
Fixpoint find_name_kind (b : btf) (ts : list btype) (i : Z) (name : list Z) (k : bkind) : res berr Z :=
  match ts with
  | [] => Err BUnknownBtfTypeName
  | t :: ts =>
      if kind_eqb (kind_of t) k
      then bind (type_name b t) (fun n => if str_eqb n name then Ok i else find_name_kind b ts (i + 1) name k)
      else find_name_kind b ts (i + 1) name k
  end.
Definition id_by_type_name_kind (b : btf) (name : list Z) (k : bkind) : res berr Z :=
  find_name_kind b (b_types b) 0 name k.

(** MAX_RESOLVE_DEPTH, btf.rs:31. *)
Definition MAX_RESOLVE_DEPTH : nat := 32.

(** [type_size], btf.rs:427-455. *)
Fixpoint type_size_loop (fuel : nat) (ts : list btype) (root id n_elems : Z) : res berr Z :=
  match fuel with
  | O => Err (BMaximumTypeDepthReached root)
  | S fuel =>
      bind (type_by_id ts id) (fun t =>
        match t with
        | TArray _ elem _ len => type_size_loop fuel ts root elem len
        | _ =>
            match size_of t with
            | Some size => Ok (u32 (size * n_elems))
            | None =>
                match btf_type t with
                | Some next => type_size_loop fuel ts root next n_elems
                | None => Err (BUnexpectedBtfType id)
                end
            end
        end)
  end.
Definition type_size (ts : list btype) (root : Z) : res berr Z :=
  type_size_loop MAX_RESOLVE_DEPTH ts root root 1.

(** [resolve_type], btf.rs:1272-1299. *)
Definition modifier (t : btype) : option Z :=
  match t with
  | TVolatile h | TConst h | TRestrict h | TTypedef h | TTypeTag h => Some (h_third h)
  | _ => None
  end.
Fixpoint resolve_loop (fuel : nat) (ts : list btype) (root id : Z) : res berr Z :=
  match fuel with
  | O => Err (BMaximumTypeDepthReached root)
  | S fuel =>
      bind (type_by_id ts id) (fun t =>
        match modifier t with
        | Some next => resolve_loop fuel ts root next
        | None => Ok id
        end)
  end.
Definition resolve_type (ts : list btype) (root : Z) : res berr Z :=
  resolve_loop MAX_RESOLVE_DEPTH ts root root.

(** Kinds that [types_are_compatible] accepts without looking further. *)
Definition compat_leaf (t : btype) : bool :=
  match t with
  | TUnknown | TStruct _ _ | TUnion _ _ _ | TEnum _ _ | TEnum64 _ _ | TFwd _ | TFloat _ => true
  | _ => false
  end.

(** What the recursion does when the stack is exhausted. *)
Inductive cres := CStack | CRes (r : res berr bool).

(** The parameter loop of [types_are_compatible], types.rs:1513-1519; [rec] is
    the recursive call. *)
Fixpoint compat_params (rec : Z -> Z -> cres) (lt tt : list btype) (lp tp : list (Z * Z)) : cres :=
  match lp, tp with
  | l :: lp, t :: tp =>
      match resolve_type lt (snd l), resolve_type tt (snd t) with
      | Ok lid, Ok tid =>
          match rec lid tid with
          | CRes (Ok true) => compat_params rec lt tt lp tp
          | other => other
          end
      | Err e, _ => CRes (Err e)
      | _, Err e => CRes (Err e)
      end
  | _, _ => CRes (Ok true)
  end.

(** The main loop, types.rs:1478-1535. *)
Fixpoint compat_loop (rec : Z -> Z -> cres) (lt tt : list btype) (rounds : nat) (lid tid : Z) : cres :=
  match rounds with
  | O => CRes (Err (BMaximumTypeDepthReached lid))
  | S rounds =>
      match resolve_type lt lid with
      | Err e => CRes (Err e)
      | Ok lid =>
      match resolve_type tt tid with
      | Err e => CRes (Err e)
      | Ok tid =>
      match type_by_id lt lid with
      | Err e => CRes (Err e)
      | Ok l =>
      match type_by_id tt tid with
      | Err e => CRes (Err e)
      | Ok t =>
          if negb (is_compatible l t) then CRes (Ok false)
          else if compat_leaf l then CRes (Ok true)
          else
            match l, t with
            | TInt _ ld, TInt _ td => CRes (Ok ((int_offset ld =? 0) && (int_offset td =? 0)))
            | TPtr lh, TPtr th => compat_loop rec lt tt rounds (h_third lh) (h_third th)
            | TArray _ le _ _, TArray _ te _ _ => compat_loop rec lt tt rounds le te
            | TFuncProto lh lp, TFuncProto th tp =>
                if negb (length lp =? length tp)%nat then CRes (Ok false)
                else match compat_params rec lt tt lp tp with
                     | CRes (Ok true) => compat_loop rec lt tt rounds (h_third lh) (h_third th)
                     | other => other
                     end
            | _, _ => CRes (Err BPanic)
            end
      end end end end
  end.

(** [types_are_compatible], types.rs:1464-1538.  [stack] bounds the recursion
    through function parameters, which the code does not bound. *)
Fixpoint compat (stack : nat) (lt tt : list btype) (lroot troot : Z) : cres :=
  match stack with
  | O => CStack
  | S stack =>
      match type_by_id lt lroot, type_by_id tt troot with
      | Ok l, Ok t =>
          if negb (is_compatible l t) then CRes (Ok false)
          else compat_loop (compat stack lt tt) lt tt MAX_RESOLVE_DEPTH lroot troot
      | Err e, _ => CRes (Err e)
      | _, Err e => CRes (Err e)
      end
  end.

(** [flavorless_name], relocation.rs:397-399: the part before the first "___". *)
Definition US : Z := 95.
Fixpoint flavorless (name : list Z) : list Z :=
  match name with
  | [] => []
  | x :: r =>
      match name with
      | a :: b :: c :: _ => if (a =? US) && (b =? US) && (c =? US) then [] else x :: flavorless r
      | _ => x :: flavorless r
      end
  end.

(** [fields_are_compatible], types.rs:1540-1589. *)
Fixpoint fields_loop (rounds : nat) (lb tb : btf) (lid tid : Z) : res berr bool :=
  match rounds with
  | O => Err (BMaximumTypeDepthReached lid)
  | S rounds =>
      bind (resolve_type (b_types lb) lid) (fun lid =>
      bind (resolve_type (b_types tb) tid) (fun tid =>
      bind (type_by_id (b_types lb) lid) (fun l =>
      bind (type_by_id (b_types tb) tid) (fun t =>
        if is_composite l && is_composite t then Ok true
        else if negb (is_compatible l t) then Ok false
        else
          match l, t with
          | TFwd _, _ | TEnum _ _, _ | TEnum64 _ _, _ =>
              bind (type_name lb l) (fun ln =>
              bind (type_name tb t) (fun tn => Ok (str_eqb (flavorless ln) (flavorless tn))))
          | TInt _ ld, TInt _ td => Ok ((int_offset ld =? 0) && (int_offset td =? 0))
          | TFloat _, _ => Ok true
          | TPtr _, _ => Ok true
          | TArray _ le _ _, TArray _ te _ _ => fields_loop rounds lb tb le te
          | _, _ => Err BPanic
          end))))
  end.
Definition fields_are_compatible (lb tb : btf) (lid tid : Z) : res berr bool :=
  fields_loop MAX_RESOLVE_DEPTH lb tb lid tid.
