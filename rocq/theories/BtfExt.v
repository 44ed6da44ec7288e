(** Model of [BtfExt::parse] and the tables of the .BTF.ext section,
    /repo/aya-obj/src/btf/btf.rs:972-1230, info.rs:33-190 and
    relocation.rs:152-216.

    The host is little-endian with 64-bit [usize]; [be] is the byte order of the
    object.  The header and the relocation records are read in host order
    whatever the object says, as the code does.  Arithmetic wraps as in release
    builds.  Hash maps from section name are lists in insertion order. *)
From Verif Require Import Base Text BtfTypes BtfModel.
Local Open Scope Z_scope.

(** [Endianness::read_u32]. *)
Definition rd32 (be : bool) (l : list Z) : Z := le_dec (if be then rev l else l).

(** [btf_ext_header], generated/btf_internal_bindings.rs:32-43. *)
Record ehdr := { eh_hdr_len : Z; eh_func_off : Z; eh_func_len : Z; eh_line_off : Z; eh_line_len : Z;
                 eh_relo_off : Z; eh_relo_len : Z }.

(** The header, missing fields zero, btf.rs:998-1031. *)
Definition read_ehdr (d : list Z) : res berr ehdr :=
  if (length d <? 8)%nat then Err BInvalidHeader
  else
    let hdr_len := le_dec (slice 4 4 d) in
    if Z.of_nat (length d) <? hdr_len then Err BInvalidHeader
    else
      let raw := firstn (Z.to_nat (Z.min hdr_len 32)) d ++ repeat 0 32 in
      let w i := le_dec (slice (4 * i) 4 raw) in
      Ok {| eh_hdr_len := w 1%nat; eh_func_off := w 2%nat; eh_func_len := w 3%nat; eh_line_off := w 4%nat;
            eh_line_len := w 5%nat; eh_relo_off := w 6%nat; eh_relo_len := w 7%nat |}.

(** [data.get(off..off+len)] with [usize] numbers. *)
Definition zslice (off len : Z) (d : list Z) : option (list Z) :=
  if off + len <=? Z.of_nat (length d) then Some (slice (Z.to_nat off) (Z.to_nat len) d) else None.

(** The closure [rec_size], btf.rs:1044-1066. *)
Definition rec_size (be : bool) (h : ehdr) (d : list Z) (off len : Z) : res berr Z :=
  match zslice (eh_hdr_len h + off) len d with
  | None => Err BInvalidInfo
  | Some s => if len =? 0 then Ok 0 else if (length s <? 4)%nat then Err BInvalidInfo else Ok (rd32 be (firstn 4 s))
  end.

(** [info_data], btf.rs:1141-1150; slicing out of range panics. *)
Definition info_data (h : ehdr) (d : list Z) (off len : Z) : res berr (list Z) :=
  match zslice (u32 (eh_hdr_len h + off)) len d with
  | None => Err BPanic
  | Some s => if 0 <? len then if (length s <? 4)%nat then Err BPanic else Ok (skipn 4 s) else Ok s
  end.

(** [SecInfo]. *)
Record sec := { sc_name : Z; sc_num : Z; sc_data : list Z }.

(** [SecInfoIter::next] until it is exhausted, btf.rs:1193-1229.  Every round
    takes at least eight bytes, so the input length is enough fuel. *)
Fixpoint sec_iter (fuel : nat) (be : bool) (rec : Z) (d : list Z) : list sec :=
  match fuel with
  | O => []
  | S fuel =>
      if (length d <? 8)%nat then []
      else
        let name := rd32 be (slice 0 4 d) in
        let num := rd32 be (slice 4 4 d) in
        let n := rec * num in
        if Z.of_nat (length d) - 8 <? n then []
        else
          let rest := sec_iter fuel be rec (skipn (8 + Z.to_nat n) d) in
          if n =? 0 then rest
          else {| sc_name := name; sc_num := num; sc_data := slice 8 (Z.to_nat n) d |} :: rest
  end.

(** [slice::chunks]. *)
Fixpoint chunks (fuel : nat) (n : nat) (d : list Z) : list (list Z) :=
  match fuel, d with
  | S fuel, _ :: _ => firstn n d :: chunks fuel n (skipn n d)
  | _, _ => []
  end.
Definition records (rec : Z) (d : list Z) : res berr (list (list Z)) :=
  if rec =? 0 then Err BPanic else Ok (chunks (length d) (Z.to_nat rec) d).

(** [bpf_func_info] and [bpf_line_info]. *)
Record finfo := { fi_insn : Z; fi_type : Z }.
Record linfo := { li_insn : Z; li_file : Z; li_line : Z; li_col : Z }.

(** One record, info.rs:45-60 and 138-163; [unwrap] on short records panics. *)
Definition parse_finfo (be : bool) (c : list Z) : res berr finfo :=
  if (length c <? 8)%nat then Err BPanic
  else Ok {| fi_insn := rd32 be (slice 0 4 c) / 8; fi_type := rd32 be (slice 4 4 c) |}.
Definition parse_linfo (be : bool) (c : list Z) : res berr linfo :=
  if (length c <? 16)%nat then Err BPanic
  else Ok {| li_insn := rd32 be (slice 0 4 c) / 8; li_file := rd32 be (slice 4 4 c);
             li_line := rd32 be (slice 8 4 c); li_col := rd32 be (slice 12 4 c) |}.

(** [RelocationKind], relocation.rs:152-189, as its number; [Relocation::parse],
    relocation.rs:200-216. *)
Record relo := { rl_kind : Z; rl_ins_off : Z; rl_type : Z; rl_access : Z; rl_number : nat }.
Definition parse_relo (n : nat) (c : list Z) : res berr relo :=
  if (length c <? 16)%nat then Err BInvalidRelocationInfo
  else
    let kind := le_dec (slice 12 4 c) in
    if 12 <=? kind then Err (BInvalidRelocationKind kind)
    else Ok {| rl_kind := kind; rl_ins_off := le_dec (slice 0 4 c); rl_type := le_dec (slice 4 4 c);
               rl_access := le_dec (slice 8 4 c); rl_number := n |}.

(** [FuncSecInfo] and [LineSecInfo]: number of records and the records. *)
Definition sec_infos {A} (parse : list Z -> res berr A) (b : btf) (rec : Z) (s : sec)
  : res berr (list Z * (Z * list A)) :=
  match string_at b (sc_name s) with
  | Err _ => Err BPanic
  | Ok name => bind (records rec (sc_data s)) (fun cs => bind (mapM parse cs) (fun l => Ok (name, (sc_num s, l))))
  end.
Definition sec_relos (rec : Z) (s : sec) : res berr (Z * list relo) :=
  bind (records rec (sc_data s)) (fun cs =>
    bind (mapM (fun p => parse_relo (fst p) (snd p)) (combine (seq 0 (length cs)) cs)) (fun l => Ok (sc_name s, l))).

Record ext := { x_func_rec : Z; x_line_rec : Z; x_relo_rec : Z;
                x_funcs : list (list Z * (Z * list finfo));
                x_lines : list (list Z * (Z * list linfo));
                x_relos : list (Z * list relo) }.

Definition all_secs (be : bool) (rec : Z) (d : list Z) : list sec := sec_iter (length d) be rec d.

(** [BtfExt::parse], btf.rs:988-1139. *)
Definition ext_parse (b : btf) (be : bool) (d : list Z) : res berr ext :=
  bind (read_ehdr d) (fun h =>
  bind (rec_size be h d (eh_func_off h) (eh_func_len h)) (fun fr =>
  bind (rec_size be h d (eh_line_off h) (eh_line_len h)) (fun lr =>
  bind (rec_size be h d (eh_relo_off h) (eh_relo_len h)) (fun rr =>
  bind (info_data h d (eh_func_off h) (eh_func_len h)) (fun fd =>
  bind (mapM (sec_infos (parse_finfo be) b fr) (all_secs be fr fd)) (fun fs =>
  bind (info_data h d (eh_line_off h) (eh_line_len h)) (fun ld =>
  bind (mapM (sec_infos (parse_linfo be) b lr) (all_secs be lr ld)) (fun ls =>
  bind (info_data h d (eh_relo_off h) (eh_relo_len h)) (fun rd =>
  bind (mapM (sec_relos rr) (all_secs be rr rd)) (fun rs =>
  Ok {| x_func_rec := fr; x_line_rec := lr; x_relo_rec := rr; x_funcs := fs; x_lines := ls; x_relos := rs |})))))))))).

(** [FuncInfo::get] and [LineInfo::get], info.rs:101-106: a later section of
    the same name has replaced an earlier one; a missing one is empty. *)
Definition info_get {A} (name : list Z) (l : list (list Z * (Z * list A))) : Z * list A :=
  match assoc str_eqb name (rev l) with Some x => x | None => (0, []) end.
