(** Model of [Btf::fixup_and_sanitize], /repo/aya-obj/src/btf/btf.rs:474-796,
    and [Btf::fixup_ksyms_datasec], btf.rs:805-925.

    Simplifications: the kernel feature predicate is a function (the code caches
    its answers, btf.rs:213-236); section sizes and symbol offsets are partial
    functions; on error only the error is modelled (the code also leaves the
    type list emptied, since it is taken out at btf.rs:495). *)
From Coq Require Import String.
From Verif Require Import Base Text BtfTypes BtfModel.
Local Open Scope Z_scope.

(** [BtfFeature], btf.rs:182-200. *)
Inductive feature := FFunc | FFuncGlobal | FDataSec | FDataSecZero | FFloat | FDeclTag | FTypeTag | FEnum64.

Record sst := { s_btf : btf; s_filler : option Z; s_place : option Z }.

Definition set_type (b : btf) (i : nat) (t : btype) : btf := set_types b (upd i t (b_types b)).
Definition with_name (h : thead) (n : Z) : thead := {| h_name := n; h_info := h_info h; h_third := h_third h |}.
Definition with_info (h : thead) (i : Z) : thead := {| h_name := h_name h; h_info := i; h_third := h_third h |}.
Definition with_third (h : thead) (z : Z) : thead := {| h_name := h_name h; h_info := h_info h; h_third := z |}.

(** The header update for a section whose encoding grew, btf.rs:639-644. *)
Definition resize (b : btf) (old new : nat) : btf :=
  if (new =? old)%nat then b
  else
    let h := b_hdr b in
    let tl := u32 (u32 (bh_type_len h - Z.of_nat old) + Z.of_nat new) in
    {| b_hdr := {| bh_magic := bh_magic h; bh_version := bh_version h; bh_flags := bh_flags h;
                   bh_hdr_len := bh_hdr_len h; bh_type_off := bh_type_off h; bh_type_len := tl;
                   bh_str_off := tl; bh_str_len := bh_str_len h |};
       b_strings := b_strings b; b_types := b_types b |}.

(** Adding a fixed name only when it differs, btf.rs:524-528, 555-559. *)
Definition rename (b : btf) (off : Z) (name fixed : list Z) : btf * Z :=
  if str_eqb fixed name then (b, off) else add_string b fixed.

(** The filler variable, btf.rs:590-614. *)
Definition add_filler (st : sst) : sst * Z :=
  match s_filler st with
  | Some id => (st, id)
  | None =>
      let (b1, tn) := add_string (s_btf st) (txt "__aya_datasec_filler_type") in
      let (b2, tid) := add_type b1 (new_int tn 1 0 0) in
      let (b3, vn) := add_string b2 (txt "__aya_datasec_filler") in
      let (b4, vid) := add_type b3 (new_var vn tid 0) in
      ({| s_btf := b4; s_filler := Some vid; s_place := s_place st |}, vid)
  end.

(** The placeholder of downgraded ENUM64 members, btf.rs:755-762. *)
Definition add_place (st : sst) : sst * Z :=
  match s_place st with
  | Some id => (st, id)
  | None =>
      let (b1, n) := add_string (s_btf st) (txt "enum64_placeholder") in
      let (b2, id) := add_type b1 (new_int n 1 0 0) in
      ({| s_btf := b2; s_filler := s_filler st; s_place := Some id |}, id)
  end.

(** Member for one entry of an unsupported data section, btf.rs:532-543; the
    [unwrap] panics. *)
Definition entry_member (ts : list btype) (e : dsentry) : res berr member :=
  match type_by_id ts (de_type e) with
  | Ok mt => Ok {| m_name := name_offset mt; m_type := de_type e; m_off := u32 (de_off e * 8) |}
  | Err _ => Err BPanic
  end.

(** Offset of one entry of a supported data section, btf.rs:616-636. *)
Definition entry_fix (syms : list Z -> option Z) (b : btf) (e : dsentry) : res berr dsentry :=
  bind (type_by_id (b_types b) (de_type e)) (fun t =>
    match t with
    | TVar h linkage =>
        bind (string_at b (h_name h)) (fun vn =>
          if linkage =? 0 then Ok e
          else match syms vn with
               | Some o => Ok {| de_type := de_type e; de_off := u32 o; de_size := de_size e |}
               | None => Err BSymbolOffsetNotFound
               end)
    | _ => Err BInvalidDatasec
    end).

(** Naming of unnamed parameters, btf.rs:650-656. *)
Fixpoint name_params (b : btf) (i : Z) (ps : list (Z * Z)) : btf * list (Z * Z) :=
  match ps with
  | [] => (b, [])
  | (n, t) :: ps =>
      if (n =? 0) && negb (t =? 0) then
        let (b1, n1) := add_string b (txt "param" ++ dec i) in
        let (b2, ps2) := name_params b1 (i + 1) ps in (b2, (n1, t) :: ps2)
      else let (b2, ps2) := name_params b (i + 1) ps in (b2, (n, t) :: ps2)
  end.

Definition is_builtin (name : list Z) : bool :=
  str_eqb name (txt "memset") || str_eqb name (txt "memcpy") ||
  str_eqb name (txt "memmove") || str_eqb name (txt "memcmp").

Definition clear31 (info : Z) : Z := Z.land info (2 ^ 31 - 1).

(** One round of the loop, btf.rs:496-792. *)
Definition sanitize_one (feat : feature -> bool) (secs syms : list Z -> option Z) (st : sst) (i : nat) : res berr sst :=
  let b := s_btf st in
  let put b t := {| s_btf := set_type b i t; s_filler := s_filler st; s_place := s_place st |} in
  match nth_error (b_types b) i with
  | None => Err BPanic
  | Some t =>
    match t with
    | TPtr h => Ok (put b (TPtr (with_name h 0)))
    | TVar h _ => if feat FDataSec then Ok st else Ok (put b (new_int (h_name h) 1 0 0))
    | TDataSec h es =>
        if negb (feat FDataSec) then
          bind (string_at b (h_name h)) (fun name =>
            let (b1, n) := rename b (h_name h) name (replace_char 46 95 name) in
            bind (mapM (entry_member (b_types b)) es) (fun ms =>
              Ok (put b1 (new_struct n ms (u32 (Z.of_nat (length es)))))))
        else
          bind (string_at b (h_name h)) (fun name =>
            let (b1, n) := rename b (h_name h) name (replace_char 47 46 name) in
            if 0 <? h_third h then Ok (put b1 (TDataSec (with_name h n) es))
            else
              match secs name with
              | None => Err BUnknownSectionSize
              | Some size =>
                  let size := u32 size in
                  let st1 := {| s_btf := b1; s_filler := s_filler st; s_place := s_place st |} in
                  let fill := match es with [] => (size =? 0) || negb (feat FDataSecZero) | _ => false end in
                  let '(st2, es2, size2) :=
                    if fill then
                      let (st2, vid) := add_filler st1 in
                      (st2, [{| de_type := vid; de_off := 0; de_size := Z.max size 1 |}], Z.max size 1)
                    else (st1, es, size) in
                  bind (mapM (entry_fix syms (s_btf st2)) es2) (fun es3 =>
                    let t' := new_datasec n es3 size2 in
                    let b3 := resize (s_btf st2) (type_info_size t) (type_info_size t') in
                    Ok {| s_btf := set_type b3 i t'; s_filler := s_filler st2; s_place := s_place st2 |})
              end)
    | TFuncProto h ps =>
        if feat FFunc then let (b1, ps1) := name_params b 0 ps in Ok (put b1 (TFuncProto h ps1))
        else Ok (put b (new_enum (h_name h) false ps))
    | TFunc h =>
        bind (string_at b (h_name h)) (fun name =>
          if negb (feat FFunc) then Ok (put b (new_typedef (h_name h) (h_third h)))
          else if (func_linkage (h_info h) =? 1) && (is_builtin name || negb (feat FFuncGlobal))
               then Ok (put b (TFunc (with_info h (set_linkage (h_info h) 0))))
               else Ok st)
    | TFloat h => if feat FFloat then Ok st else Ok (put b (new_struct 0 [] (h_third h)))
    | TDeclTag h _ => if feat FDeclTag then Ok st else Ok (put b (new_int (h_name h) 1 0 0))
    | TTypeTag h => if feat FTypeTag then Ok st else Ok (put b (new_const (h_third h)))
    | TEnum h vs =>
        if negb (feat FEnum64) && info_flag (h_info h)
        then Ok (put b (TEnum (with_info h (clear31 (h_info h))) vs)) else Ok st
    | TEnum64 h vs =>
        if feat FEnum64 then Ok st
        else
          let fb := {| fb_signed := info_flag (h_info h);
                       fb_variants := map (fun v => (fst (fst v), Z.lor (Z.shiftl (snd v) 32) (snd (fst v)))) vs |} in
          let (st2, id) := add_place st in
          let ms := map (fun v => {| m_name := fst (fst v); m_type := id; m_off := 0 |}) vs in
          Ok {| s_btf := set_type (s_btf st2) i (new_union (h_name h) (h_third h) ms (Some fb));
                s_filler := s_filler st2; s_place := s_place st2 |}
    | _ => Ok st
    end
  end.

Fixpoint sanitize_loop feat secs syms (st : sst) (is : list nat) : res berr sst :=
  match is with
  | [] => Ok st
  | i :: is => bind (sanitize_one feat secs syms st i) (fun st => sanitize_loop feat secs syms st is)
  end.

(** The loop of [fixup_and_sanitize] over the types present at the start. *)
Definition sanitize feat secs syms (b : btf) : res berr btf :=
  bind (sanitize_loop feat secs syms {| s_btf := b; s_filler := None; s_place := None |}
          (seq 0 (length (b_types b)))) (fun st => Ok (s_btf st)).

(** * [fixup_ksyms_datasec] *)
(** First 4-byte integer, btf.rs:822-833. *)
Fixpoint find_int4 (ts : list btype) (i : Z) : option Z :=
  match ts with
  | [] => None
  | TInt h _ :: ts => if h_third h =? 4 then Some i else find_int4 ts (i + 1)
  | _ :: ts => find_int4 ts (i + 1)
  end.

(** Indexing [types[id]] panics out of bounds. *)
Definition type_at (b : btf) (id : Z) : res berr btype :=
  match type_by_id (b_types b) id with Ok t => Ok t | Err _ => Err BPanic end.
Definition put_at (b : btf) (id : Z) (t : btype) : btf := set_type b (Z.to_nat id) t.

(** Entry [i] of the data section, btf.rs:868-915. *)
Definition ksym_entry (dsid : Z) (place : option Z) (pname : option Z) (int_id : Z) (b : btf) (i : nat) (tid : Z)
  : res berr btf :=
  bind (type_at b tid) (fun t =>
  bind (match t with
        | TFunc h =>
            bind (string_at b (h_name h)) (fun _ =>
              let b := put_at b tid (TFunc (with_info h (set_linkage (h_info h) 1))) in
              bind (match pname with
                    | Some pn =>
                        bind (type_at b (h_third h)) (fun p =>
                          match p with
                          | TFuncProto ph ps =>
                              Ok (put_at b (h_third h)
                                    (TFuncProto ph (map (fun p => if negb (snd p =? 0) && (fst p =? 0) then (pn, snd p) else p) ps)))
                          | _ => Ok b
                          end)
                    | None => Ok b
                    end) (fun b =>
              match place, type_at b dsid with
              | Some pid, Ok (TDataSec dh es) =>
                  match nth_error es i with
                  | Some e => Ok (put_at b dsid (TDataSec dh (upd i {| de_type := pid; de_off := de_off e; de_size := de_size e |} es)))
                  | None => Err BPanic
                  end
              | Some _, Err e => Err e
              | _, _ => Ok b
              end))
        | TVar h _ =>
            bind (string_at b (h_name h)) (fun _ => Ok (put_at b tid (TVar (with_third h int_id) 1)))
        | _ => Err BInvalidDatasec
        end) (fun b =>
  bind (type_at b dsid) (fun d =>
    match d with
    | TDataSec dh es =>
        match nth_error es i with
        | Some e => Ok (put_at b dsid (TDataSec dh (upd i {| de_type := de_type e; de_off := u32 (4 * Z.of_nat i); de_size := 4 |} es)))
        | None => Err BPanic
        end
    | _ => Err BInvalidDatasec
    end))).

Fixpoint ksym_entries dsid place pname int_id (b : btf) (i : nat) (tids : list Z) : res berr btf :=
  match tids with
  | [] => Ok b
  | tid :: tids => bind (ksym_entry dsid place pname int_id b i tid) (fun b => ksym_entries dsid place pname int_id b (S i) tids)
  end.

Definition fixup_ksyms (b : btf) (dsid : Z) (place : option Z) : res berr btf :=
  bind (match place with
        | Some pid => bind (type_at b pid) (fun t =>
            match t with TVar h _ => Ok (b, Some (h_name h), h_third h) | _ => Err BInvalidDatasec end)
        | None =>
            match find_int4 (b_types b) 0 with
            | Some id => Ok (b, None, id)
            | None =>
                let (b1, n) := add_string b (txt "int") in
                let (b2, id) := add_type b1 (new_int n 4 1 0) in Ok (b2, None, id)
            end
        end) (fun '(b, pname, int_id) =>
  bind (type_at b dsid) (fun d =>
    match d with
    | TDataSec dh es =>
        bind (string_at b (h_name dh)) (fun _ =>
        bind (ksym_entries dsid place pname int_id b 0 (map de_type es)) (fun b =>
          match type_at b dsid with
          | Ok (TDataSec dh es') => Ok (put_at b dsid (TDataSec (with_third dh (u32 (4 * Z.of_nat (length es)))) es'))
          | Ok _ => Ok b
          | Err e => Err e
          end))
    | _ => Err BInvalidDatasec
    end)).
