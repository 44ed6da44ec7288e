(** Model of map relocation and extern (kernel symbol) relocation:
    /repo/aya-obj/src/relocation.rs:134-166, 169-197, 237-365, 367-459.

    Simplifications: error payloads (names, relocation numbers) are dropped;
    debug assertions are dropped; [i32] additions wrap (release profile). *)
From Verif Require Import Base Insn.
Local Open Scope Z_scope.

Inductive perr :=
| InvalidRelocationOffset | UnknownSymbol | SectionNotFound | ExternNotFound | UnresolvableSymbol
| PatchPanic.

(** The offset filter common to both loops, relocation.rs:248-260 and 380-394. *)
Inductive where_ := Elsewhere | Misaligned | At (i : nat).
Definition locate (secoff : Z) (n : nat) (r : reloc) : where_ :=
  if (r_offset r <? secoff) || (secoff + Z.of_nat n * INS_SIZE <=? r_offset r) then Elsewhere
  else let o := r_offset r - secoff in
       if o mod INS_SIZE =? 0 then At (Z.to_nat (o / INS_SIZE)) else Misaligned.

(** A map as far as relocation is concerned: section index, symbol index,
    whether [data()] is empty. *)
Record mapinfo := { m_fd : Z; m_section : nat; m_symbol : option nat; m_data_empty : bool }.

(** [maps_by_symbol] / [maps_by_section], relocation.rs:139-146: inserted in
    iteration order, so the last entry for a key wins. *)
Definition by_symbol (maps : list mapinfo) (sym : nat) : option mapinfo :=
  find (fun m => match m_symbol m with Some s => Nat.eqb s sym | None => false end) (rev maps).
Definition by_section (maps : list mapinfo) (sec : nat) : option mapinfo :=
  find (fun m => Nat.eqb (m_section m) sec) (rev maps).

(** Body of the loop in [relocate_maps], relocation.rs:379-456. *)
Definition map_reloc_step (secoff : Z) (maps : list mapinfo) (syms : symtab) (text : nat -> bool)
    (r : reloc) (ins : list insn) : res perr (list insn) :=
  match locate secoff (length ins) r with
  | Elsewhere => Ok ins
  | Misaligned => Err InvalidRelocationOffset
  | At i =>
      match syms (r_sym r) with
      | None => Err UnknownSymbol
      | Some sym =>
          match s_section sym with
          | None => Ok ins
          | Some sec =>
              match nth_error ins i with
              | None => Err PatchPanic
              | Some x =>
                  if insn_is_call x || text sec then Ok ins
                  else
                    match (match by_symbol maps (r_sym r) with
                           | Some m => Some m
                           | None => by_section maps sec
                           end) with
                    | None => Err SectionNotFound
                    | Some m =>
                        if m_data_empty m
                        then Ok (upd i (set_imm (m_fd m) (set_src BPF_PSEUDO_MAP_FD x)) ins)
                        else
                          match nth_error ins (S i) with
                          | None => Err PatchPanic
                          | Some y =>
                              Ok (upd i (set_imm (m_fd m) (set_src BPF_PSEUDO_MAP_VALUE x))
                                   (upd (S i) (set_imm (i32 (imm x + i32 (s_address sym))) y) ins))
                          end
                    end
              end
          end
      end
  end.

(** [ExternDesc] as far as patching is concerned (aya-obj/src/extern_types.rs,
    btf/extern_types.rs). *)
Record extern := { x_resolved : bool; x_weak : bool; x_btf_id : option Z; x_addr : option Z }.

(** relocation.rs:357-365. *)
Definition poison_kfunc_call (idx : nat) : insn :=
  {| code := CALL_CODE; dst := 0; src := 0; off := 0; imm := i32 (2002000000 + i32 (Z.of_nat idx)) |}.

(** Body of the loop in [patch_extern_relocations], relocation.rs:247-352. *)
Definition extern_step (secoff : Z) (externs : name -> option extern) (syms : symtab)
    (r : reloc) (ins : list insn) : res perr (list insn) :=
  match locate secoff (length ins) r with
  | Elsewhere => Ok ins
  | Misaligned => Err InvalidRelocationOffset
  | At i =>
      match syms (r_sym r) with
      | None => Err UnknownSymbol
      | Some sym =>
          if negb (is_extern sym) then Ok ins
          else
            match s_name sym with
            | None => Err PatchPanic
            | Some nm =>
                match externs nm with
                | None => Err ExternNotFound
                | Some x =>
                    match nth_error ins i with
                    | None => Err PatchPanic
                    | Some y =>
                        if code y =? CALL_CODE then
                          if x_resolved x then
                            match x_btf_id x with
                            | None => Err PatchPanic
                            | Some id => Ok (upd i (set_off 0 (set_imm (i32 id) (set_src BPF_PSEUDO_KFUNC_CALL y))) ins)
                            end
                          else if x_weak x then Ok (upd i (poison_kfunc_call (r_sym r)) ins)
                          else Err UnresolvableSymbol
                        else if negb (code y =? LDDW_CODE) then Err InvalidRelocationOffset
                        else
                          match (match x_btf_id x, x_addr x with
                                 | Some id, _ => Some (set_imm (i32 id) (set_src BPF_PSEUDO_BTF_ID y), 0)
                                 | None, Some a => Some (set_imm (i32 (Z.land a (2 ^ 32 - 1))) (set_src 0 y), i32 (Z.shiftr a 32))
                                 | None, None => if x_weak x then Some (set_imm 0 (set_src 0 y), 0) else None
                                 end) with
                          | None => Err UnresolvableSymbol
                          | Some (y', nimm) =>
                              match nth_error ins (S i) with
                              | None => Err InvalidRelocationOffset
                              | Some z => Ok (upd (S i) (set_imm nimm z) (upd i y' ins))
                              end
                          end
                    end
                end
            end
      end
  end.

(** The loops themselves: relocations are visited in the order of the list
    (a hash map's [values()], so any order). *)
Fixpoint run_relocs {R} (stp : R -> list insn -> res perr (list insn)) (rs : list R) (ins : list insn)
  : res perr (list insn) :=
  match rs with
  | [] => Ok ins
  | r :: rest => match stp r ins with Ok ins' => run_relocs stp rest ins' | Err e => Err e end
  end.

Definition relocate_maps secoff maps syms text rs ins := run_relocs (map_reloc_step secoff maps syms text) rs ins.
Definition patch_externs secoff externs syms rs ins := run_relocs (extern_step secoff externs syms) rs ins.
