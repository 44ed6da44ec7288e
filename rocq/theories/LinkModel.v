(** Model of bpf-to-bpf call relocation: /repo/aya-obj/src/relocation.rs:200-234
    ([Object::relocate_calls]) and 461-666 ([FunctionLinker]).

    Simplifications: integer arithmetic wraps (release profile); func_info and
    line_info records are pairs (instruction offset, payload); the function
    table is a list searched by (section, address), the key under which every
    function is stored (obj.rs:594-596, 673-674); names are dropped. *)
From Verif Require Import Base Insn.
Local Open Scope Z_scope.

(** [Function], obj.rs:91-110. *)
Record func := {
  f_sec : nat; f_addr : Z; f_secoff : Z; f_ins : list insn;
  f_finfo : list (Z * Z); f_linfo : list (Z * Z) }.

Definition lookup_fun (funs : list func) (sec : nat) (a : Z) : option func :=
  find (fun g => Nat.eqb (f_sec g) sec && (f_addr g =? a)) funs.

Inductive lerr := UnknownFunction | LinkPanic | OutOfFuel.

(** The object as seen by the linker; [relocs sec off] is the nested hash map. *)
Record obj := {
  o_funs : list func;
  o_relocs : nat -> Z -> option reloc;
  o_syms : symtab;
  o_text : nat -> bool }.

(** The relocation considered for instruction [k] of [f], relocation.rs:544-566. *)
Definition text_reloc (o : obj) (f : func) (k : nat) : option (reloc * symbol) :=
  match o_relocs o (f_sec f) (u64 (f_secoff f + Z.of_nat k * INS_SIZE)) with
  | None => None
  | Some rel =>
      match o_syms o (r_sym rel) with
      | None => None
      | Some sym =>
          if is_extern sym then None
          else if symkind_eqb (s_kind sym) KText
               || match s_section sym with Some sec => o_text o sec | None => false end
          then Some (rel, sym) else None
      end
  end.

(** Section and address of the function instruction [x] (number [k] of [f])
    refers to, relocation.rs:568-600; [None]: nothing to relocate. *)
Definition target (o : obj) (f : func) (k : nat) (x : insn) : option (res lerr (nat * Z)) :=
  match text_reloc o f k with
  | Some (rel, sym) =>
      let addr :=
        match s_kind sym with
        | KText => Ok (s_address sym)
        | KSection =>
            if r_size rel =? 32 then Ok (u64 (s_address sym + i32 (imm x + 1) * INS_SIZE))
            else if r_size rel =? 64 then Ok (u64 (s_address sym + imm x))
            else Err LinkPanic
        | _ => Err LinkPanic
        end in
      Some (match addr with
            | Ok a => match s_section sym with Some sec => Ok (sec, a) | None => Err LinkPanic end
            | Err e => Err e
            end)
  | None =>
      if insn_is_call x
      then Some (Ok (f_sec f, u64 (f_secoff f + Z.of_nat k * INS_SIZE + i32 (imm x + 1) * INS_SIZE)))
      else None
  end.

(** The program being built and [linked_functions]. *)
Record lstate := {
  p_ins : list insn; p_finfo : list (Z * Z); p_linfo : list (Z * Z);
  p_linked : list (Z * nat) }.

(** relocation.rs:634-663. *)
Definition link_finfo (g : func) (start : nat) : list (Z * Z) :=
  map (fun i => (u32 (Z.of_nat start), snd i)) (f_finfo g).
Definition link_linfo (g : func) (start : nat) : list (Z * Z) :=
  match f_linfo g with
  | [] => []
  | first :: _ => map (fun i => (u32 (u32 (Z.of_nat start) + u32 (fst i - fst first)), snd i)) (f_linfo g)
  end.

(** relocation.rs:617-627. *)
Definition patch_call (callee p : nat) (x : insn) : insn :=
  let x' := set_imm (i32 (i32 (Z.of_nat callee) - i32 (Z.of_nat p) - 1)) x in
  if insn_is_call x then x' else set_src BPF_PSEUDO_FUNC x'.

Definition with_ins (st : lstate) (l : list insn) : lstate :=
  {| p_ins := l; p_finfo := p_finfo st; p_linfo := p_linfo st; p_linked := p_linked st |}.

Section Linker.
Variable o : obj.

(** The [for] loop of [relocate], relocation.rs:540-628, over instruction
    numbers [ks]; [link] is [link_function]. *)
Fixpoint reloc_loop (link : func -> lstate -> res lerr (nat * lstate)) (f : func) (start : nat)
    (ks : list nat) (st : lstate) : res lerr lstate :=
  match ks with
  | [] => Ok st
  | k :: rest =>
      match nth_error (p_ins st) (start + k) with
      | None => Err LinkPanic
      | Some x =>
          match target o f k x with
          | None => reloc_loop link f start rest st
          | Some (Err e) => Err e
          | Some (Ok (sec, a)) =>
              match lookup_fun (o_funs o) sec a with
              | None => Err UnknownFunction
              | Some g =>
                  match link g st with
                  | Err e => Err e
                  | Ok (ci, st1) =>
                      match nth_error (p_ins st1) (start + k) with
                      | None => Err LinkPanic
                      | Some x1 =>
                          let x2 := set_imm (i32 (i32 (Z.of_nat ci) - i32 (Z.of_nat (start + k)) - 1)) x1 in
                          let x3 := if insn_is_call x then x2 else set_src BPF_PSEUDO_FUNC x2 in
                          reloc_loop link f start rest (with_ins st1 (upd (start + k) x3 (p_ins st1)))
                      end
                  end
              end
          end
      end
  end.

(** [link_function], relocation.rs:496-524, with [rel] for [relocate]. *)
Definition link_function (rel : func -> lstate -> res lerr lstate) (g : func) (st : lstate) : res lerr (nat * lstate) :=
  match assoc Z.eqb (f_addr g) (p_linked st) with
  | Some i => Ok (i, st)
  | None =>
      let start := length (p_ins st) in
      let st1 := {| p_ins := p_ins st ++ f_ins g;
                    p_finfo := p_finfo st ++ link_finfo g start;
                    p_linfo := p_linfo st ++ link_linfo g start;
                    p_linked := (f_addr g, start) :: p_linked st |} in
      match rel g st1 with
      | Err e => Err e
      | Ok st2 => Ok (start, st2)
      end
  end.

(** [relocate], relocation.rs:526-632. *)
Fixpoint relocate (fuel : nat) (f : func) (st : lstate) : res lerr lstate :=
  match fuel with
  | O => Err OutOfFuel
  | S n =>
      reloc_loop (link_function (relocate n)) f (length (p_ins st) - length (f_ins f))
        (seq 0 (length (f_ins f))) st
  end.

(** [link], relocation.rs:485-494.  The recursion depth is at most the number
    of functions plus one (theorem C08), so this fuel is never exhausted. *)
Definition link (entry : func) : res lerr func :=
  match relocate (S (length (o_funs o))) entry
          {| p_ins := f_ins entry; p_finfo := f_finfo entry; p_linfo := f_linfo entry; p_linked := [] |} with
  | Err e => Err e
  | Ok st => Ok {| f_sec := f_sec entry; f_addr := f_addr entry; f_secoff := f_secoff entry;
                   f_ins := p_ins st; f_finfo := p_finfo st; f_linfo := p_linfo st |}
  end.
End Linker.

(** [relocate_calls], relocation.rs:200-234: programs are linked one after the
    other (in hash map order) and each result replaces the function in the
    table.  [UnknownProgram] is [UnknownFunction] here. *)
Fixpoint replace_fun (g : func) (l : list func) : list func :=
  match l with
  | [] => []
  | h :: r => if Nat.eqb (f_sec h) (f_sec g) && (f_addr h =? f_addr g) then g :: r else h :: replace_fun g r
  end.

Fixpoint relocate_calls (o : obj) (progs : list (nat * Z)) : res lerr (list func) :=
  match progs with
  | [] => Ok (o_funs o)
  | (sec, a) :: rest =>
      match lookup_fun (o_funs o) sec a with
      | None => Err UnknownFunction
      | Some f =>
          match link o f with
          | Err e => Err e
          | Ok g => relocate_calls {| o_funs := replace_fun g (o_funs o); o_relocs := o_relocs o;
                                      o_syms := o_syms o; o_text := o_text o |} rest
          end
      end
  end.

(** [get_func_and_line_info], obj.rs:1426-1468, for the records of one
    section; [size] is the symbol size, [offset] the byte offset of the
    function in the section. *)
Definition pick_finfo (recs : list (Z * Z)) (offset : Z) (rewrite : bool) : list (Z * Z) :=
  let io := u32 (offset / INS_SIZE) in
  map (fun r => if rewrite then (0, snd r) else r) (filter (fun r => fst r =? io) recs).
Definition pick_linfo (recs : list (Z * Z)) (offset size : Z) (rewrite : bool) : list (Z * Z) :=
  let io := u32 (offset / INS_SIZE) in
  let n := u32 (size / INS_SIZE) in
  map (fun r => if rewrite then (fst r - io, snd r) else r)
    (filter (fun r => (io <=? fst r) && (fst r - io <? n)) recs).
