(** What linking should achieve, independent of how the linker works. *)
From Verif Require Import Base Insn LinkModel.
Local Open Scope Z_scope.

(** The relocation entry attached to instruction [k] of [f], if its symbol is a
    function or lies in an executable section (and is not a kernel symbol). *)
Definition code_reloc (o : obj) (f : func) (k : nat) (rel : reloc) (sym : symbol) : Prop :=
  o_relocs o (f_sec f) (u64 (f_secoff f + 8 * Z.of_nat k)) = Some rel /\
  o_syms o (r_sym rel) = Some sym /\ is_extern sym = false /\
  (s_kind sym = KText \/ exists sec, s_section sym = Some sec /\ o_text o sec = true).

(** Instruction [x], number [k] of function [f], names the function at
    [(sec, a)]: through its relocation (a function symbol, or a section symbol
    plus the addend in the immediate), or as a pc-relative call. *)
Inductive names (o : obj) (f : func) (k : nat) (x : insn) : nat -> Z -> Prop :=
| n_symbol rel sym sec : code_reloc o f k rel sym -> s_kind sym = KText -> s_section sym = Some sec ->
    names o f k x sec (s_address sym)
| n_section_call rel sym sec : code_reloc o f k rel sym -> s_kind sym = KSection -> s_section sym = Some sec ->
    r_size rel = 32 -> names o f k x sec (u64 (s_address sym + 8 * i32 (imm x + 1)))
| n_section_load rel sym sec : code_reloc o f k rel sym -> s_kind sym = KSection -> s_section sym = Some sec ->
    r_size rel = 64 -> names o f k x sec (u64 (s_address sym + imm x))
| n_pcrel : (forall rel sym, ~ code_reloc o f k rel sym) -> insn_is_call x = true ->
    names o f k x (f_sec f) (u64 (f_secoff f + 8 * Z.of_nat k + 8 * i32 (imm x + 1))).

(** [f] refers to function [g] somewhere in its body. *)
Definition refers (o : obj) (f g : func) : Prop :=
  exists k x sec a, nth_error (f_ins f) k = Some x /\ names o f k x sec a /\
    In g (o_funs o) /\ f_sec g = sec /\ f_addr g = a.

(** Functions reachable from [f] by at least one reference. *)
Inductive reach (o : obj) : func -> func -> Prop :=
| reach_one f g : refers o f g -> reach o f g
| reach_more f g h : refers o f g -> reach o g h -> reach o f h.

(** Functions are identified by (section, address). *)
Definition keys_unique (o : obj) : Prop :=
  forall g h, In g (o_funs o) -> In h (o_funs o) -> f_sec g = f_sec h -> f_addr g = f_addr h -> g = h.

(** No two reachable callees in different sections share an address. *)
Definition addresses_distinct (o : obj) (entry : func) : Prop :=
  forall g h, reach o entry g -> reach o entry h -> f_addr g = f_addr h -> g = h.

(** The layout of a linked program: which function's copy starts where. *)
Fixpoint tiles (p : nat) (segs : list (nat * func)) (n : nat) : Prop :=
  match segs with
  | [] => n = p
  | (s, f) :: r => s = p /\ tiles (p + length (f_ins f)) r n
  end.

(** Instruction [y] at position [p] is [x], with the call or function address
    redirected to position [t]. *)
Definition goes_to (x y : insn) (p t : nat) : Prop :=
  Z.of_nat p + 1 + imm y = Z.of_nat t /\
  code y = code x /\ dst y = dst x /\ off y = off x /\
  src y = if insn_is_call x then src x else BPF_PSEUDO_FUNC.

(** Everything about the code of a linked program. *)
Definition well_linked (o : obj) (entry : func) (out : list insn) (segs : list (nat * func)) : Prop :=
  (exists tl, segs = (0%nat, entry) :: tl) /\
  tiles 0 segs (length out) /\
  forall s f k x, In (s, f) segs -> nth_error (f_ins f) k = Some x ->
    exists y, nth_error out (s + k) = Some y /\
      ((forall sec a, ~ names o f k x sec a) -> y = x) /\
      (forall sec a, names o f k x sec a ->
         exists g t, In g (o_funs o) /\ f_sec g = sec /\ f_addr g = a /\ In (t, g) (tl segs) /\ goes_to x y (s + k) t).
