(** How programs run, on the kernel and according to the object file.

    What instructions do to registers and memory is left open ([machine]): only
    the flow of control and references are spelled out. *)
From Verif Require Import Base Insn PatchModel PatchSpec LinkModel LinkSpec ObjModel WholeModel WholeSpec.
Local Open Scope Z_scope.

(** What a 64-bit load can put into a register: a number, a map, a place in the
    data of a map, something of the kernel by its BTF, a function (of the program
    on the kernel: its position). *)
Inductive value := VConst (v : Z) | VMap (fd : Z) | VVar (fd at_ : Z) | VKernel (id : Z) | VFunc (p : Z).

(** The state of registers and memory and what changes it; [None]: a fault.
    [m_enter] and [m_leave]: what calls do to registers, the latter from the state
    before the call and that at the end of the callee. *)
Record machine := {
  m_state : Type;
  m_alu : insn -> m_state -> option m_state; m_branch : insn -> m_state -> bool;
  m_load : Z -> value -> m_state -> m_state;
  m_helper : Z -> m_state -> option m_state; m_kfunc : Z -> m_state -> option m_state;
  m_enter : m_state -> m_state; m_leave : m_state -> m_state -> m_state }.

(** An instruction with its references resolved; functions are [T]. *)
Inductive op (T : Type) := OPlain (x : insn) | OLoad (d : Z) (v : value) | OCall (t : T) | OKfunc (id : Z) | OTrap.
Arguments OPlain {T}. Arguments OLoad {T}. Arguments OCall {T}. Arguments OKfunc {T}. Arguments OTrap {T}.
(** What it does: go on somewhere relative to itself, call, return. *)
Inductive effect (M : machine) (T : Type) := Go (d : Z) (s : m_state M) | Enter (t : T) | Leave | Bad.
Arguments Go {M T}. Arguments Enter {M T}. Arguments Leave {M T}. Arguments Bad {M T}.

Definition going {M T} (r : option (m_state M)) : effect M T := match r with Some s => Go 1 s | None => Bad end.
(** 149: exit; 5, 6: jumps; 133: calls; other instructions of classes 5 and 6:
    conditional jumps. *)
Definition perform {T} (M : machine) (p : op T) (s : m_state M) : effect M T :=
  match p with
  | OPlain x =>
      if code x =? 149 then Leave
      else if code x =? 5 then Go (1 + off x) s
      else if code x =? 6 then Go (1 + imm x) s
      else if code x =? 133 then
        if src x =? 0 then going (m_helper M (imm x) s)
        else if (src x =? 2) && (off x =? 0) then going (m_kfunc M (imm x) s) else Bad
      else if (code x mod 8 =? 5) || (code x mod 8 =? 6) then
        let o := code x / 16 in
        if (o =? 0) || (o =? 8) || (o =? 9) then Bad else if m_branch M x s then Go (1 + off x) s else Go 1 s
      else if (code x =? 0) || (code x =? 24) then Bad
      else going (m_alu M x s)
  | OLoad d v => Go 2 (m_load M d v s)
  | OCall t => Enter t
  | OKfunc id => going (m_kfunc M id s)
  | OTrap => Bad
  end.

(** * The kernel *)

(** A program is a list of instructions; references are in their fields. *)
Definition decode (out : list insn) (pc : nat) : op nat :=
  match nth_error out pc with
  | None => OTrap
  | Some x =>
      if code x =? 24 then
        match nth_error out (S pc) with
        | None => OTrap
        | Some z =>
            if src x =? 0 then OLoad (dst x) (VConst (u32 (imm x) + 2 ^ 32 * u32 (imm z)))
            else if src x =? 1 then OLoad (dst x) (VMap (imm x))
            else if src x =? 2 then OLoad (dst x) (VVar (imm x) (imm z))
            else if src x =? 3 then OLoad (dst x) (VKernel (imm x))
            else if src x =? 4 then OLoad (dst x) (VFunc (Z.of_nat pc + 1 + imm x))
            else OTrap
        end
      else if (code x =? 133) && (src x =? 1) then
        let t := Z.of_nat pc + 1 + imm x in
        if (dst x =? 0) && (off x =? 0) && (0 <=? t) then OCall (Z.to_nat t) else OTrap
      else OPlain x
  end.

(** Where it is, where and in which state its callers are, and the state. *)
Record kconf (M : machine) := { k_pc : nat; k_stack : list (nat * m_state M); k_state : m_state M }.
Arguments k_pc {M}. Arguments k_stack {M}. Arguments k_state {M}. Arguments Build_kconf {M}.
(** [At]: it runs on. *)
Inductive outcome (M : machine) (C : Type) := At (c : C) | Done (s : m_state M) | Fault | Escape.
Arguments At {M C}. Arguments Done {M C}. Arguments Fault {M C}. Arguments Escape {M C}.

Definition kstep (M : machine) (out : list insn) (c : kconf M) : outcome M (kconf M) :=
  match perform M (decode out (k_pc c)) (k_state c) with
  | Go d s => if Z.of_nat (k_pc c) + d <? 0 then Fault else At (Build_kconf (Z.to_nat (Z.of_nat (k_pc c) + d)) (k_stack c) s)
  | Enter t => At (Build_kconf t ((S (k_pc c), k_state c) :: k_stack c) (m_enter M (k_state c)))
  | Leave => match k_stack c with
             | [] => Done (k_state c)
             | (p, s) :: r => At (Build_kconf p r (m_leave M s (k_state c)))
             end
  | Bad => Fault
  end.
Fixpoint kruns (M : machine) (out : list insn) (n : nat) (c : kconf M) : outcome M (kconf M) :=
  match n with
  | O => At c
  | S n => match kstep M out c with At c => kruns M out n c | r => r end
  end.

(** * The object file *)

Section Object.
Variables (M : machine) (o : object) (text : nat -> bool) (maps : list mapinfo) (probe : bool).
(** Where the functions of the program are put. *)
Variable place : func -> nat.

Definition no_refs (f : func) (k : nat) (x : insn) : Prop :=
  (forall r sym sec, attached o f k r -> ~ data_ref o r sym sec) /\ (forall r, attached o f k r -> ~ kernel_ref o r) /\
  (forall sec a, ~ code_ref o text f k x sec a).
(** The second half of a 64-bit load. *)
Definition second_half (f : func) (k : nat) : Prop := exists j w, k = S j /\ nth_error (f_ins f) j = Some w /\ code w = LDDW_CODE.
Definition plain_call (x : insn) : Prop := code x = CALL_CODE /\ src x = 1 /\ dst x = 0 /\ off x = 0.

(** What instruction [k] of [f] stands for. *)
Inductive means (f : func) (k : nat) : op func -> Prop :=
| me_map x r sym sec m : nth_error (f_ins f) k = Some x -> attached o f k r -> data_ref o r sym sec -> names_map maps (r_sym r) sec m ->
    m_data_empty m = true -> means f k (OLoad (dst x) (VMap (m_fd m)))
| me_var x r sym sec m : nth_error (f_ins f) k = Some x -> attached o f k r -> data_ref o r sym sec -> names_map maps (r_sym r) sec m ->
    m_data_empty m = false -> means f k (OLoad (dst x) (VVar (m_fd m) (imm x + s_address sym)))
| me_kfunc x r e id : nth_error (f_ins f) k = Some x -> attached o f k r -> kernel_sym o r e -> code x = CALL_CODE ->
    x_resolved e = true -> x_btf_id e = Some id -> means f k (OKfunc id)
| me_absent x r e : nth_error (f_ins f) k = Some x -> attached o f k r -> kernel_sym o r e -> code x = CALL_CODE ->
    x_resolved e = false -> means f k OTrap
| me_typed x r e id : nth_error (f_ins f) k = Some x -> attached o f k r -> kernel_sym o r e -> code x = LDDW_CODE ->
    x_btf_id e = Some id -> means f k (OLoad (dst x) (VKernel id))
| me_addr x r e a : nth_error (f_ins f) k = Some x -> attached o f k r -> kernel_sym o r e -> code x = LDDW_CODE ->
    x_btf_id e = None -> x_addr e = Some a -> means f k (OLoad (dst x) (VConst a))
| me_null x r e : nth_error (f_ins f) k = Some x -> attached o f k r -> kernel_sym o r e -> code x = LDDW_CODE ->
    x_btf_id e = None -> x_addr e = None -> means f k (OLoad (dst x) (VConst 0))
| me_call x g : nth_error (f_ins f) k = Some x -> code_ref o text f k x (f_sec g) (f_addr g) -> In g (ob_funs o) -> plain_call x ->
    means f k (OCall g)
| me_func x g : nth_error (f_ins f) k = Some x -> code_ref o text f k x (f_sec g) (f_addr g) -> In g (ob_funs o) -> code x = LDDW_CODE ->
    means f k (OLoad (dst x) (VFunc (Z.of_nat (place g))))
| me_const x z : nth_error (f_ins f) k = Some x -> no_refs f k x -> code x = LDDW_CODE -> nth_error (f_ins f) (S k) = Some z ->
    means f k (OLoad (dst x) (VConst (lddw_value x z)))
| me_plain x : nth_error (f_ins f) k = Some x -> no_refs f k x -> code x <> LDDW_CODE -> ~ second_half f k -> means f k (OPlain (adapted probe x))
| me_second x : nth_error (f_ins f) k = Some x -> second_half f k -> means f k OTrap.

Record oconf := { o_fun : func; o_at : nat; o_stack : list (func * nat * m_state M); o_state : m_state M }.

(** One step.  [Escape]: a jump out of the function, or its end without exit or
    jump; the kernel accepts no such programs. *)
Inductive ostep (c : oconf) : outcome M oconf -> Prop :=
| os_end : nth_error (f_ins (o_fun c)) (o_at c) = None -> ostep c Escape
| os_go p d s : means (o_fun c) (o_at c) p -> perform M p (o_state c) = Go d s -> 0 <= Z.of_nat (o_at c) + d < Z.of_nat (length (f_ins (o_fun c))) ->
    ostep c (At {| o_fun := o_fun c; o_at := Z.to_nat (Z.of_nat (o_at c) + d); o_stack := o_stack c; o_state := s |})
| os_out p d s : means (o_fun c) (o_at c) p -> perform M p (o_state c) = Go d s -> ~ 0 <= Z.of_nat (o_at c) + d < Z.of_nat (length (f_ins (o_fun c))) ->
    ostep c Escape
| os_call p g : means (o_fun c) (o_at c) p -> perform M p (o_state c) = Enter g ->
    ostep c (At {| o_fun := g; o_at := 0; o_stack := (o_fun c, S (o_at c), o_state c) :: o_stack c; o_state := m_enter M (o_state c) |})
| os_return p f k s r : means (o_fun c) (o_at c) p -> perform M p (o_state c) = Leave -> o_stack c = (f, k, s) :: r ->
    ostep c (At {| o_fun := f; o_at := k; o_stack := r; o_state := m_leave M s (o_state c) |})
| os_done p : means (o_fun c) (o_at c) p -> perform M p (o_state c) = Leave -> o_stack c = [] -> ostep c (Done (o_state c))
| os_bad p : means (o_fun c) (o_at c) p -> perform M p (o_state c) = Bad -> ostep c Fault.
Inductive oruns : nat -> oconf -> outcome M oconf -> Prop :=
| or_zero c : oruns 0 c (At c)
| or_step n c c1 r : ostep c (At c1) -> oruns n c1 r -> oruns (S n) c r
| or_end n c r : ostep c r -> (forall c1, r <> At c1) -> oruns (S n) c r.

(** What compilers produce: opcodes are bytes, functions are referred to by calls
    and 64-bit loads, other loads are of numbers; variables have offsets of 31
    bits and kernel symbols addresses of 64 and BTF types of 31 bits. *)
Record tidy (f : func) : Prop := {
  ti_byte : forall k x, nth_error (f_ins f) k = Some x -> 0 <= code x < 256;
  ti_refs : forall k x sec a, nth_error (f_ins f) k = Some x -> code_ref o text f k x sec a -> plain_call x \/ code x = LDDW_CODE;
  ti_loads : forall k x, nth_error (f_ins f) k = Some x -> no_refs f k x -> code x = LDDW_CODE -> src x = 0;
  ti_vars : forall k x r sym sec, nth_error (f_ins f) k = Some x -> attached o f k r -> data_ref o r sym sec ->
    0 <= s_address sym < 2 ^ 31 /\ 0 <= imm x /\ imm x + s_address sym < 2 ^ 31;
  ti_kernel : forall k r e, attached o f k r -> kernel_sym o r e ->
    (forall a, x_addr e = Some a -> 0 <= a < 2 ^ 64) /\ (forall id, x_btf_id e = Some id -> 0 <= id < 2 ^ 31) }.
End Object.
Arguments o_fun {M}. Arguments o_at {M}. Arguments o_stack {M}. Arguments o_state {M}. Arguments Build_oconf {M}.

(** References to data belong to one map. *)
Definition one_map (o : object) (maps : list mapinfo) : Prop :=
  forall f k r sym sec m m', In f (ob_funs o) -> attached o f k r -> data_ref o r sym sec ->
    names_map maps (r_sym r) sec m -> names_map maps (r_sym r) sec m' -> m' = m.
(** No helper has a number above 2002000000. *)
Definition few_helpers (M : machine) : Prop := forall n s, 2002000000 <= n -> m_helper M n s = None.

(** What can be seen of a run. *)
Inductive view (M : machine) := Running (s : m_state M) | Returned (s : m_state M) | Stopped | Gone.
Arguments Running {M}. Arguments Returned {M}. Arguments Stopped {M}. Arguments Gone {M}.
Definition seen {M C} (state : C -> m_state M) (r : outcome M C) : view M :=
  match r with At c => Running (state c) | Done s => Returned s | Fault => Stopped | Escape => Gone end.

(** The program [out] entered at [t] does what the object says that function [g]
    does: the object says what happens, after any number of steps, from any
    state, and that happens. *)
Definition agrees (M : machine) (o : object) (text : nat -> bool) (maps : list mapinfo) (probe : bool) (place : func -> nat) (out : list insn) (g : func) (t : nat) : Prop :=
  forall s n,
    (exists r, oruns M o text maps probe place n (Build_oconf g 0 [] s) r) /\
    forall r, oruns M o text maps probe place n (Build_oconf g 0 [] s) r -> r <> Escape ->
      seen k_state (kruns M out n (Build_kconf t [] s)) = seen o_state r.
(** The program [out] behaves like function [f] of the object: the functions it
    needs are at places of their own, and each behaves as it should. *)
Definition behaves (M : machine) (o : object) (text : nat -> bool) (maps : list mapinfo) (probe : bool) (f : func) (out : list insn) : Prop :=
  exists place,
    (forall g, needs o text f g -> (length (f_ins f) <= place g)%nat /\ (place g + length (f_ins g) <= length out)%nat) /\
    (forall g h, needs o text f g -> needs o text f h -> g <> h -> (place g + length (f_ins g) <= place h)%nat \/ (place h + length (f_ins h) <= place g)%nat) /\
    agrees M o text maps probe place out f 0 /\
    forall g, needs o text f g -> agrees M o text maps probe place out g (place g).
