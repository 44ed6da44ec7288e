(** What a loaded program should consist of, in terms of the object file. *)
From Verif Require Import Base Insn PatchModel PatchSpec LinkModel LinkSpec ObjModel WholeModel.
Local Open Scope Z_scope.

(** A section is code if a function lies in it. *)
Definition code_section (o : object) (sec : nat) : Prop := exists f, In f (ob_funs o) /\ f_sec f = sec.

(** Relocation [r] is attached to instruction [k] of [f]. *)
Definition attached (o : object) (f : func) (k : nat) (r : reloc) : Prop :=
  In r (ob_relocs o (f_sec f)) /\ r_offset r = f_secoff f + 8 * Z.of_nat k.

(** It refers to data: a map or a variable. *)
Definition data_ref (o : object) (r : reloc) (sym : symbol) (sec : nat) : Prop :=
  ob_syms o (r_sym r) = Some sym /\ s_section sym = Some sec /\ ~ code_section o sec.
(** It refers to a symbol of the kernel. *)
Definition kernel_ref (o : object) (r : reloc) : Prop :=
  exists sym, ob_syms o (r_sym r) = Some sym /\ is_extern sym = true.
(** ... which has been settled as [x]. *)
Definition kernel_sym (o : object) (r : reloc) (x : extern) : Prop :=
  exists xs sym nm, ob_externs o = Some xs /\ ob_syms o (r_sym r) = Some sym /\ is_extern sym = true /\ s_name sym = Some nm /\ xs nm = Some x.

(** The object as far as code is concerned. *)
Definition code_of (o : object) (text : nat -> bool) : obj :=
  {| o_funs := ob_funs o; o_relocs := fun sec off => find (fun r => r_offset r =? off) (ob_relocs o sec);
     o_syms := ob_syms o; o_text := text |}.

(** Instruction [x], number [k] of [f], refers to the function at [(sec, a)].
    Instructions that refer to the kernel do not. *)
Definition code_ref (o : object) (text : nat -> bool) (f : func) (k : nat) (x : insn) (sec : nat) (a : Z) : Prop :=
  (forall r, attached o f k r -> ~ kernel_ref o r) /\ names (code_of o text) f k x sec a.

Definition uses (o : object) (text : nat -> bool) (f g : func) : Prop :=
  exists k x, nth_error (f_ins f) k = Some x /\ code_ref o text f k x (f_sec g) (f_addr g) /\ In g (ob_funs o).
Inductive needs (o : object) (text : nat -> bool) : func -> func -> Prop :=
| needs_one f g : uses o text f g -> needs o text f g
| needs_more f g h : uses o text f g -> needs o text g h -> needs o text f h.

(** What compilers produce.  [maps]: the maps that were created. *)
Record well_formed (o : object) (text : nat -> bool) (maps : list mapinfo) : Prop := {
  (* keys of functions *)
  wf_keys : NoDup (map (fun f => (f_sec f, f_addr f)) (ob_funs o));
  wf_text : forall sec, text sec = true <-> code_section o sec;
  wf_place : forall f, In f (ob_funs o) -> 0 <= f_secoff f /\ f_secoff f + 8 * Z.of_nat (length (f_ins f)) <= 2 ^ 64;
  (* one relocation per offset *)
  wf_once : forall sec, NoDup (map r_offset (ob_relocs o sec));
  (* function symbols are in sections with functions *)
  wf_funs : forall r sym sec f k, In f (ob_funs o) -> attached o f k r -> data_ref o r sym sec -> s_kind sym <> KText;
  (* data is referred to by 64-bit loads, which take two instructions of which
     only the first has a relocation *)
  wf_loads : forall f k x r sym sec, In f (ob_funs o) -> attached o f k r -> data_ref o r sym sec -> nth_error (f_ins f) k = Some x -> code x = LDDW_CODE;
  wf_pairs : forall f k x, In f (ob_funs o) -> nth_error (f_ins f) k = Some x -> code x = LDDW_CODE ->
    exists z, nth_error (f_ins f) (S k) = Some z /\ code z = 0 /\ forall r, ~ attached o f (S k) r;
  wf_next : forall sec r r' sym s, In r (ob_relocs o sec) -> In r' (ob_relocs o sec) -> data_ref o r sym s -> r_offset r' <> r_offset r + 8;
  (* there are not 145 million symbols *)
  wf_few : forall sec r, In r (ob_relocs o sec) -> Z.of_nat (r_sym r) < 145483648 }.

(** Helpers that an old kernel lacks, and what they are replaced by:
    bpf_probe_read_user and _kernel (112, 113) by bpf_probe_read (4), their
    variants for strings (114, 115) by bpf_probe_read_str (45). *)
Definition adapted (probe : bool) (x : insn) : insn :=
  if probe then x
  else if (Z.land (code x) 255 =? 133) && (src x =? 0) && (dst x =? 0)
       then if (imm x =? 112) || (imm x =? 113) then set_imm 4 x
            else if (imm x =? 114) || (imm x =? 115) then set_imm 45 x else x
       else x.

(** [f]'s copy at position [s] of the program [out] whose parts are [segs]. *)
Record copied (o : object) (text : nat -> bool) (maps : list mapinfo) (probe : bool) (segs : list (nat * func)) (out : list insn) (s : nat) (f : func) : Prop := {
  (* references to data load the address of the right map *)
  cp_data : forall k x z r sym sec, nth_error (f_ins f) k = Some x -> nth_error (f_ins f) (S k) = Some z -> attached o f k r -> data_ref o r sym sec ->
    exists m, names_map maps (r_sym r) sec m /\
      nth_error out (s + k) = Some {| code := code x; dst := dst x; off := off x; imm := m_fd m; src := if m_data_empty m then 1 else 2 |} /\
      nth_error out (s + S k) = Some (if m_data_empty m then z else set_imm (i32 (imm x + i32 (s_address sym))) z);
  (* calls of kernel functions *)
  cp_kfunc : forall k x r e, nth_error (f_ins f) k = Some x -> attached o f k r -> kernel_sym o r e -> code x = CALL_CODE ->
    (x_resolved e = true /\ exists id, x_btf_id e = Some id /\
       nth_error out (s + k) = Some {| code := CALL_CODE; dst := dst x; src := 2; off := 0; imm := i32 id |}) \/
    (x_resolved e = false /\ x_weak e = true /\
       nth_error out (s + k) = Some {| code := CALL_CODE; dst := 0; src := 0; off := 0; imm := 2002000000 + Z.of_nat (r_sym r) |});
  (* addresses of kernel variables *)
  cp_ksym : forall k x r e, nth_error (f_ins f) k = Some x -> attached o f k r -> kernel_sym o r e -> code x <> CALL_CODE ->
    code x = LDDW_CODE /\
    exists z lo hi, nth_error (f_ins f) (S k) = Some z /\ nth_error out (s + k) = Some lo /\ nth_error out (s + S k) = Some hi /\
      hi = set_imm (imm hi) z /\ lo = set_src (src lo) (set_imm (imm lo) x) /\
      ((exists id, x_btf_id e = Some id /\ src lo = 3 /\ imm lo = i32 id /\ imm hi = 0)
       \/ (exists a, x_btf_id e = None /\ x_addr e = Some a /\ src lo = 0 /\ (0 <= a < 2 ^ 64 -> lddw_value lo hi = a))
       \/ (x_btf_id e = None /\ x_addr e = None /\ x_weak e = true /\ src lo = 0 /\ lddw_value lo hi = 0));
  (* calls and addresses of functions reach the copy of that function *)
  cp_code : forall k x sec a, nth_error (f_ins f) k = Some x -> code_ref o text f k x sec a ->
    exists y g t, nth_error out (s + k) = Some y /\ In g (ob_funs o) /\ f_sec g = sec /\ f_addr g = a /\ In (t, g) (tl segs) /\ goes_to x y (s + k) t;
  (* everything else is as in the object, up to the helpers the kernel lacks *)
  cp_else : forall k x, nth_error (f_ins f) k = Some x ->
    (forall r sym sec, attached o f k r -> ~ data_ref o r sym sec) ->
    (forall r, attached o f k r -> ~ kernel_ref o r) ->
    (forall sec a, ~ code_ref o text f k x sec a) ->
    (forall j w r, k = S j -> nth_error (f_ins f) j = Some w -> code w = LDDW_CODE -> attached o f j r ->
       (forall sym sec, ~ data_ref o r sym sec) /\ ~ kernel_ref o r) ->
    nth_error out (s + k) = Some (adapted probe x) }.

(** The object has BTF if it refers to the kernel. *)
Definition kernel_known (o : object) : Prop :=
  forall f k r, In f (ob_funs o) -> attached o f k r -> kernel_ref o r -> ob_externs o <> None.

(** The code [out] is what the program entered at [f] should be: [f], followed by
    the functions it needs, each once. *)
Definition complete (o : object) (text : nat -> bool) (maps : list mapinfo) (probe : bool) (f : func) (out : list insn) : Prop :=
  exists segs, (exists r, segs = (0%nat, f) :: r) /\ tiles 0 segs (length out) /\
    (forall g, In g (map snd (tl segs)) <-> needs o text f g) /\ NoDup (map snd (tl segs)) /\
    forall s g, In (s, g) segs -> copied o text maps probe segs out s g.

(** No program is used by a program, and no function that a program needs has
    the address of another one. *)
Definition separate (o : object) (text : nat -> bool) : Prop :=
  (forall p f g, In p (ob_progs o) -> In f (ob_funs o) -> f_sec f = pg_index p -> f_addr f = pg_addr p -> needs o text f g ->
     forall q, In q (ob_progs o) -> (f_sec g, f_addr g) <> (pg_index q, pg_addr q)) /\
  (forall p f g h, In p (ob_progs o) -> In f (ob_funs o) -> f_sec f = pg_index p -> f_addr f = pg_addr p ->
     needs o text f g -> needs o text f h -> f_addr g = f_addr h -> g = h).

(** The sections that are code, as a test. *)
Definition is_code (o : object) (sec : nat) : bool := existsb (fun f => Nat.eqb (f_sec f) sec) (ob_funs o).

(** Function [f] is the one program [p] starts with. *)
Definition entry_of (o : object) (p : program) (f : func) : Prop :=
  In f (ob_funs o) /\ f_sec f = pg_index p /\ f_addr f = pg_addr p.

(** Instruction [k] of [f] asks for something that does not exist: a kernel
    symbol that must be there and is not. *)
Definition kernel_missing (o : object) (f : func) (k : nat) : Prop :=
  exists x r e, nth_error (f_ins f) k = Some x /\ attached o f k r /\ kernel_sym o r e /\ x_weak e = false /\
    (code x = CALL_CODE /\ x_resolved e = false \/ code x = LDDW_CODE /\ x_btf_id e = None /\ x_addr e = None).
(** ... a variable or map that is in no map that was created. *)
Definition data_missing (o : object) (maps : list mapinfo) (f : func) (k : nat) : Prop :=
  exists x r sym sec, nth_error (f_ins f) k = Some x /\ attached o f k r /\ data_ref o r sym sec /\ forall m, ~ names_map maps (r_sym r) sec m.
(** ... a function that is not in the object. *)
Definition code_missing (o : object) (text : nat -> bool) (f : func) (k : nat) : Prop :=
  exists x sec a, nth_error (f_ins f) k = Some x /\ code_ref o text f k x sec a /\
    forall g, In g (ob_funs o) -> ~ (f_sec g = sec /\ f_addr g = a).

(** Everything the object refers to exists. *)
Record present (o : object) (text : nat -> bool) (maps : list mapinfo) : Prop := {
  pr_entry : forall p, In p (ob_progs o) -> exists f, entry_of o p f;
  (* relocations of code are for whole instructions and name symbols *)
  pr_placed : forall f r, In f (ob_funs o) -> In r (ob_relocs o (f_sec f)) -> f_secoff f <= r_offset r < f_secoff f + 8 * Z.of_nat (length (f_ins f)) ->
    (exists k, attached o f k r) /\ ob_syms o (r_sym r) <> None;
  (* maps and variables *)
  pr_data : forall f k x r sym sec, In f (ob_funs o) -> nth_error (f_ins f) k = Some x -> attached o f k r -> data_ref o r sym sec ->
    exists m, names_map maps (r_sym r) sec m;
  (* the kernel *)
  pr_kernel : forall f k x r, In f (ob_funs o) -> nth_error (f_ins f) k = Some x -> attached o f k r -> kernel_ref o r ->
    exists e, kernel_sym o r e /\
      (code x = CALL_CODE /\ (x_resolved e = true /\ x_btf_id e <> None \/ x_resolved e = false /\ x_weak e = true) \/
       code x = LDDW_CODE /\ (x_btf_id e <> None \/ x_addr e <> None \/ x_weak e = true));
  (* functions that are needed *)
  pr_code : forall p f g k x, In p (ob_progs o) -> entry_of o p f -> g = f \/ needs o text f g -> nth_error (f_ins g) k = Some x ->
    (forall r sym, code_reloc (code_of o text) g k r sym -> exists sec a, code_ref o text g k x sec a) /\
    (forall sec a, code_ref o text g k x sec a -> exists h, In h (ob_funs o) /\ f_sec h = sec /\ f_addr h = a) }.
