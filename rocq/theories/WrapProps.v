(** C100: generated bindings call the helper they are named after. *)
From Coq Require Import String.
From Verif Require Import Base Text TextSplit WrapModel WrapTable WrapIds WrapSpec WrapProofs WrapProofs2.
Open Scope Z_scope.

(** Every function of the generated bindings calls the kernel's helper of its
    name, with its arguments in order and no more of them than the helper
    takes. *)
Theorem C100_bindings : forall w, In w helpers_rs -> faithful w.
Proof. exact table_faithful. Qed.
Print Assumptions C100_bindings.

(** There is one for every helper but trace_printk, in the kernel's order. *)
Theorem C100_complete :
  map w_name helpers_rs = filter (fun n => negb (str_eqb n (txt "bpf_trace_printk"))) (map (fun p => (txt "bpf_" ++ fst p)%list) mapper).
Proof. exact table_complete. Qed.
Print Assumptions C100_complete.

(** The generator makes one function per declaration except that of
    trace_printk, with its name, parameters and result, calling the number that
    is its position among the declarations; everything else in the file
    stays. *)
Theorem C100_generator : forall items ds, contains items ds -> Forall proper ds ->
  exists ws left, codegen items = Ok (ws, left) /\
    Forall2 (fun p w => wants (fst p) (snd p) w) (filter (fun p => negb (printk (snd p))) (numbered 1 ds)) ws /\ left_over items left.
Proof. exact codegen_right. Qed.
Print Assumptions C100_generator.

(** So for headers that declare helpers in the kernel's order without gaps,
    every function calls the right helper. *)
Theorem C100_ordered_partial : forall items ds, contains items ds -> Forall proper ds -> follows_kernel ds ->
  exists ws left, codegen items = Ok (ws, left) /\ Forall faithful ws /\
    map w_name ws = filter (fun n => negb (str_eqb n (txt "bpf_trace_printk"))) (map d_name ds) /\ left_over items left.
Proof. exact codegen_ordered. Qed.
Print Assumptions C100_ordered_partial.

Definition lookup : decl :=
  {| d_name := txt "bpf_map_lookup_elem"; d_params := [(txt "map", txt "*mut c_void"); (txt "key", txt "*const c_void")]; d_ret := txt "*mut c_void" |}.
Definition ktime : decl := {| d_name := txt "bpf_ktime_get_ns"; d_params := []; d_ret := txt "__u64" |}.
Definition file1 : list item := [IOther (txt "type __u64 = u64;"); IForeign [static_of lookup]; IForeign [FStatic (txt "environ") (TOther (txt "usize"))]].
Example C100_file1 : contains file1 [lookup] /\ Forall proper [lookup] /\ follows_kernel [lookup].
Proof.
  split; [|split].
  - unfold file1. apply c_other, c_decl, c_module; [|constructor]. intros n t [E|[]]. inversion E. reflexivity.
  - constructor; [|constructor]. split; [reflexivity|]. cbn. constructor; [intros [E|[]]; discriminate E|]. constructor; [intros []|constructor].
  - exists 1%nat. reflexivity.
Qed.

(** The number is the position, not the one the header gives: if a helper is
    missing before it, a function calls another helper. *)
Theorem C100_numbers_refuted : exists items ds ws left,
  contains items ds /\ Forall proper ds /\ codegen items = Ok (ws, left) /\ exists w, In w ws /\ w_name w = txt "bpf_ktime_get_ns" /\ ~ faithful w.
Proof.
  exists [IForeign [static_of lookup]; IForeign [static_of ktime]], [lookup; ktime].
  eexists. eexists. split; [apply c_decl, c_decl, c_none|]. split.
  { repeat constructor; cbn; try tauto. intros [E|[]]. discriminate E. }
  split; [vm_compute; reflexivity|]. eexists. split; [right; left; reflexivity|]. split; [reflexivity|].
  intros (k & a & E & _ & _ & _ & _ & C). vm_compute in E. inversion E. subst. specialize (C [] eq_refl). vm_compute in C. inversion C.
Qed.
Print Assumptions C100_numbers_refuted.

(** A module that holds a helper and something else is dropped as a whole. *)
Theorem C100_siblings_refuted : exists items other ws left,
  In (IForeign [static_of lookup; other]) items /\ (forall n t, other = FStatic n t -> starts_with (txt "bpf_") n = false) /\
  codegen items = Ok (ws, left) /\ left = [INothing].
Proof.
  exists [IForeign [static_of lookup; FOther (txt "fn getpid() -> c_int;")]], (FOther (txt "fn getpid() -> c_int;")).
  eexists. eexists. split; [now left|]. split; [intros n t E; discriminate E|]. split; [vm_compute; reflexivity|reflexivity].
Qed.
Print Assumptions C100_siblings_refuted.

(** The constants of both sets of bindings number the helpers as the kernel
    does. *)
Theorem C100_constants : ids_ebpf = kernel_constants /\ ids_obj = kernel_constants.
Proof. split; vm_compute; reflexivity. Qed.
Print Assumptions C100_constants.

(** The generator works exactly on files in which every static whose name starts
    with bpf_ is an optional function pointer with named parameters; on
    others it panics. *)
Theorem C100_works : forall items, (exists r, codegen items = Ok r) <-> forall p, In p (helper_statics items) -> usable p.
Proof. exact codegen_works. Qed.
Print Assumptions C100_works.
Example C100_works_file1 : forall p, In p (helper_statics file1) -> usable p.
Proof.
  intros p [<-|[]]. eexists _, _. split; [exists [(txt "core", GNone); (txt "option", GNone)]; eexists _, _; reflexivity|].
  intros _ q [<-|[<-|[]]]; discriminate.
Qed.
Example C100_works_not : ~ usable (txt "bpf_x", TOther (txt "c_int")).
Proof. intros (i & o & (s & n & r & E) & _). discriminate E. Qed.

(** The committed functions are what the generator makes of a file that declares
    the kernel's helpers one per module. *)
Definition decl_for (w : wrapper) : decl := {| d_name := w_name w; d_params := w_params w; d_ret := w_ret w |}.
Definition printk_decl : decl :=
  {| d_name := txt "bpf_trace_printk"; d_params := [(txt "fmt", txt "*const c_char"); (txt "fmt_size", txt "__u32")]; d_ret := txt "c_long" |}.
Definition committed : list decl := (map decl_for (firstn 5 helpers_rs) ++ printk_decl :: map decl_for (skipn 5 helpers_rs))%list.
Theorem C100_reproduced : follows_kernel committed /\
  codegen (map (fun d => IForeign [static_of d]) committed) = Ok (helpers_rs, repeat INothing (List.length mapper)).
Proof. split; [exists (List.length mapper); vm_compute; reflexivity|vm_compute; reflexivity]. Qed.
Print Assumptions C100_reproduced.
