(** Kernel symbols: claims about their resolution. *)
From Coq Require Import String.
From Verif Require Import Base Text TextParse Insn PatchModel BtfTypes BtfModel CoreSpec ExternModel ExternSpec ExternProofs ExternProofs2.
Local Open Scope Z_scope.

(** * C12: kallsyms *)

(** The typeless pass succeeds exactly when every requested symbol has only
    well-formed lines, at most one non-zero address, and one unless weak. *)
Theorem C12_accepts : forall text m, NoDup (map fst m) -> typed_done m ->
  (exists m', resolve_typeless text m = Ok m') <->
  (forall n x, In (n, x) m -> wanted x = true ->
     ~ malformed text n /\ (forall a b, listed text n a -> listed text n b -> a = b) /\
     (xd_weak x = true \/ exists a, listed text n a)).
Proof. exact typeless_ok_iff. Qed.
Print Assumptions C12_accepts.

(** Each requested symbol then holds the one address listed, or 0 when weak
    and not listed. *)
Theorem C12_assigns : forall text m m' n x, NoDup (map fst m) -> typed_done m ->
  resolve_typeless text m = Ok m' -> In (n, x) m -> wanted x = true ->
  exists x', In (n, x') m' /\
   ((exists a, (forall b, listed text n b <-> b = a) /\ xd_resolved x' = true /\ xd_addr x' = Some a) \/
    ((forall b, ~ listed text n b) /\ xd_weak x = true /\ xd_resolved x' = false /\ xd_addr x' = Some 0)).
Proof. exact typeless_assigns. Qed.
Print Assumptions C12_assigns.

(** Symbols that were resolved before keep what they have, and no name
    appears or disappears. *)
Theorem C12_keeps : forall text m m', NoDup (map fst m) -> typed_done m -> resolve_typeless text m = Ok m' ->
  map fst m' = map fst m /\ forall n x, In (n, x) m -> xd_resolved x = true -> In (n, x) m'.
Proof. exact typeless_keeps. Qed.
Print Assumptions C12_keeps.

(** The errors tell the truth. *)
Theorem C12_errors : forall text m, NoDup (map fst m) -> typed_done m ->
  match resolve_typeless text m with
  | Ok _ => True
  | Err (KVariableNotFound n) => exists x, In (n, x) m /\ wanted x = true /\ xd_weak x = false /\ ~ exists a, listed text n a
  | Err (KAmbiguous n a b) => exists x, In (n, x) m /\ wanted x = true /\ listed text n a /\ listed text n b /\ a <> b
  | Err KKallsymsParse => exists n x, In (n, x) m /\ wanted x = true /\ malformed text n
  | Err _ => False
  end.
Proof.
  intros text m ND TD. pose proof (typeless_spec text m ND TD) as S.
  destruct (resolve_typeless text m) as [m'|e]; [exact I|exact S].
Qed.
Print Assumptions C12_errors.

(** The order of the lines does not matter. *)
Theorem C12_order : forall t t' m m', Permutation (lines t) (lines t') -> NoDup (map fst m) -> typed_done m ->
  resolve_typeless t m = Ok m' -> resolve_typeless t' m = Ok m'.
Proof. exact typeless_order. Qed.
Print Assumptions C12_order.
Theorem C12_order_errors : forall t t' m, Permutation (lines t) (lines t') -> NoDup (map fst m) -> typed_done m ->
  is_ok (resolve_typeless t m) = is_ok (resolve_typeless t' m).
Proof. exact typeless_order_err. Qed.
Print Assumptions C12_order_errors.

(** Lines in the kernel's format are read as what they say. *)
Theorem C12_format : forall a k n modul, 0 <= a < 2 ^ 64 -> is_ws k = false -> word_ok n ->
  exists s, kent (kallsyms_line a k n modul) = Some (s, n) /\ hex_u64 s = Some a.
Proof. exact kent_line. Qed.
Print Assumptions C12_format.

(** Addresses are 64-bit numbers; a line with a bigger one is an error. *)
Theorem C12_range : forall text n a, listed text n a -> 0 < a < 2 ^ 64.
Proof.
  intros text n a (l & s & _ & _ & E & N). apply parse_uint_bound in E; lia.
Qed.
Print Assumptions C12_range.
Theorem C12_overflow : forall ls n k a d, 2 ^ 64 <= a < 16 ^ Z.of_nat (S d) -> is_ws k = false -> word_ok n ->
  Forall (fun l => ~ In 10 l) ls -> k <> 10 -> In (hex_fixed (S d) a ++ 32 :: k :: 32 :: n) ls -> malformed (unlines ls) n.
Proof. exact overflow_malformed. Qed.
Print Assumptions C12_overflow.

Definition ks_text : list Z := unlines
  [kallsyms_line 18446744071578845184 84 (txt "_text") None; kallsyms_line 0 68 (txt "bpf_prog_fops") None;
   kallsyms_line 18446744071580000000 68 (txt "bpf_prog_fops") None;
   kallsyms_line 18446744072635809792 116 (txt "init") (Some (txt "ext4"));
   kallsyms_line 18446744072635813888 116 (txt "init") (Some (txt "nfs"))].
Definition ks_ext (n : string) (w : bool) : list Z * xdesc := (txt n, new_desc (txt n) 1 w None).
Example C12_example :
  (exists m', resolve_typeless ks_text [ks_ext "bpf_prog_fops" false; ks_ext "absent" true] = Ok m' /\
    map (fun kx => xd_addr (snd kx)) m' = [Some 18446744071580000000; Some 0]) /\
  resolve_typeless ks_text [ks_ext "absent" false] = Err (KVariableNotFound (txt "absent")) /\
  resolve_typeless ks_text [ks_ext "init" true] = Err (KAmbiguous (txt "init") 18446744072635809792 18446744072635813888) /\
  resolve_typeless (txt "xyz T foo") [ks_ext "foo" true] = Err KKallsymsParse.
Proof.
  split; [|vm_compute; auto].
  exists [(txt "bpf_prog_fops", set_addr 18446744071580000000 (snd (ks_ext "bpf_prog_fops" false)));
          (txt "absent", null_weak (snd (ks_ext "absent" true)))]. vm_compute. auto.
Qed.

(** * C63: the whole resolution *)

(** What the collection of a .ksyms entry makes of it. *)
Theorem C63_collect : forall b weak_of id n x, process_entry b weak_of id = Ok (n, x) ->
  exists t ty w rid, type_by_id (b_types b) id = Ok t /\ type_name b t = Ok n /\ weak_of n = Some w /\
    resolve_type (b_types b) ty = Ok rid /\
    ((exists h, t = TFunc h /\ ty = h_third h /\ x = new_desc n id w (Some rid)) \/
     (exists h l, t = TVar h l /\ ty = h_third h /\ x = new_desc n id w (if rid =? 0 then None else Some rid))).
Proof.
  intros b weak_of id n x H. unfold process_entry in H.
  destruct (type_by_id (b_types b) id) as [t|] eqn:Et; [|discriminate]. unfold bind at 1 in H.
  destruct t; try discriminate.
  - unfold type_name. cbn [name_offset].
    destruct (string_at b (h_name h)) as [n'|] eqn:En; [|discriminate]. unfold bind at 1 2 in H.
    destruct (weak_of n') as [w|] eqn:Ew; [|discriminate].
    destruct (resolve_type (b_types b) (h_third h)) as [rid|] eqn:Er; [|discriminate].
    unfold bind in H. apply ok_inj in H. inversion H; subst. exists (TFunc h), (h_third h), w, rid. repeat split; try assumption.
    left. exists h. auto.
  - unfold type_name. cbn [name_offset].
    destruct (string_at b (h_name h)) as [n'|] eqn:En; [|discriminate]. unfold bind at 1 2 in H.
    destruct (weak_of n') as [w|] eqn:Ew; [|discriminate].
    destruct (resolve_type (b_types b) (h_third h)) as [rid|] eqn:Er; [|discriminate].
    unfold bind in H. apply ok_inj in H. inversion H; subst. exists (TVar h linkage), (h_third h), w, rid. repeat split; try assumption.
    right. exists h, linkage. auto.
Qed.
Print Assumptions C63_collect.

(** After a successful resolution every typed extern names a kernel type of its
    kind and name that is compatible with it, or is weak and null; every
    typeless one has its address, or is weak and null. *)
Theorem C63_settled : forall stack local kernel text m m', NoDup (map fst m) -> Forall fresh m ->
  resolve_externs stack local kernel text m = Ok m' ->
  map fst m' = map fst m /\
  forall n x, In (n, x) m -> exists x', In (n, x') m' /\ xd_weak x' = xd_weak x /\
  match xd_type x with
  | Some _ =>
      (exists k id, kernel = Some k /\ typed_match stack local k n x id /\ xd_resolved x' = true /\ xd_kernel_id x' = Some id /\ xd_addr x' = None) \/
      (xd_weak x = true /\ xd_resolved x' = false /\ xd_kernel_id x' = None /\ xd_addr x' = Some 0 /\
       (forall k, kernel = Some k -> typed_one stack local k n x = Ok None))
  | None =>
      xd_kernel_id x' = None /\
      ((exists a, (forall b, listed text n b <-> b = a) /\ xd_resolved x' = true /\ xd_addr x' = Some a) \/
       ((forall b, ~ listed text n b) /\ xd_weak x = true /\ xd_resolved x' = false /\ xd_addr x' = Some 0))
  end.
Proof. exact resolve_spec. Qed.
Print Assumptions C63_settled.

(** No relocation is then refused as unresolvable. *)
Theorem C63_patchable : forall stack local kernel text m m' secoff syms r ins, NoDup (map fst m) -> Forall fresh m ->
  resolve_externs stack local kernel text m = Ok m' ->
  extern_step secoff (fun n => option_map to_extern (xget n m')) syms r ins <> Err UnresolvableSymbol.
Proof. exact settled_patches. Qed.
Print Assumptions C63_patchable.

(** A 64-bit load of a typeless symbol receives the listed address. *)
Theorem C63_address : forall stack local kernel text m m' secoff syms r ins ins' i n x a,
  NoDup (map fst m) -> Forall fresh m -> resolve_externs stack local kernel text m = Ok m' ->
  In (n, x) m -> xd_type x = None -> listed text n a -> 0 <= a < 2 ^ 64 ->
  locate secoff (length ins) r = At i ->
  (exists sym, syms (r_sym r) = Some sym /\ is_extern sym = true /\ s_name sym = Some n) ->
  (exists y, nth_error ins i = Some y /\ code y = LDDW_CODE) ->
  extern_step secoff (fun n => option_map to_extern (xget n m')) syms r ins = Ok ins' ->
  exists y z, nth_error ins' i = Some y /\ nth_error ins' (S i) = Some z /\ src y = 0 /\
    u32 (imm y) + 2 ^ 32 * u32 (imm z) = a.
Proof. exact settled_address. Qed.
Print Assumptions C63_address.

(** A typed extern is found whenever the first kernel type of its kind and name
    is compatible with it, and typed resolution fails only if it fails for one
    of the externs. *)
Theorem C63_finds : forall stack local kernel n x lid lt j t kid,
  xd_type x = Some lid -> type_by_id (b_types local) (xd_btf x) = Ok lt ->
  match lt with TFunc _ => True | TVar _ _ => True | _ => False end ->
  nth_error (b_types kernel) j = Some t -> kind_of t = kind_of lt -> carried t = Some kid ->
  type_name kernel t = Ok (match lt with TFunc _ => lookup_name n x | _ => n end) ->
  (forall j' t', (j' < j)%nat -> nth_error (b_types kernel) j' = Some t' -> kind_of t' = kind_of lt ->
     exists n', type_name kernel t' = Ok n' /\ n' <> match lt with TFunc _ => lookup_name n x | _ => n end) ->
  compat stack (b_types local) (b_types kernel) lid kid = CRes (Ok true) ->
  typed_one stack local kernel n x = Ok (Some (Z.of_nat j)).
Proof. exact typed_finds. Qed.
Print Assumptions C63_finds.
Theorem C63_typed_succeeds : forall stack local kernel m,
  (forall n x, In (n, x) m -> exists r, typed_one stack local kernel n x = Ok r) <-> exists m', resolve_typed stack local kernel m = Ok m'.
Proof. exact typed_succeeds. Qed.
Print Assumptions C63_typed_succeeds.

(** A function is looked up by the name before the first "___", if there is
    one. *)
Theorem C63_flavour : forall b weak_of id n x, process_entry b weak_of id = Ok (n, x) -> essential n (lookup_name n x).
Proof. exact collected_essential. Qed.
Print Assumptions C63_flavour.

(** A program that calls kfunc [f] under the flavoured name [f___v2] and reads
    the variable [v]; the kernel has both. *)
Definition ks_local : btf := {| b_hdr := b_hdr btf_new; b_strings := 0 :: txt "f___v2" ++ 0 :: txt "v" ++ [0];
  b_types := [TUnknown; new_int 0 4 1 0; new_func_proto [(0, 1)] 1; new_func 1 2 2; new_var 8 1 2] |}.
Definition ks_kernel : btf := {| b_hdr := b_hdr ks_local; b_strings := 0 :: txt "g" ++ 0 :: txt "f" ++ 0 :: txt "v" ++ [0];
  b_types := [TUnknown; new_int 0 4 1 0; new_func_proto [(0, 1)] 1; new_func 1 2 2; new_func 3 2 2; new_var 5 1 2] |}.
Definition ks_typed : xmap := [(txt "f___v2", new_desc (txt "f___v2") 3 false (Some 2)); (txt "v", new_desc (txt "v") 4 false (Some 1))].
Example C63_example :
  process_entry ks_local (fun _ => Some false) 3 = Ok (nth 0 ks_typed ([], new_desc [] 0 false None)) /\
  process_entry ks_local (fun _ => Some false) 4 = Ok (nth 1 ks_typed ([], new_desc [] 0 false None)) /\
  match resolve_externs 4 ks_local (Some ks_kernel) [] ks_typed with
  | Ok m' => map (fun kx => xd_kernel_id (snd kx)) m' = [Some 4; Some 5]
  | Err _ => False
  end /\
  resolve_externs 4 ks_local None [] ks_typed = Err KTypedNeedsKernelBtf /\
  resolve_externs 4 ks_local (Some ks_local) [] ks_typed = Err (KFunctionNotFound (txt "f")).
Proof. vm_compute. repeat split. Qed.
Example C63_example_hyps : NoDup (map fst ks_typed) /\ Forall fresh ks_typed.
Proof.
  split; [constructor; [intros [X|[]]; discriminate X|constructor; [intros []|constructor]]|].
  constructor; [exists 3, false, (Some 2); reflexivity|constructor; [exists 4, false, (Some 1); reflexivity|constructor]].
Qed.
