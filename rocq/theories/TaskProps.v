(** C117: the commands of xtask reach every architecture. *)
From Coq Require Import String.
From Verif Require Import Base Text BuildModel TaskModel TaskSpec TaskProofs.
Open Scope Z_scope.

(** Every architecture is generated for, once; names are read and shown alike. *)
Theorem C117_supported : (forall a, In a supported) /\ NoDup supported.
Proof. exact (conj supported_all supported_once). Qed.
Print Assumptions C117_supported.
Theorem C117_parse : forall s a, parse_arch s = Some a <-> exists r c, called a s r c.
Proof. exact parse_called. Qed.
Print Assumptions C117_parse.
Theorem C117_show : forall a, exists r c, called a (show_arch a) r c.
Proof. exact show_called. Qed.
Print Assumptions C117_show.
(** The headers are searched for where the cross compilers of Ubuntu put them,
    unless an option says otherwise. *)
Theorem C117_headers : forall a n r c, called a n r c ->
  root_of n default_roots (sysroot a default_roots) /\
  In (n, sysroot a default_roots)
    [(txt "aarch64", txt "/usr/aarch64-linux-gnu/include"); (txt "armv7", txt "/usr/arm-linux-gnueabi/include");
     (txt "loongarch64", txt "/usr/loongarch64-linux-gnu/include"); (txt "mips", txt "/usr/mips-linux-gnu/include");
     (txt "mips64", txt "/usr/mips64-linux-gnuabi64/include"); (txt "powerpc64", txt "/usr/powerpc64le-linux-gnu/include");
     (txt "riscv64", txt "/usr/riscv64-linux-gnu/include"); (txt "s390x", txt "/usr/s390x-linux-gnu/include");
     (txt "x86_64", txt "/usr/include/x86_64-linux-gnu")].
Proof. exact roots_default. Qed.
Print Assumptions C117_headers.

(** Generating succeeds exactly if every step does. *)
Theorem C117_succeeds : forall W o c, snd (codegen W o c) = true <-> works W o c.
Proof. exact codegen_ok. Qed.
Print Assumptions C117_succeeds.
(** Every file written, also before a failure, holds the bindings of the
    architecture it is named after, made with its target and its headers. *)
Theorem C117_right : forall W o c f t, In (f, t) (fst (codegen W o c)) -> made W o c f t.
Proof. exact codegen_sound. Qed.
Print Assumptions C117_right.
(** After success every such file is written. *)
Theorem C117_complete : forall W o c f t, snd (codegen W o c) = true -> made W o c f t -> In (f, t) (fst (codegen W o c)).
Proof. exact codegen_all. Qed.
Print Assumptions C117_complete.
(** The repository has files for exactly these architectures. *)
Theorem C117_committed : forall n, In n committed_names <-> exists a r c, called a n r c.
Proof. exact names_committed. Qed.
Print Assumptions C117_committed.

(** aya-obj uses the file of the architecture it is built for, and is built for
    no other; aya-ebpf-bindings likewise. *)
Theorem C117_user_file : forall a n r c, called a n r c ->
  exists m, user_module r = Some m /\ txt "aya-obj/src/generated/" ++ m ++ txt ".rs" = user_file n.
Proof. exact user_used. Qed.
Print Assumptions C117_user_file.
Theorem C117_user_only : forall r m, user_module r = Some m -> exists a n c, called a n r c.
Proof. exact user_only. Qed.
Print Assumptions C117_user_only.
Theorem C117_bpf_dir : forall a n r c, called a n r c -> bindings_dir r = Some n.
Proof. exact bpf_used. Qed.
Print Assumptions C117_bpf_dir.

(** Linting passes exactly if every command exits with zero, and stops at the
    first that does not. *)
Theorem C117_lint : forall run args, snd (lint run args) = true <-> Forall (succeeds run) (lint_plan args).
Proof. exact (fun run args => exec_all_ok run (lint_plan args)). Qed.
Print Assumptions C117_lint.
Theorem C117_lint_stops : forall run args, exists rest, lint_plan args = fst (lint run args) ++ rest /\
  (snd (lint run args) = false -> exists ds c, fst (lint run args) = ds ++ [c] /\ Forall (succeeds run) ds /\ ~ succeeds run c).
Proof. exact (fun run args => exec_all_started run (lint_plan args)). Qed.
Print Assumptions C117_lint_stops.
(** The host is linted with the arguments given. *)
Theorem C117_lint_host : forall args, exists x y, In x (lint_plan args) /\ In y (lint_plan args) /\
  lints_host args x /\ tests_host args y.
Proof. exact host_covers. Qed.
Print Assumptions C117_lint_host.
(** The packages for BPF but one are linted for every architecture and both byte
    orders, warnings denied, and their documentation is tested. *)
Theorem C117_lint_covers_partial : forall args a n r c p t, called a n r c -> In p bpf_members -> p <> txt "aya-ebpf-cty" ->
  In t [txt "bpfeb-unknown-none"; txt "bpfel-unknown-none"] ->
  exists x, In x (lint_plan args) /\ lints x p r t.
Proof. exact lint_covers. Qed.
Print Assumptions C117_lint_covers_partial.
Theorem C117_doc_covers_partial : forall args a n r c p, called a n r c -> In p bpf_members -> p <> txt "aya-ebpf-cty" ->
  exists x, In x (lint_plan args) /\ doc_tests x p r.
Proof. exact doc_covers. Qed.
Print Assumptions C117_doc_covers_partial.
(** aya-ebpf-cty, which has code for each architecture, is linted for none. *)
Theorem C117_lint_covers_refuted : In (txt "aya-ebpf-cty") bpf_members /\
  forall x a t, In x (lint_plan []) -> ~ lints x (txt "aya-ebpf-cty") a t.
Proof. split; [vm_compute; tauto|exact cty_missed]. Qed.
Print Assumptions C117_lint_covers_refuted.

(** Every package documented is linked where rustdoc puts it, nothing else is. *)
Theorem C117_documented : forall p, In p site_packages <-> exists d, In (p, d) doc_packages.
Proof. exact documented. Qed.
Print Assumptions C117_documented.
Theorem C117_linked : forall p d, In (p, d) doc_packages ->
  has_sub [txt "--package"; p] doc_args /\
  exists c, crate_name p c /\
    In (txt "<li><a href=" ++ [34] ++ c ++ txt "/index.html" ++ [34] ++ txt ">Aya " ++ d ++ txt "</a></li>" ++ [10]) doc_links.
Proof. exact docs_linked. Qed.
Print Assumptions C117_linked.
Theorem C117_links : forall l, In l doc_links -> exists p d c, In (p, d) doc_packages /\ crate_name p c /\
  l = txt "<li><a href=" ++ [34] ++ c ++ txt "/index.html" ++ [34] ++ txt ">Aya " ++ d ++ txt "</a></li>" ++ [10].
Proof. exact docs_only. Qed.
Print Assumptions C117_links.

(** A command is reached only with libbpf at the recorded commit or after an
    update that worked; the update runs exactly if it is not. *)
Theorem C117_reached : forall status update, snd (prepare status update) = true <->
  exists out, status = Some (0, out) /\ (current out \/ update = Some 0).
Proof. exact prepare_reached. Qed.
Print Assumptions C117_reached.
Theorem C117_updated : forall status update, fst (prepare status update) = true <->
  exists out, status = Some (0, out) /\ ~ current out.
Proof. exact prepare_updates. Qed.
Print Assumptions C117_updated.

(** A world in which everything works, and one without headers for s390x. *)
Definition ex_world (f : job -> bool) : world :=
  {| w_make := true; w_bindgen := fun j => if f j then Some (txt "code") else None;
     w_split := fun t => (t, txt "fn"); w_dir := fun _ => true; w_write := fun _ => true |}.
Example C117_ex_works : works (ex_world (fun _ => true)) default_roots None.
Proof. apply codegen_ok. vm_compute. reflexivity. Qed.
Example C117_ex_count : List.length (fst (codegen (ex_world (fun _ => true)) default_roots None)) = 28%nat.
Proof. vm_compute. reflexivity. Qed.
Example C117_ex_stops :
  let W := ex_world (fun j => match j with User t _ => if str_dec t (target S390X) then false else true | _ => true end) in
  snd (codegen W default_roots None) = false /\ List.length (fst (codegen W default_roots None)) = 8%nat.
Proof. vm_compute. split; reflexivity. Qed.
Example C117_ex_lint : List.length (lint_plan []) = 29%nat /\ List.length (fst (lint (fun _ => Some 1) [])) = 1%nat.
Proof. vm_compute. split; reflexivity. Qed.
Example C117_ex_prepare : prepare (Some (0, txt "-abc xtask/libbpf")) (Some 0) = (true, true) /\
  prepare (Some (0, txt " abc xtask/libbpf")) None = (false, true) /\ prepare (Some (0, txt "+abc")) (Some 1) = (true, false).
Proof. vm_compute. repeat split; reflexivity. Qed.
