(** Properties C103 and C104: builds of eBPF programs by build scripts. *)
From Coq Require Import String.
From Verif Require Import Base Text TextSplit LogModel BuildModel BuildSpec BuildProofs BuildProofs2 BuildProofs3 BuildProofs4.
Local Open Scope Z_scope.

(** * C103 *)

Theorem C103_skipped M l t s v : m_env M (txt "AYA_BUILD_SKIP") = Some v -> skips v ->
  exists s', build_ebpf M l t s = (Ok tt, s') /\ s_runs s' = s_runs s /\ s_files s' = s_files s.
Proof. exact (skipped M l t s v). Qed.
Print Assumptions C103_skipped.

Theorem C103_set_up M l t s : not_skipped M -> (exists nightly out endian arch, set_up M t nightly out endian arch) \/
  (exists e s', build_ebpf M l t s = (Err e, s') /\ s_runs s' = s_runs s /\ s_files s' = s_files s /\
    (e = ENoOutDir /\ m_env M (txt "OUT_DIR") = None \/ e = ENoEndian /\ m_env M (txt "CARGO_CFG_TARGET_ENDIAN") = None \/
     (exists v, e = EEndian v /\ m_env M (txt "CARGO_CFG_TARGET_ENDIAN") = Some v /\ v <> txt "big" /\ v <> txt "little") \/
     e = ENoArch /\ m_env M (txt "CARGO_CFG_TARGET_ARCH") = None \/
     (exists a, e = EArchText /\ m_env M (txt "CARGO_CFG_TARGET_ARCH") = Some a /\ utf8 a = false) \/ e = ENoVersion)).
Proof. exact (set_up_or M l t s). Qed.
Print Assumptions C103_set_up.

Theorem C103_commands M l t s nightly out endian arch x s' : not_skipped M -> set_up M t nightly out endian arch -> build_ebpf M l t s = (x, s') ->
  exists done rest new, s_runs s' = s_runs s ++ new /\ l = done ++ rest /\ Forall (really_run M) new /\
    Forall2 (fun p y => right_command M t nightly out endian arch p (fst (fst y))) done new /\ (x = Ok tt -> rest = []).
Proof. exact (commands M l t s nightly out endian arch x s'). Qed.
Print Assumptions C103_commands.

Theorem C103_outcome M l t s nightly out endian arch x s' : not_skipped M -> set_up M t nightly out endian arch -> build_ebpf M l t s = (x, s') ->
  exists new, s_runs s' = s_runs s ++ new /\ outcome out x new (s_files s').
Proof. exact (outcome_ok M l t s nightly out endian arch x s'). Qed.
Print Assumptions C103_outcome.

Theorem C103_copied M l t s nightly out endian arch s' : not_skipped M -> set_up M t nightly out endian arch -> tidy M out -> build_ebpf M l t s = (Ok tt, s') ->
  exists new, s_runs s' = s_runs s ++ new /\
    (NoDup (map fst (all_reported new)) -> (forall n e, In (n, e) (all_reported new) -> name_ok n) ->
      (forall y n e, In y new -> In (n, e) (reported (snd (fst y))) -> s_files s' (out ++ 47 :: n) = snd y e /\ exists c, snd y e = Some (NFile c)) /\
      (forall q, q <> out ++ txt "/aya-build" -> ~ below (out ++ txt "/aya-build") q -> (forall n e, In (n, e) (all_reported new) -> q <> out ++ 47 :: n) -> s_files s' q = s_files s q)).
Proof. exact (copied M l t s nightly out endian arch s'). Qed.
Print Assumptions C103_copied.

Theorem C103_works M l t s nightly out endian arch : not_skipped M -> set_up M t nightly out endian arch -> tidy M out -> works M -> no_dirs out (s_files s) ->
  exists s', build_ebpf M l t s = (Ok tt, s').
Proof. exact (works_ok M l t s nightly out endian arch). Qed.
Print Assumptions C103_works.

Theorem C103_lines M l t s nightly out endian arch x s' : not_skipped M -> set_up M t nightly out endian arch -> build_ebpf M l t s = (x, s') ->
  exists ls, s_lines s' = s_lines s ++ ls /\ Forall (fun x => directive_of x <> DOther) ls /\ In (txt "AYA_BUILD_SKIP") (envs ls) /\
    (exists done rest, l = done ++ rest /\ changed ls = map p_root done /\ (x = Ok tt -> rest = [])) /\
    (x <> Err EJson -> m_rustup M <> None -> exists new, s_runs s' = s_runs s ++ new /\ warnings ls = flat_map (fun y => told (snd (fst y))) new).
Proof. exact (lines_ok M l t s nightly out endian arch x s'). Qed.
Print Assumptions C103_lines.

Theorem C103_one_line M l t s nightly out endian arch x s' : not_skipped M -> set_up M t nightly out endian arch -> lines_of_cargo M -> Forall (fun p => one_line (p_root p)) l ->
  Forall one_line (s_lines s) -> build_ebpf M l t s = (x, s') -> Forall one_line (s_lines s').
Proof. exact (ebpf_lines M l t s nightly out endian arch x s'). Qed.
Print Assumptions C103_one_line.

Theorem C103_same_name_refuted : exists M l t out s', not_skipped M /\ set_up M t true out (txt "little") (txt "riscv64gc") /\ tidy M out /\ works M /\ NoDup (map p_name l) /\
  build_ebpf M l t nothing = (Ok tt, s') /\ exists y n e, In y (s_runs s') /\ In (n, e) (reported (snd (fst y))) /\ s_files s' (out ++ 47 :: n) <> snd y e.
Proof. exact same_name_refuted. Qed.
Print Assumptions C103_same_name_refuted.

Theorem C103_aya_build_refuted : exists M l t out s', not_skipped M /\ set_up M t true out (txt "little") (txt "riscv64gc") /\ tidy M out /\
  (forall c f, r_spawned (fst (m_cargo M c f)) = true /\ r_success (fst (m_cargo M c f)) = true /\ ~ In MInvalid (r_messages (fst (m_cargo M c f))) /\
    forall n e, In (n, e) (reported (fst (m_cargo M c f))) -> name_ok n) /\ no_dirs out (s_files nothing) /\
  build_ebpf M l t nothing = (Err (ECopy (txt "/out/aya-build/target/first/prog") (txt "/out/aya-build")), s').
Proof. exact aya_build_refuted. Qed.
Print Assumptions C103_aya_build_refuted.

(** The assumptions hold of a machine. *)
Example C103_demo : let M := demo (txt "prog") in not_skipped M /\ set_up M Nightly true (txt "/out") (txt "little") (txt "riscv64gc") /\ tidy M (txt "/out") /\ works M /\
  lines_of_cargo M /\ no_dirs (txt "/out") (s_files nothing) /\
  exists s', build_ebpf M [pack (txt "first")] Nightly nothing = (Ok tt, s') /\ s_files s' (txt "/out/prog") = Some (NFile (txt "first")).
Proof.
  cbn zeta. split; [apply demo_not_skipped|]. split; [apply demo_set_up|]. split; [apply demo_tidy|].
  split; [apply demo_works; [vm_compute; intros I; repeat (destruct I as [I|I]; [discriminate I|]); exact I|discriminate]|]. split; [apply demo_lines|]. split; [discriminate|].
  eexists. split; [vm_compute; reflexivity|]. vm_compute. reflexivity.
Qed.
Example C103_feature : plain_feature (txt "a").
Proof. split; [discriminate|]. constructor; [split; discriminate|constructor]. Qed.

(** * C104 *)

Theorem C104_set E v : E (txt "CARGO_CFG_BPF_TARGET_ARCH") = Some v -> cfgs (fst (emit_cfg E)) = [] /\ snd (emit_cfg E) = Ok tt.
Proof. exact (emit_set E v). Qed.
Print Assumptions C104_set.

Theorem C104_user E h a : E (txt "CARGO_CFG_BPF_TARGET_ARCH") = None -> E (txt "HOST") = Some h -> utf8 h = true -> E (txt "AYA_BPF_TARGET_ARCH") = Some a -> utf8 a = true ->
  cfgs (fst (emit_cfg E)) = [the_cfg a] /\ snd (emit_cfg E) = Ok tt.
Proof. exact (emit_user E h a). Qed.
Print Assumptions C104_user.

Theorem C104_host E h a r b : E (txt "CARGO_CFG_BPF_TARGET_ARCH") = None -> E (txt "HOST") = Some h -> utf8 h = true -> E (txt "AYA_BPF_TARGET_ARCH") = None ->
  h = a \/ h = a ++ 45 :: r -> ~ In 45 a -> same_arch a b -> cfgs (fst (emit_cfg E)) = [the_cfg b] /\ snd (emit_cfg E) = Ok tt.
Proof. exact (emit_host E h a r b). Qed.
Print Assumptions C104_host.

Theorem C104_always E : envs (fst (emit_cfg E)) = [txt "CARGO_CFG_BPF_TARGET_ARCH"; txt "AYA_BPF_TARGET_ARCH"; txt "HOST"] /\
  match snd (emit_cfg E) with
  | Ok _ => exists c, checks (fst (emit_cfg E)) = [c] /\ quoted c = bpf_archs
  | Err _ => cfgs (fst (emit_cfg E)) = [] /\ E (txt "CARGO_CFG_BPF_TARGET_ARCH") = None /\
      (E (txt "HOST") = None \/ (exists h, E (txt "HOST") = Some h /\ utf8 h = false) \/ exists a, E (txt "AYA_BPF_TARGET_ARCH") = Some a /\ utf8 a = false)
  end.
Proof. exact (emit_always E). Qed.
Print Assumptions C104_always.

Theorem C104_known a : In a bpf_archs <-> (bindings_dir a <> None /\ regs_struct a <> None /\ c_char_signed a <> None).
Proof. exact (known_tables a). Qed.
Print Assumptions C104_known.

Theorem C104_bindings a d : In (a, d) arch_dirs <-> bindings_dir a = Some d.
Proof. exact (dirs_right a d). Qed.
Print Assumptions C104_bindings.

Theorem C104_registers a r : In (a, r) kernel_regs -> regs_struct a = Some r.
Proof. exact (regs_right a r). Qed.
Print Assumptions C104_registers.

Theorem C104_chars_partial a b : In (a, b) abi_char_signed -> a <> txt "mips" -> c_char_signed a = Some b.
Proof. exact (chars_right a b). Qed.
Print Assumptions C104_chars_partial.

Theorem C104_mips_refuted : exists b, In (txt "mips", b) abi_char_signed /\ c_char_signed (txt "mips") = Some (negb b).
Proof. exact mips_refuted. Qed.
Print Assumptions C104_mips_refuted.

Theorem C104_hosts_partial h a : In (h, a) rust_arch -> In h named_alike -> same_arch h a /\ In a bpf_archs.
Proof. exact (hosts_right h a). Qed.
Print Assumptions C104_hosts_partial.

Theorem C104_hosts_refuted : other_hosts <> [] /\ forall h a, In (h, a) other_hosts -> In a bpf_archs /\ exists b, same_arch h b /\ ~ In b bpf_archs.
Proof. exact hosts_refuted. Qed.
Print Assumptions C104_hosts_refuted.

Example C104_demo : cfgs (fst (emit_cfg (fun n => if str_eqb n (txt "HOST") then Some (txt "riscv64gc-unknown-linux-gnu") else None))) = [the_cfg (txt "riscv64")] /\
  cfgs (fst (emit_cfg (fun n => if str_eqb n (txt "HOST") then Some (txt "powerpc64le-unknown-linux-gnu") else None))) = [the_cfg (txt "powerpc64le")].
Proof. split; vm_compute; reflexivity. Qed.
