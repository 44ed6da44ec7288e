(** Information about programs and maps (C85). *)
From Coq Require Import String.
From Verif Require Import Base Text TextParse LogModel LayoutModel LayoutDecls InfoModel InfoSpec InfoProofs.
Import ListNotations.
Local Open Scope Z_scope.

(** Every getter reports the kernel's field, or that there is none if the
    kernel is too old to have it. *)
Theorem C85_program : forall k, whole k -> let i := info_of P k in
  id i = or_zero (k_field k 4 4) /\ size_jitted i = or_zero (k_field k 16 4) /\ size_translated i = some_positive (k_field k 20 4) /\
  btf_id i = some_positive (k_field k 128 4) /\ run_time i = or_zero (k_field k 192 8) /\ run_count i = or_zero (k_field k 200 8) /\
  verified_instruction_count i = some_positive (k_field k 216 4) /\
  created_by_uid i = match some_positive (k_field k 40 8) with Some _ => Some (or_zero (k_field k 48 4)) | None => None end /\
  (forall boot, loaded_at boot i = option_map (Z.add boot) (some_positive (k_field k 40 8))) /\
  (or_zero (k_field k 0 4) < 33 -> program_type i = or_zero (k_field k 0 4)) /\ (33 <= or_zero (k_field k 0 4) -> program_type i = 33).
Proof. exact prog_fields. Qed.
Print Assumptions C85_program.
Theorem C85_map : forall k, whole_map k -> let i := info_of M k in
  map_type i = or_zero (k_field k 0 4) /\ map_id i = or_zero (k_field k 4 4) /\ map_key_size i = or_zero (k_field k 8 4) /\
  map_value_size i = or_zero (k_field k 12 4) /\ map_max_entries i = or_zero (k_field k 16 4) /\ map_flags i = or_zero (k_field k 20 4).
Proof. exact map_fields. Qed.
Print Assumptions C85_map.
(** The tag reads as the kernel shows it. *)
Theorem C85_tag : forall k t, whole k -> k_bytes k 8 8 = Some t -> Forall (fun b => 0 <= b < 256) t -> hex_fixed 16 (tag (info_of P k)) = tag_text t.
Proof. exact tag_shown. Qed.
Print Assumptions C85_tag.
Theorem C85_name : forall k n, whole k -> k_bytes k 64 16 = Some (stored_name n) -> good_name n ->
  prog_name (info_of P k) = n /\ (n <> [] -> forall named, prog_name_as_str named (info_of P k) = Some n) /\
  (n = [] -> forall named, prog_name_as_str named (info_of P k) = if named then Some [] else None).
Proof. exact prog_name_exact. Qed.
Print Assumptions C85_name.
Theorem C85_name_missing : forall k, whole k -> k_bytes k 64 16 = None -> prog_name (info_of P k) = [] /\ prog_name_as_str false (info_of P k) = None.
Proof. exact prog_name_missing. Qed.
Print Assumptions C85_name_missing.
Theorem C85_map_name : forall k n, whole_map k -> k_bytes k 24 16 = Some (stored_name n) -> good_name n -> map_name (info_of M k) = n.
Proof. exact map_name_exact. Qed.
Print Assumptions C85_map_name.
(** The time of loading is late by at most the time between the readings of
    the two clocks: [epoch] is when the machine booted, [t1] and [t2] the
    time since then at which they are read. *)
Theorem C85_loaded_at : forall k load t1 t2 epoch, whole k -> k_field k 40 8 = Some load -> 0 < load -> t1 <= t2 ->
  exists at_, loaded_at (boot_time t1 (epoch + t2)) (info_of P k) = Some at_ /\ epoch + load <= at_ <= epoch + load + (t2 - t1).
Proof. exact loaded_close. Qed.
Print Assumptions C85_loaded_at.
(** The maps of a program are those it had when the information was taken,
    in every call of a process in which the probe works; on kernels without
    the field there are none. *)
Theorem C85_map_ids_partial : forall cache calls, cache <> Some false ->
  Forall (fun '(k, maps, _) => whole k /\ k_field k 52 4 = Some (Z.of_nat (length maps))) calls ->
  map_ids_calls cache (map (fun '(k, maps, more) => (Some true, info_of P k, Ok (maps ++ more))) calls) = map (fun '(_, maps, _) => Ok (Some maps)) calls.
Proof. exact map_ids_new. Qed.
Print Assumptions C85_map_ids_partial.
(** A request that fails is reported. *)
Theorem C85_map_ids_fails : forall cache k n e, cache <> Some false -> whole k -> k_field k 52 4 = Some n ->
  map_ids_calls cache [(Some true, info_of P k, Err e)] = [Err e].
Proof. exact map_ids_fails. Qed.
Print Assumptions C85_map_ids_fails.
Theorem C85_map_ids_missing : forall cache calls, cache <> Some true -> Forall (fun '(k, _) => whole k /\ k_field k 52 4 = None) calls ->
  map_ids_calls cache (map (fun '(k, reply) => (Some false, info_of P k, reply)) calls) = map (fun _ => Ok None) calls.
Proof. exact map_ids_missing. Qed.
Print Assumptions C85_map_ids_missing.
(** One failed probe, and no program of the process has maps any more. *)
Theorem C85_map_ids_refuted : forall k reply later, whole k -> k_field k 52 4 = Some 0 ->
  map_ids_calls None ((None, info_of P k, reply) :: later) = map (fun _ => Ok None) ((None, info_of P k, reply) :: later).
Proof. exact map_ids_lost. Qed.
Print Assumptions C85_map_ids_refuted.
Theorem C85_gpl_partial : forall cache calls, cache <> Some false -> Forall (fun '(k, w) => whole k /\ k_field k 84 4 = Some w) calls ->
  gpl_calls cache (map (fun '(k, _) => (Some true, info_of P k)) calls) = map (fun '(_, w) => Some (Z.odd w)) calls.
Proof. exact gpl_new. Qed.
Print Assumptions C85_gpl_partial.
Theorem C85_gpl_missing : forall cache calls, cache <> Some true -> Forall (fun k => whole k /\ k_field k 84 4 = None) calls ->
  gpl_calls cache (map (fun k => (Some false, info_of P k)) calls) = map (fun _ => None) calls.
Proof. exact gpl_missing. Qed.
Print Assumptions C85_gpl_missing.
Theorem C85_gpl_refuted : forall i later, gpl_bit i = false -> gpl_calls None ((None, i) :: later) = map (fun _ => None) ((None, i) :: later).
Proof. exact gpl_lost. Qed.
Print Assumptions C85_gpl_refuted.
(** Locked memory is read from the file the kernel shows. *)
Theorem C85_memory : forall f, fd_numbers f -> program_pages f -> memory_locked (fdinfo_file f) = Some (fs_memlock f).
Proof. exact memlock_fits. Qed.
Print Assumptions C85_memory.
(** More than 4 GiB would panic. *)
Theorem C85_memory_exact : forall f, fd_numbers f -> memory_locked (fdinfo_file f) = if fs_memlock f <? 2 ^ 32 then Some (fs_memlock f) else None.
Proof. exact memlock_read. Qed.
Print Assumptions C85_memory_exact.

(** A kernel that has every field, and one that ends with [xlated_prog_insns]. *)
Definition new_kernel : list Z := [6; 0; 0; 0; 42; 0; 0; 0; 1; 35; 69; 103; 137; 171; 205; 239] ++ repeat 0 4 ++ [16; 0; 0; 0] ++ repeat 0 16 ++ [9; 0; 0; 0; 0; 0; 0; 0; 5; 0; 0; 0; 2; 0; 0; 0]
  ++ repeat 0 8 ++ stored_name (txt "pass") ++ repeat 0 4 ++ [1; 0; 0; 0] ++ repeat 0 152.
Definition old_kernel : list Z := [6; 0; 0; 0; 42; 0; 0; 0] ++ repeat 1 8 ++ repeat 0 24.
Example info_example :
  whole new_kernel /\ whole old_kernel /\ k_field new_kernel 52 4 = Some 2 /\ k_field old_kernel 52 4 = None /\
  id (info_of P new_kernel) = 42 /\ tag (info_of P new_kernel) = 81985529216486895 /\ created_by_uid (info_of P new_kernel) = Some 5 /\
  created_by_uid (info_of P old_kernel) = None /\ prog_name (info_of P new_kernel) = txt "pass" /\
  map_ids None None (info_of P new_kernel) (Ok [7; 8; 9]) = (Ok (Some [7; 8]), Some true) /\
  map_ids_calls None [(None, info_of P old_kernel, Ok []); (Some true, info_of P new_kernel, Ok [7; 8])] = [Ok None; Ok None] /\
  gpl_compatible None None (info_of P new_kernel) = (Some true, Some true) /\ length new_kernel = 240%nat /\ length old_kernel = 40%nat.
Proof. split; [apply whole_check; vm_compute; reflexivity|]. split; [apply whole_check; vm_compute; reflexivity|]. repeat (split; [vm_compute; reflexivity|]). vm_compute; reflexivity. Qed.
Example fdinfo_example : memory_locked (txt "pos:" ++ [9] ++ txt "0" ++ [10] ++ txt "memlock:" ++ [9] ++ txt "4096" ++ [10]) = Some 4096 /\ memory_locked (txt "memlock: 7") = None.
Proof. split; vm_compute; reflexivity. Qed.
