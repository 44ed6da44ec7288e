(** C91: a program sees the arguments and the return value of the code it
    traces. *)
From Coq Require Import String.
From Verif Require Import Base LayoutModel ArgModel ArgSpec ArgProofs.
Import ListNotations.
Local Open Scope Z_scope.

(** On 64 bit machines, for every integer type that fits a register. *)
Theorem C91_arg_partial : forall a big rf ctx n r t v,
  wide a -> saved a big rf ctx -> regs_ok a rf -> nth_error (abi_args a) n = Some r ->
  fits_register t -> carries t (rf r) v -> arg a big ctx n t = Ok v.
Proof. exact arg_correct. Qed.
Print Assumptions C91_arg_partial.

Theorem C91_arg_missing_partial : forall a big ctx n t,
  wide a -> nth_error (abi_args a) n = None -> arg a big ctx n t = Err NoSuchArgument.
Proof. exact arg_missing. Qed.
Print Assumptions C91_arg_missing_partial.

Theorem C91_ret_partial : forall a big rf ctx t v,
  wide a -> saved a big rf ctx -> regs_ok a rf -> fits_register t -> carries t (rf (abi_ret a)) v -> ret a big ctx t = Ok v.
Proof. exact ret_correct. Qed.
Print Assumptions C91_ret_partial.

(** Programs whose context is an array of words: fentry, fexit, LSM hooks and
    both kinds of raw tracepoints. *)
Theorem C91_words : forall big vs tail n r t v,
  nth_error vs n = Some r -> 0 <= r < 2 ^ 64 -> fits_register t -> carries t r v ->
  btf_arg big (words_of big 8 vs ++ tail) n t = Ok v /\ raw_tracepoint_arg big (words_of big 8 vs ++ tail) n t = Ok v.
Proof. exact words_read. Qed.
Print Assumptions C91_words.

Theorem C91_fexit : forall err stored t v,
  (err = 0 -> 0 <= stored < 2 ^ 64 -> fits_register t -> carries t stored v -> fexit_ret err stored t = Ok v) /\
  (- 2 ^ 31 <= err < 0 -> fexit_ret err stored t = Err (Helper err)).
Proof. exact fexit_correct. Qed.
Print Assumptions C91_fexit.

(** On 32 bit arm and mips the second argument is another register's: the
    program takes the kernel's registers to have 64 bits. *)
Theorem C91_narrow_refuted : forall a big, a = Arm \/ a = Mips -> exists rf ctx n r t v w,
  saved a big rf ctx /\ nth_error (abi_args a) n = Some r /\ fits_register t /\ carries t (rf r) v /\ arg a big ctx n t = Ok w /\ w <> v.
Proof. exact narrow_wrong. Qed.
Print Assumptions C91_narrow_refuted.

(** What is right there on arm. *)
Theorem C91_arm_first_partial : forall rf ctx t v,
  saved Arm false rf ctx -> regs_ok Arm rf -> (let 'AInt _ bits := t in 1 <= bits <= 32) -> carries t (rf ("r"%string, 0%nat)) v ->
  arg Arm false ctx 0 t = Ok v /\ ret Arm false ctx t = Ok v.
Proof. exact arm_first. Qed.
Print Assumptions C91_arm_first_partial.

(** A negative number asked for as [i128] comes out positive. *)
Theorem C91_i128_refuted : exists a big rf ctx n r v w,
  wide a /\ saved a big rf ctx /\ nth_error (abi_args a) n = Some r /\ in_type (AInt true 128) v /\ rf r = u64 v /\
  arg a big ctx n (AInt true 128) = Ok w /\ w <> v.
Proof. exact wide_type_wrong. Qed.
Print Assumptions C91_i128_refuted.

(** The hypotheses can be met. *)
Example regs_sample : regs_ok X86_64 (fun _ => 7).
Proof. intros r. cbn. lia. Qed.
Example arg_sample : saved S390x true sample_regs (sample_ctx S390x true) /\ arg S390x true (sample_ctx S390x true) 4 (AInt true 32) = Ok 6.
Proof. split; [apply sample_saved|]. vm_compute. reflexivity. Qed.
Example carries_sample : carries (AInt true 32) (2 ^ 32 - 5) (-5) /\ fits_register (AInt true 32).
Proof. split; [|cbn; lia]. split; [cbn; lia|]. vm_compute. reflexivity. Qed.
