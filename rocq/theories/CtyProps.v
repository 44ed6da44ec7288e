(** C118: the C types are those of C. *)
From Coq Require Import String.
From Verif Require Import Base CtyModel CtySpec CtyProofs.
Import ListNotations.
Local Open Scope string_scope.
Local Open Scope list_scope.

(** On Linux every alias is defined once and stands for the type C has under
    that name. *)
Theorem C118_linux_partial : forall a w s, In (a, w, s) linux_archs -> exists l, aliases (on_linux a w) = Some l /\ NoDup (map fst l) /\
  right_integers w l /\ (forall c, In ("c_char", c) l <-> c = CInt s 8) /\ (forall c, In ("c_float", c) l <-> c = CFloat 32) /\
  (forall c, In ("c_double", c) l <-> c = CFloat 64).
Proof. exact linux_right. Qed.
Print Assumptions C118_linux_partial.
(** So it is in programs, for kernels of all architectures; the sign of char
    there is the subject of C104. *)
Theorem C118_programs : forall a, In a kernels -> exists l, aliases (in_kernel a) = Some l /\ NoDup (map fst l) /\ right_integers 64 l /\
  exists s, forall c, In ("c_char", c) l <-> c = CInt s 8.
Proof. exact kernels_right. Qed.
Print Assumptions C118_programs.
(** A program for an architecture that is not known has no char, rather than a
    wrong one. *)
Theorem C118_unknown : forall t l c, t_arch t = "bpf" -> (forall a, t_bpf_arch t = Some a -> ~ In a kernels) -> aliases t = Some l -> ~ In ("c_char", c) l.
Proof. exact no_char. Qed.
Print Assumptions C118_unknown.
(** On every target: no name has two meanings, no module is there twice, and
    the unsigned type of a pair is as wide as the signed one. *)
Theorem C118_once : forall t l, aliases t = Some l -> NoDup (map fst l) /\ unambiguous l.
Proof. exact aliases_once. Qed.
Print Assumptions C118_once.
Theorem C118_modules : forall t, (length (ads t) <= 1)%nat /\ length (ods t) = 1%nat.
Proof. exact one_module. Qed.
Print Assumptions C118_modules.
Theorem C118_pairs : forall t l n m s b, aliases t = Some l -> In (n, m) pairs -> In (n, CInt s b) l -> s = true /\ In (m, CInt false b) l.
Proof. exact pair_of. Qed.
Print Assumptions C118_pairs.

(** Apple's char on AArch64 is signed, the alias is not. *)
Theorem C118_apple_refuted : exists l, aliases {| t_arch := "aarch64"; t_bpf_arch := None; t_os := "macos"; t_width := 64 |} = Some l /\
  In ("c_char", CInt false 8) l /\ ~ In ("c_char", CInt true 8) l.
Proof.
  eexists. split; [vm_compute; reflexivity|]. split; [cbn; auto|]. intros H. cbn in H. repeat (destruct H as [H|H]; [discriminate H|]). exact H.
Qed.
Print Assumptions C118_apple_refuted.
(** With pointers of 32 bits Redox has a long of 32 bits, the alias 64. *)
Theorem C118_redox_refuted : exists l, aliases {| t_arch := "x86"; t_bpf_arch := None; t_os := "redox"; t_width := 32 |} = Some l /\
  In ("c_long", CInt true 64) l /\ ~ right_integers 32 l.
Proof.
  eexists. split; [vm_compute; reflexivity|]. split; [cbn; auto 10|]. intros H. specialize (H "c_long" true 32%nat ltac:(cbn; auto 20) (CInt true 64)).
  assert (X : CInt true 64 = CInt true 32) by (apply H; cbn; auto 10). discriminate X.
Qed.
Print Assumptions C118_redox_refuted.

Example C118_ex : In ("x86_64", 64%nat, true) linux_archs /\ In "x86_64" kernels /\ ~ In "sparc64" kernels /\ In ("c_long", "c_ulong") pairs.
Proof. repeat split; try (cbn; tauto). intros H. cbn in H. repeat (destruct H as [H|H]; [discriminate H|]). exact H. Qed.
