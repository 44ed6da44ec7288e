(** C90: the memory functions linked into every eBPF program behave as C's. *)
From Verif Require Import Base MemModel MemSpec MemProofs.
Local Open Scope Z_scope.

Theorem C90_memset : forall s c n m, object s n -> filled m (fst (memset s c n m)) s c n.
Proof. exact memset_filled. Qed.
Print Assumptions C90_memset.

Theorem C90_memcpy : forall dest src n m,
  object dest n -> object src n -> apart dest src n -> moved m (fst (memcpy dest src n m)) dest src n.
Proof. exact memcpy_moved. Qed.
Print Assumptions C90_memcpy.

(** However the buffers overlap. *)
Theorem C90_memmove : forall dest src n m, object dest n -> object src n -> moved m (fst (memmove dest src n m)) dest src n.
Proof. exact memmove_moved. Qed.
Print Assumptions C90_memmove.

Theorem C90_memset_touches : forall s c n m, object s n -> touches (snd (memset s c n m)) s None n.
Proof. exact memset_touches. Qed.
Print Assumptions C90_memset_touches.

Theorem C90_memcpy_touches : forall dest src n m,
  object dest n -> object src n -> touches (snd (memcpy dest src n m)) dest (Some src) n.
Proof. exact memcpy_touches. Qed.
Print Assumptions C90_memcpy_touches.

Theorem C90_memmove_touches : forall dest src n m,
  object dest n -> object src n -> touches (snd (memmove dest src n m)) dest (Some src) n.
Proof. exact memmove_touches. Qed.
Print Assumptions C90_memmove_touches.

(** The hypothesis of C90_memcpy, which C makes too, is needed. *)
Theorem C90_memcpy_apart_needed :
  exists dest src n m, object dest n /\ object src n /\ ~ moved m (fst (memcpy dest src n m)) dest src n.
Proof. exact memcpy_overlap. Qed.
Print Assumptions C90_memcpy_apart_needed.

Example objects_touch_the_end : object (2 ^ 64 - 4) 4 /\ object 0 4.
Proof. split; split; cbn; lia. Qed.
Example move_up : map (fst (memmove 2 0 4 (fun a => a))) [0; 1; 2; 3; 4; 5; 6] = [0; 1; 0; 1; 2; 3; 6].
Proof. vm_compute. reflexivity. Qed.
Example move_down : map (fst (memmove 0 2 4 (fun a => a))) [0; 1; 2; 3; 4; 5; 6] = [2; 3; 4; 5; 4; 5; 6].
Proof. vm_compute. reflexivity. Qed.
