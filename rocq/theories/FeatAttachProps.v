(** C98: the attach types of probes belong to the types of programs. *)
From Verif Require Import Base FeatModel FeatAttachSpec.
Import ListNotations.
Local Open Scope Z_scope.

Theorem C98_attach : forall t a, attach_type t = Some a -> belongs (prog_type t) a.
Proof.
  intros t a H. destruct t as [| | | | | | | | | | | | | | | | | | | | | | | | | | | | |[|] | | |]; try discriminate H; injection H as <-; cbn [prog_type];
    constructor; cbn [In]; auto 20.
Qed.
Print Assumptions C98_attach.
(** None is left out where the kernel demands one. *)
Theorem C98_attach_demanded : forall t, In (prog_type t) demanding -> attach_type t <> None.
Proof.
  intros t I. destruct t as [| | | | | | | | | | | | | | | | | | | | | | | | | | | | |[|] | | |]; try discriminate; exfalso; cbn in I;
    repeat (destruct I as [I|I]; [discriminate I|]); exact I.
Qed.
Print Assumptions C98_attach_demanded.
(** The two attach types of security modules are told apart. *)
Theorem C98_attach_lsm : attach_type (PLsm true) = Some 27 /\ attach_type (PLsm false) = Some 43.
Proof. split; reflexivity. Qed.
Print Assumptions C98_attach_lsm.
Example C98_attach_ex : belongs 16 7 /\ ~ belongs 16 4.
Proof. split; [constructor|]. intros H. inversion H. Qed.
