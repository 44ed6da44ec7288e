(** Queries for attached programs (C83). *)
From Verif Require Import Base QueryModel QuerySpec QueryProofs.
Local Open Scope Z_scope.

(** A hook that does not change between the calls is reported as it is. *)
Theorem C83_stable : forall h r2, r2 = Sees h -> query (Sees h) r2 = Ok (hk_rev h, at_hook h).
Proof. exact query_stable. Qed.
Print Assumptions C83_stable.
(** Up to 64 programs one call does. *)
Theorem C83_fits : forall h r2, (length (at_hook h) <= 64)%nat -> query (Sees h) r2 = Ok (hk_rev h, at_hook h).
Proof. exact query_fits. Qed.
Print Assumptions C83_fits.
(** With more the result is what the second call sees, or the error if even
    more were attached meanwhile. *)
Theorem C83_grows : forall h1 h2, (64 < length (at_hook h1))%nat ->
  query (Sees h1) (Sees h2) = if (length (at_hook h2) <=? length (at_hook h1))%nat then Ok (hk_rev h2, at_hook h2) else Err ENOSPC.
Proof. exact query_grows. Qed.
Print Assumptions C83_grows.
Theorem C83_error : forall r e r2, r = Fails e -> e <> ENOSPC -> query r r2 = Err e.
Proof. exact query_error. Qed.
Print Assumptions C83_error.
(** The kernel writes no more than it is told there is room for. *)
Theorem C83_memory : forall r room, (length (an_write (kernel_query r room)) <= room)%nat.
Proof. exact write_fits. Qed.
Print Assumptions C83_memory.
Theorem C83_tcx : forall h get l, mapM get (at_hook h) = Ok l -> query_tcx (Sees h) (Sees h) get = Ok (hk_rev h, l).
Proof. exact tcx_stable. Qed.
Print Assumptions C83_tcx.
(** Lirc devices: the links are those of the programs attached, and neither
    asking nor dropping the answer changes anything. *)
Theorem C83_lirc : forall h get,
  ((forall id, In id (at_hook h) -> exists x, get id = Ok x) -> lirc_query h get = (Ok (at_hook h), h)) /\ snd (lirc_query h get) = h /\ look false (lirc_query h get) = h.
Proof. intros h get. split; [exact (links_stable false h get)|exact (lirc_unchanged h get)]. Qed.
Print Assumptions C83_lirc.
(** Device controllers: dropping the answer to [CgroupDevice::query] detaches
    every program that was attached without a BPF link. *)
Theorem C83_device_refuted : forall h get, once_each h -> (forall id, In id (at_hook h) -> exists x, get id = Ok x) ->
  hk_progs (look true (device_query h get)) = linked h.
Proof. exact device_detaches. Qed.
Print Assumptions C83_device_refuted.
(** Even a query that fails detaches: here the second program cannot be
    opened, and the first is gone. *)
Definition someone : hook := {| hk_progs := [{| en_id := 7; en_link := false |}; {| en_id := 9; en_link := false |}]; hk_rev := 1 |}.
Theorem C83_device_failure_refuted : device_query someone (fun id => if id =? 7 then Ok 100 else Err 2) =
  (Err 2, {| hk_progs := [{| en_id := 9; en_link := false |}]; hk_rev := 1 |}).
Proof. reflexivity. Qed.
Print Assumptions C83_device_failure_refuted.

Definition many (n : nat) : hook := {| hk_progs := map (fun i => {| en_id := Z.of_nat i; en_link := true |}) (seq 1 n); hk_rev := 5 |}.
Example query_example :
  query (Sees (many 70)) (Sees (many 66)) = Ok (5, at_hook (many 66)) /\ query (Sees (many 65)) (Sees (many 66)) = Err ENOSPC /\
  at_hook someone = [7; 9] /\ once_each someone /\ hk_progs (look true (device_query someone Ok)) = [].
Proof. repeat split; try (vm_compute; reflexivity). unfold once_each. cbn. repeat constructor; cbn; intuition lia. Qed.
