(** What a query should do. *)
From Verif Require Import Base QueryModel.
Local Open Scope Z_scope.

(** The programs at a hook in order. *)
Definition at_hook (h : hook) : list Z := map en_id (hk_progs h).
(** The programs attached without a link are attached once each. *)
Definition once_each (h : hook) : Prop := NoDup (map en_id (filter (fun e => negb (en_link e)) (hk_progs h))).
(** Those put there by a BPF link. *)
Definition linked (h : hook) : list entry := filter en_link (hk_progs h).
