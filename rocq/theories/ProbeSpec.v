(** What C44 and C54 mean, for [ProbeModel]. *)
From Coq Require Import String.
From Verif Require Import Base Text TextParse TextSplit LogModel UProbeModel ProbeModel.
Local Open Scope Z_scope.

(** Descriptors are handed out in order: those in use were handed out
    before. *)
Definition fresh (w : world) : Prop := Forall (fun p => pf_fd p < w_next w) (w_perf w) /\ Forall (fun l => bl_fd l < w_next w) (w_links w).

(** Nothing is attached that was not before, and nothing less. *)
Definition same_attached (w w' : world) : Prop := w_perf w' = w_perf w /\ w_links w' = w_links w.

(** The points are attached in order: one link each with its cookie, or one
    enabled perf event each with the program. *)
Definition attached_points (points : list (Z * option Z)) (w w' : world) : Prop :=
  (w_perf w' = w_perf w /\ exists new, w_links w' = w_links w ++ new /\ Forall2 (fun p l => bl_point l = fst p /\ bl_cookie l = snd p) points new) \/
  (w_links w' = w_links w /\ exists new, w_perf w' = w_perf w ++ new /\
     Forall2 (fun p f => pf_point f = fst p /\ snd p = None /\ pf_prog f = true /\ pf_on f = true) points new).

(** A line of the events file: no slash before the name, no newline. *)
Definition event_ok (v : event) : Prop := ~ In 47 (ev_head v) /\ ~ In 10 (ev_head v) /\ ~ In 10 (ev_name v) /\ ~ In 10 (ev_rest v).
(** A name as aya makes them: neither blanks nor newlines. *)
Definition plain (s : list Z) : Prop := Forall (fun c => is_aws c = false) s.

(** How often a name was created or removed. *)
Definition creations (name : list Z) (l : list command) : nat := length (filter (fun c => match c with Created n => str_eqb n name | _ => false end) l).
Definition removals (name : list Z) (l : list command) : nat := length (filter (fun c => match c with Removed n => str_eqb n name | _ => false end) l).
(** The commands written since. *)
Definition since (w w' : world) (cs : list command) : Prop := w_log w' = w_log w ++ cs.
(** What is attached for names to be in order: process id and counter are
    machine numbers, the target has no blanks, the kernel's events are lines,
    and no event has a name the process will use. *)
Definition ready (e : env) (points : list (Z * option Z)) (w : world) : Prop :=
  0 <= e_pid e < 2 ^ 32 /\ 0 <= w_index w /\ w_index w + Z.of_nat (length points) <= 2 ^ 64 /\ plain (e_target e) /\ Forall event_ok (w_events w) /\
  Forall (fun p => 0 <= fst p < 2 ^ 64) points /\
  (forall p i, w_index w <= i < 2 ^ 64 -> 0 <= p < 2 ^ 64 -> ~ In (alias (e_pid e) (e_return e) (e_target e) p i) (map ev_name (w_events w))).
(** The tracefs events are as before and each name created since was created
    once and removed once. *)
Definition cleaned (w w' : world) : Prop :=
  w_events w' = w_events w /\ exists cs, since w w' cs /\ forall n, removals n cs = creations n cs /\ (creations n cs <= 1)%nat.
