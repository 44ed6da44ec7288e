(** Properties C41, C42 and C68: per-CPU values, iterating maps, iterating
    kernel objects. *)
From Verif Require Import Base MapModel MapSpec MapProofs.
Local Open Scope Z_scope.

(** * C41 *)

(** A list with one value per CPU builds a buffer of one 8-byte aligned slot
    per CPU, from which the kernel takes each CPU's value. *)
Theorem C41_written : forall nr size values, try_from nr values = Ok values -> Forall (fun v => length v = size) values ->
  exists mem, build_kernel_mem nr size values = Ok mem /\ kernel_takes size nr mem = values /\
    length mem = (nr * Z.to_nat (slot_size (Z.of_nat size)))%nat.
Proof. exact build_taken. Qed.

(** What the kernel writes, whatever it leaves between the values, is read
    back in CPU order. *)
Theorem C41_read : forall size values pads, (0 < size)%nat -> length pads = length values ->
  Forall (fun v => length v = size) values ->
  Forall (fun p => Z.of_nat (length p) = slot_size (Z.of_nat size) - Z.of_nat size) pads ->
  from_kernel_mem size (kernel_gives values pads) = Ok values.
Proof. exact from_given. Qed.

Theorem C41_round_trip : forall nr size values, (0 < size)%nat -> try_from nr values = Ok values -> Forall (fun v => length v = size) values ->
  exists mem, build_kernel_mem nr size values = Ok mem /\ from_kernel_mem size mem = Ok values.
Proof. exact percpu_round. Qed.

(** Lists of any other length are rejected. *)
Theorem C41_length : forall nr values, (length values = nr -> try_from nr values = Ok values) /\ (length values <> nr -> try_from nr values = Err tt).
Proof. intros nr values. unfold try_from. destruct (Nat.eqb_spec (length values) nr); split; intros; (reflexivity || contradiction). Qed.

Print Assumptions C41_written. Print Assumptions C41_read. Print Assumptions C41_round_trip. Print Assumptions C41_length.

Example C41_example : build_kernel_mem 2 3 [[1; 2; 3]; [4; 5; 6]] = Ok [1; 2; 3; 0; 0; 0; 0; 0; 4; 5; 6; 0; 0; 0; 0; 0] /\
  from_kernel_mem 3 [1; 2; 3; 9; 9; 9; 9; 9; 4; 5; 6; 9; 9; 9; 9; 9] = Ok [[1; 2; 3]; [4; 5; 6]] /\
  try_from 2 [[1]] = Err tt /\ slot_size 8 = 8 /\ slot_size 9 = 16.
Proof. vm_compute. auto. Qed.

(** * C42 *)

(** The keys of an unchanged map come out exactly once each, in the kernel's
    order, followed by the end. *)
Theorem C42_keys : forall (K : Type) (eqb : K -> K -> bool), (forall a b, eqb a b = true <-> a = b) ->
  forall (l : list K) next, NoDup l -> (forall m k, (m <= length l)%nat -> next m k = Ok (next_of eqb l k)) ->
  poll (keys_next next) (length l + 1) keys_new =
    (map (fun k => Some (Ok k)) l ++ [None], {| ks_err := false; ks_key := None; ks_calls := length l + 1 |}).
Proof. exact (@keys_each). Qed.

(** The entries: each key that has a value by then, once, in order; missing
    ones are skipped; then the end. *)
Theorem C42_entries : forall (K V : Type) (eqb : K -> K -> bool), (forall a b, eqb a b = true <-> a = b) ->
  forall l, NoDup l -> forall next, (forall m k, next m k = Ok (next_of eqb l k)) -> forall (look : K -> got V) fuel, (length l < fuel)%nat ->
  iter_poll next look fuel (length (entries look l) + 1) keys_new = map (fun r => Some (Some r)) (entries look l) ++ [Some None].
Proof. exact (@entries_run). Qed.

(** Whatever the kernel does, each result is the outcome for the first key
    that is not missing, and only missing keys are passed over. *)
Theorem C42_skipped : forall (K V : Type) fuel next (get : nat -> K -> got V) st r st', iter_next fuel next get st = Some (r, st') ->
  exists s st1, skips next get st s /\
    match r with
    | None => keys_next next s = (None, st1) /\ st' = st1
    | Some (Ok (k, v)) => keys_next next s = (Some (Ok k), st1) /\ get (ks_calls st1) k = GFound v /\ st' = {| ks_err := ks_err st1; ks_key := ks_key st1; ks_calls := S (ks_calls st1) |}
    | Some (Err e) =>
        (keys_next next s = (Some (Err e), st1) /\ st' = st1) \/
        exists k, keys_next next s = (Some (Ok k), st1) /\ get (ks_calls st1) k = GFailed e /\ st' = {| ks_err := ks_err st1; ks_key := ks_key st1; ks_calls := S (ks_calls st1) |}
    end.
Proof. exact (@iter_next_spec). Qed.

(** A failure to get the next key is reported once and ends the iteration for
    good. *)
Theorem C42_error : forall (K : Type) next (st : keys K) e st' n,
  keys_next next st = (Some (Err e), st') -> poll (keys_next next) n st' = (repeat None n, st').
Proof. exact (@keys_error). Qed.

(** After the end the keys start over: the end is not kept. *)
Theorem C42_end_refuted : forall (K : Type) (eqb : K -> K -> bool), (forall a b, eqb a b = true <-> a = b) ->
  forall (l : list K) next, NoDup l -> (forall m k, next m k = Ok (next_of eqb l k)) ->
  fst (poll (keys_next next) (length l + 1 + (length l + 1)) keys_new) =
    (map (fun k => Some (Ok k)) l ++ [None]) ++ (map (fun k => Some (Ok k)) l ++ [None]).
Proof. exact (@keys_again). Qed.

(** A failure to look a value up does not end the iteration. *)
Theorem C42_value_error_refuted :
  iter_poll (fun _ => fun k => Ok (next_of Z.eqb [1; 2] k)) (fun k => if k =? 1 then GFailed 14 else GFound (10 * k)) 5 3 keys_new =
    [Some (Some (Err 14)); Some (Some (Ok (2, 20))); Some None].
Proof. vm_compute. reflexivity. Qed.

Print Assumptions C42_keys. Print Assumptions C42_entries. Print Assumptions C42_skipped. Print Assumptions C42_error. Print Assumptions C42_end_refuted. Print Assumptions C42_value_error_refuted.

Example C42_example :
  fst (poll (keys_next (fun _ k => Ok (next_of Z.eqb [7; 3; 9] k))) 4 keys_new) = [Some (Ok 7); Some (Ok 3); Some (Ok 9); None] /\
  fst (poll (keys_next (fun n k => if (n =? 1)%nat then Err 14 else Ok (next_of Z.eqb [7; 3; 9] k))) 4 keys_new) = [Some (Ok 7); Some (Err 14); None; None] /\
  iter_poll (fun _ k => Ok (next_of Z.eqb [7; 3; 9] k)) (fun k => if k =? 3 then GMissing else GFound (k + 1)) 9 3 keys_new =
    [Some (Some (Ok (7, 8))); Some (Some (Ok (9, 10))); Some None].
Proof. vm_compute. auto. Qed.

(** * C68 *)

(** Every object comes out once, in order of ids, then the end, for good. *)
Theorem C68_each : forall l next n, ascending 0 l -> (forall m id, next m id = Ok (next_id_of l id)) ->
  fst (poll (ids_next next) (length l + (1 + n)) ids_new) = map (fun k => Some (Ok k)) l ++ repeat None (1 + n).
Proof. exact ids_each. Qed.

(** An error is reported once and ends the iteration for good. *)
Theorem C68_error : forall next st e st' n, ids_next next st = (Some (Err e), st') -> poll (ids_next next) n st' = (repeat None n, st').
Proof. exact ids_error. Qed.

Print Assumptions C68_each. Print Assumptions C68_error.

Example C68_example : ascending 0 [2; 5; 6] /\
  fst (poll (ids_next (fun _ id => Ok (next_id_of [2; 5; 6] id))) 5 ids_new) = [Some (Ok 2); Some (Ok 5); Some (Ok 6); None; None] /\
  fst (poll (ids_next (fun n id => if (n =? 1)%nat then Err 1 else Ok (next_id_of [2; 5; 6] id))) 4 ids_new) = [Some (Ok 2); Some (Err 1); None; None].
Proof. split; [cbn; lia|]. vm_compute. auto. Qed.
