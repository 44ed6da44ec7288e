(** C86. *)
From Coq Require Import String.
From Verif Require Import Base ProgModel TestRunModel TestRunSpec TestRunProofs TestRunProofs2.
Import ListNotations.
Local Open Scope Z_scope.

(** * C86: running programs with test data *)

(** The request says what the options say, and nothing else. *)
Theorem C86_request : forall fd o, numbers fd o -> slices o ->
  clean (request fd o) /\
  seen_in (request fd o) =
    {| s_fd := fd; s_retval := 0; s_data_size_in := len (o_data_in o); s_data_size_out := len (o_data_out o); s_data_in := ptr (o_data_in o); s_data_out := ptr (o_data_out o);
       s_repeat := o_repeat o; s_duration := 0; s_ctx_size_in := len (o_ctx_in o); s_ctx_size_out := len (o_ctx_out o); s_ctx_in := ptr (o_ctx_in o); s_ctx_out := ptr (o_ctx_out o);
       s_flags := ra_flags (o_attrs o); s_cpu := 0; s_batch := ra_batch (o_attrs o) |}.
Proof. intros fd o N S. exact (proj2 (request_seen fd o N S)). Qed.
Print Assumptions C86_request.

(** A run with room for what comes back gives what the program gave. *)
Theorem C86_done : forall p fd o m r, numbers fd o -> slices o -> all_short o -> given nonempty (o_data_out o) -> given nonempty (o_ctx_in o) -> given nonempty (o_ctx_out o) ->
  disjoint (o_data_out o) (o_ctx_out o) -> runs p o m = Ok r -> ran_ok r -> given (room_for (rn_packet r)) (o_data_out o) -> given (room_for (rn_ctx r)) (o_ctx_out o) ->
  exists m', test_run (kernel_run p) (Some fd) o m =
      (Ok {| t_ret := rn_ret r; t_time := rn_time r; t_data_size := Z.of_nat (length (rn_packet r)); t_ctx_size := match o_ctx_out o with Some _ => Z.of_nat (length (rn_ctx r)) | None => 0 end |}, m') /\
    given (holds (rn_packet r) m m') (o_data_out o) /\ given (holds (rn_ctx r) m m') (o_ctx_out o).
Proof. exact run_done. Qed.
Print Assumptions C86_done.

(** A buffer that is too small is an error; it has the start of the packet
    then. *)
Theorem C86_no_room : forall p fd o m r b, numbers fd o -> slices o -> all_short o -> given nonempty (o_ctx_in o) -> given nonempty (o_ctx_out o) ->
  runs p o m = Ok r -> ran_ok r -> o_data_out o = Some b -> 0 < b_len b < Z.of_nat (length (rn_packet r)) ->
  exists m', test_run (kernel_run p) (Some fd) o m = (Err (ESys ENOSPC), m') /\ load m' (b_ptr b) (Z.to_nat (b_len b)) = firstn (Z.to_nat (b_len b)) (rn_packet r).
Proof. exact run_no_room. Qed.
Print Assumptions C86_no_room.
Theorem C86_no_room_ctx : forall p fd o m r b, numbers fd o -> slices o -> all_short o -> given nonempty (o_data_out o) -> given nonempty (o_ctx_in o) ->
  runs p o m = Ok r -> ran_ok r -> given (room_for (rn_packet r)) (o_data_out o) -> o_ctx_out o = Some b -> 0 < b_len b < Z.of_nat (length (rn_ctx r)) ->
  exists m', test_run (kernel_run p) (Some fd) o m = (Err (ESys ENOSPC), m').
Proof. exact run_no_room_ctx. Qed.
Print Assumptions C86_no_room_ctx.

(** Errors of the kernel are reported and change nothing; programs that are
    not loaded are not run. *)
Theorem C86_fails : forall p fd o m e, numbers fd o -> slices o -> all_short o -> given nonempty (o_ctx_in o) -> given nonempty (o_ctx_out o) -> runs p o m = Err e ->
  test_run (kernel_run p) (Some fd) o m = (Err (ESys e), m).
Proof. exact run_fails. Qed.
Print Assumptions C86_fails.
Theorem C86_unloaded : forall k o a args cpu m, test_run k None o m = (Err ENotLoaded, m) /\ test_run_raw_tp k None a args cpu m = (Err ENotLoaded, m) /\ test_run_tracing k None m = (Err ENotLoaded, m).
Proof. repeat split. Qed.
Print Assumptions C86_unloaded.
(** An empty context, in or out, is an error, not the same as none. *)
Theorem C86_empty_ctx : forall p fd o m b, numbers fd o -> slices o -> o_ctx_in o = Some b \/ o_ctx_out o = Some b -> b_len b = 0 ->
  test_run (kernel_run p) (Some fd) o m = (Err (ESys EINVAL), m).
Proof. exact run_refused. Qed.
Print Assumptions C86_empty_ctx.

(** Only the buffers change, if the one for the packet is not empty. *)
Theorem C86_memory_partial : forall p fd o m r m', run_lengths p -> numbers fd o -> slices o -> given nonempty (o_data_out o) -> test_run (kernel_run p) (Some fd) o m = (r, m') ->
  forall x, m' x <> m x -> in_some (o_data_out o) x \/ in_some (o_ctx_out o) x.
Proof. exact run_memory. Qed.
Print Assumptions C86_memory_partial.
(** If it is empty, the kernel takes the length 0 for "no limit" and writes
    the packet to memory that was not handed out. *)
Theorem C86_memory_refuted : forall p fd o m r b, numbers fd o -> slices o -> all_short o -> given nonempty (o_ctx_in o) -> o_ctx_out o = None ->
  runs p o m = Ok r -> ran_ok r -> o_data_out o = Some b -> b_len b = 0 ->
  exists t m', test_run (kernel_run p) (Some fd) o m = (Ok t, m') /\ load m' (b_ptr b) (length (rn_packet r)) = rn_packet r /\ forall x, ~ within b x.
Proof. exact run_empty. Qed.
Print Assumptions C86_memory_refuted.

(** Raw tracepoints are given the arguments, on the CPU asked for. *)
Theorem C86_raw_tp : forall largest online p fd a args cpu m, is_u32 fd -> 0 < a -> a + 96 <= 2 ^ 64 -> length args = 12%nat -> Forall (fun x => 0 <= x < 2 ^ 64) args ->
  match cpu with Some c => is_u32 c | None => True end -> largest <= 96 -> (forall c u, is_u32 (p c u)) ->
  exists ctx, arguments ctx = args /\ length ctx = 96%nat /\
    test_run_raw_tp (kernel_raw_tp largest online p) (Some fd) a args cpu m =
      (match cpu with Some c => if online c then Ok (p ctx cpu) else Err (ESys ENXIO) | None => Ok (p ctx None) end, store m a ctx).
Proof. exact raw_tp_done. Qed.
Print Assumptions C86_raw_tp.
Theorem C86_raw_tp_request : forall fd a args cpu, is_u32 fd -> 0 < a < 2 ^ 64 -> length args = 12%nat -> match cpu with Some c => is_u32 c | None => True end ->
  clean (request_raw_tp fd a args cpu) /\ s_fd (seen_in (request_raw_tp fd a args cpu)) = fd.
Proof. intros fd a args cpu F A L C. destruct (request_raw_seen fd a args cpu F A L C) as (_ & H & E). split; [exact H|]. now rewrite E. Qed.
Print Assumptions C86_raw_tp_request.
(** Tracing programs are run with nothing. *)
Theorem C86_tracing : forall err fd m, is_u32 fd -> u_at 0 4 (request_tracing fd) = fd /\ clean (request_tracing fd) /\
  test_run_tracing (kernel_tracing err) (Some fd) m = (match err with Some e => Err (ESys e) | None => Ok tt end, m).
Proof. exact tracing_done. Qed.
Print Assumptions C86_tracing.

(** A batch size comes with the flag it needs, and with no other. *)
Theorem C86_attrs : forall a, made a -> (ra_flags a = 0 /\ ra_batch a = 0) \/ (ra_flags a = 2 /\ is_u32 (ra_batch a)).
Proof. exact attrs_made. Qed.
Print Assumptions C86_attrs.
Theorem C86_live : forall a n, made a -> ra_flags (xdp_live_frames n a) = 2 /\ ra_batch (xdp_live_frames n a) = n.
Proof. intros a n M. split; [|reflexivity]. cbn. destruct (attrs_made a M) as [[-> _]|[-> _]]; reflexivity. Qed.
Print Assumptions C86_live.
(** The kinds that can be run are of types the kernel can run that way. *)
Theorem C86_kinds : forall k h, implements k = Some h -> kernel_has (fst (kind_type k)) h.
Proof. exact implemented. Qed.
Print Assumptions C86_kinds.
(** Without further options a program runs once, on no data and no context of
    the caller's, with no flag. *)
Theorem C86_default : forall p m, runs p new_options m = p [] None 1 0 0 0.
Proof. intros p m. reflexivity. Qed.
Print Assumptions C86_default.

(** A program that returns 2 and puts a byte before the packet. *)
Definition grows : behaviour := fun d _ _ _ _ _ => Ok {| rn_ret := 2; rn_time := 50; rn_packet := 9 :: d; rn_ctx := [] |}.
Definition some_mem : mem := fun x => x mod 7.
Definition some_options (n : Z) : options :=
  {| o_data_in := Some {| b_ptr := 1000; b_len := 14 |}; o_data_out := Some {| b_ptr := 2000; b_len := n |}; o_ctx_in := None; o_ctx_out := None; o_repeat := 1; o_attrs := new_attrs |}.
Example C86_holds : numbers 3 (some_options 15) /\ slices (some_options 15) /\ all_short (some_options 15) /\ given nonempty (o_data_out (some_options 15)) /\
  fst (test_run (kernel_run grows) (Some 3) (some_options 15) some_mem) = Ok {| t_ret := 2; t_time := 50; t_data_size := 15; t_ctx_size := 0 |} /\
  load (snd (test_run (kernel_run grows) (Some 3) (some_options 15) some_mem)) 2000 3 = [9; 1000 mod 7; 1001 mod 7].
Proof.
  split; [unfold numbers, is_u32; cbn; lia|]. split; [unfold slices, is_slice; cbn; lia|]. split; [unfold all_short, short; cbn; lia|]. split; [unfold nonempty; cbn; lia|].
  split; vm_compute; reflexivity.
Qed.
Example C86_empty : fst (test_run (kernel_run grows) (Some 3) (some_options 0) some_mem) = Ok {| t_ret := 2; t_time := 50; t_data_size := 15; t_ctx_size := 0 |} /\
  snd (test_run (kernel_run grows) (Some 3) (some_options 0) some_mem) 2000 = 9 /\ some_mem 2000 = 5.
Proof. vm_compute. repeat split. Qed.
Example C86_small : fst (test_run (kernel_run grows) (Some 3) (some_options 8) some_mem) = Err (ESys 28).
Proof. vm_compute. reflexivity. Qed.

Theorem C86_offered : forall k, implements k <> None <-> offered (fst (kind_type k)) (snd (kind_type k)).
Proof. exact implemented_all. Qed.
Print Assumptions C86_offered.
