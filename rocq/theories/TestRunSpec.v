(** What running a program with test data should do. *)
From Coq Require Import String.
From Verif Require Import Base ProgModel TestRunModel.
Import ListNotations.
Local Open Scope Z_scope.

(** Addresses and lengths of slices: an address is not null, a slice does not
    wrap around. *)
Definition is_slice (b : buf) : Prop := 0 < b_ptr b < 2 ^ 64 /\ 0 <= b_len b /\ b_ptr b + b_len b <= 2 ^ 64.
Definition given (P : buf -> Prop) (b : option buf) : Prop := match b with Some b => P b | None => True end.
Definition slices (o : options) : Prop :=
  given is_slice (o_data_in o) /\ given is_slice (o_data_out o) /\ given is_slice (o_ctx_in o) /\ given is_slice (o_ctx_out o).
Definition is_u32 (x : Z) : Prop := 0 <= x < 2 ^ 32.
Definition numbers (fd : Z) (o : options) : Prop := is_u32 fd /\ is_u32 (o_repeat o) /\ is_u32 (ra_flags (o_attrs o)) /\ is_u32 (ra_batch (o_attrs o)).
(** Lengths that fit the request. *)
Definition short (b : buf) : Prop := b_len b < 2 ^ 32.
Definition all_short (o : options) : Prop := given short (o_data_in o) /\ given short (o_data_out o) /\ given short (o_ctx_in o) /\ given short (o_ctx_out o).
Definition nonempty (b : buf) : Prop := 0 < b_len b.
Definition within (b : buf) (x : Z) : Prop := b_ptr b <= x < b_ptr b + b_len b.
Definition in_some (b : option buf) (x : Z) : Prop := match b with Some b => within b x | None => False end.

(** [struct { /* anonymous struct used by BPF_PROG_TEST_RUN command */ }] of
    the kernel's uapi/linux/bpf.h with the offset and size of each field. *)
Record seen := { s_fd : Z; s_retval : Z; s_data_size_in : Z; s_data_size_out : Z; s_data_in : Z; s_data_out : Z; s_repeat : Z; s_duration : Z;
  s_ctx_size_in : Z; s_ctx_size_out : Z; s_ctx_in : Z; s_ctx_out : Z; s_flags : Z; s_cpu : Z; s_batch : Z }.
Definition seen_in (a : list Z) : seen :=
  {| s_fd := u_at 0 4 a; s_retval := u_at 4 4 a; s_data_size_in := u_at 8 4 a; s_data_size_out := u_at 12 4 a; s_data_in := u_at 16 8 a; s_data_out := u_at 24 8 a;
     s_repeat := u_at 32 4 a; s_duration := u_at 36 4 a; s_ctx_size_in := u_at 40 4 a; s_ctx_size_out := u_at 44 4 a; s_ctx_in := u_at 48 8 a; s_ctx_out := u_at 56 8 a;
     s_flags := u_at 64 4 a; s_cpu := u_at 68 4 a; s_batch := u_at 72 4 a |}.
(** The kernel refuses requests with anything behind the fields it knows. *)
Definition clean (a : list Z) : Prop := Forall (eq 0) (skipn 76 a).
Definition ptr (b : option buf) : Z := match b with Some b => b_ptr b | None => 0 end.
(** A length as the request can say it. *)
Definition len (b : option buf) : Z := match b with Some b => b_len b mod 2 ^ 32 | None => 0 end.

(** What the program is run with. *)
Definition input (m : mem) (b : option buf) : list Z := match b with Some b => load m (b_ptr b) (Z.to_nat (b_len b)) | None => [] end.
Definition input_ctx (m : mem) (b : option buf) : option (list Z) := match b with Some b => Some (load m (b_ptr b) (Z.to_nat (b_len b))) | None => None end.
Definition runs (p : behaviour) (o : options) (m : mem) : res Z ran :=
  p (input m (o_data_in o)) (input_ctx m (o_ctx_in o)) (o_repeat o) (ra_flags (o_attrs o)) 0 (ra_batch (o_attrs o)).
Definition ran_ok (r : ran) : Prop := is_u32 (rn_ret r) /\ is_u32 (rn_time r) /\ is_u32 (Z.of_nat (length (rn_packet r))) /\ is_u32 (Z.of_nat (length (rn_ctx r))).
(** The kernel's results are 32 bit numbers. *)
Definition run_lengths (p : behaviour) : Prop := forall d c n f u b r, p d c n f u b = Ok r -> ran_ok r.
Definition room_for (l : list Z) (b : buf) : Prop := Z.of_nat (length l) <= b_len b.
Definition disjoint (a b : option buf) : Prop := forall x, in_some a x -> in_some b x -> False.
(** The buffer starts with [l] and is otherwise as before. *)
Definition holds (l : list Z) (m m' : mem) (b : buf) : Prop :=
  load m' (b_ptr b) (length l) = l /\ forall x, b_ptr b + Z.of_nat (length l) <= x < b_ptr b + b_len b -> m' x = m x.

(** The attributes a caller can make: [new] and then [xdp_live_frames] any
    number of times. *)
Inductive made : run_attrs -> Prop :=
| made_new : made new_attrs
| made_live n a : made a -> is_u32 n -> made (xdp_live_frames n a).

(** The program types whose operations in the kernel have a [test_run] that
    takes a packet, only a context, and nothing: net/core/filter.c,
    kernel/trace/bpf_trace.c, net/core/flow_dissector.c. *)
Definition kernel_has (t : Z) (h : how) : Prop :=
  match h with
  | Packet => In t [1; 3; 6; 8; 22]
  | RawTp => t = 17
  | Tracing => t = 26
  end.
(** The arguments a program finds in its context. *)
Definition arguments (ctx : list Z) : list Z := map (fun n => le_dec (slice (8 * n) 8 ctx)) (seq 0 12).
(** The program types (and for tracing the attach type BPF_TRACE_FEXIT) that
    [TestRun] is implemented for, aya/src/programs/mod.rs:1150-1181. *)
Definition offered (t : Z) (at_ : option Z) : Prop := In t [1; 3; 6; 8; 17; 22] \/ (t = 26 /\ at_ = Some 25).
