(** C92: memory, packets and contexts are read and written as asked. *)
From Coq Require Import String.
From Verif Require Import Base HelpModel HelpSpec HelpProofs CtxModel CtxSpec CtxProofs.
Import ListNotations.
Local Open Scope Z_scope.

(** Values and buffers come from the memory named, whole or not at all. *)
Theorem C92_read : forall m s size src, 0 <= size < 2 ^ 32 ->
  probe_read (kernel_raw m) s size src =
  match bytes_at (seen m s src) src (Z.to_nat size) with Some l => Ok l | None => Err (Helper (-14)) end.
Proof. exact probe_read_spec. Qed.
Print Assumptions C92_read.

Theorem C92_read_buf : forall m s src dst, Z.of_nat (length dst) < 2 ^ 32 ->
  probe_read_buf (kernel_raw m) s src dst =
  match bytes_at (seen m s src) src (length dst) with
  | Some l => (Ok tt, l)
  | None => (Err (Helper (-14)), repeat 0 (length dst))
  end.
Proof. exact probe_read_buf_spec. Qed.
Print Assumptions C92_read_buf.

(** Strings come without their terminator, cut to what fits with it. *)
Theorem C92_string : forall m sp a s dest,
  string_at (seen m sp a) a s -> Z.of_nat (length dest) < 2 ^ 32 ->
  let '(r, dest') := probe_read_str_bytes (kernel_raw m) sp a dest in
  r = Ok (firstn (length dest - 1) s) /\ length dest' = length dest /\
  (length dest <> 0%nat -> firstn (length (firstn (length dest - 1) s) + 1) dest' = firstn (length dest - 1) s ++ [0]).
Proof. exact str_bytes_string. Qed.
Print Assumptions C92_string.

(** Nothing beyond the buffer's length is read. *)
Theorem C92_string_long : forall m sp a s dest,
  chars_of (seen m sp a) a s -> length s = length dest -> Z.of_nat (length dest) < 2 ^ 32 ->
  fst (probe_read_str_bytes (kernel_raw m) sp a dest) = Ok (firstn (length dest - 1) s).
Proof. exact str_bytes_long. Qed.
Print Assumptions C92_string_long.

Theorem C92_string_fault : forall m sp a s dest,
  chars_of (seen m sp a) a s -> seen m sp a (a + Z.of_nat (length s)) = None -> (length s < length dest)%nat ->
  Z.of_nat (length dest) < 2 ^ 32 ->
  probe_read_str_bytes (kernel_raw m) sp a dest = (Err (Helper (-1)), repeat 0 (length dest)) /\
  probe_read_str (kernel_raw m) sp a dest = (Err (Helper (-1)), repeat 0 (length dest)).
Proof. exact str_bytes_fault. Qed.
Print Assumptions C92_string_fault.

(** The older functions count the terminator, except for an empty string in
    user memory. *)
Theorem C92_string_count : forall m sp a s dest,
  string_at (seen m sp a) a s -> (0 < length dest)%nat -> Z.of_nat (length dest) < 2 ^ 32 ->
  exists n, fst (probe_read_str (kernel_raw m) sp a dest) = Ok n /\
    (n = Z.of_nat (length (firstn (length dest - 1) s)) + 1 \/ (n = 0 /\ s = [])).
Proof. exact str_count. Qed.
Print Assumptions C92_string_count.

Theorem C92_bounds : forall v lo up, check_bounds_signed v lo up = true <-> lo <= v <= up.
Proof. exact check_bounds_spec. Qed.
Print Assumptions C92_bounds.

Theorem C92_comm : forall comm, (length comm <= 15)%nat ->
  get_current_comm (kernel_comm comm) = Ok (comm ++ repeat 0 (16 - length comm)).
Proof. exact comm_spec. Qed.
Print Assumptions C92_comm.

Theorem C92_ids : forall low high, 0 <= low < 2 ^ 32 -> 0 <= high < 2 ^ 32 ->
  pid (task_word low high) = low /\ tgid (task_word low high) = high /\
  uid (task_word low high) = low /\ gid (task_word low high) = high.
Proof. exact ids_spec. Qed.
Print Assumptions C92_ids.

Theorem C92_adj_room : forall len, 0 <= len -> adj_room_encap_l2 len = (len mod 256) * 2 ^ 56.
Proof. exact adj_room_spec. Qed.
Print Assumptions C92_adj_room.

Theorem C92_printk_arg : forall x,
  (- 2 ^ 63 <= x < 2 ^ 63 -> i64 (printk_arg true x) = x /\ 0 <= printk_arg true x < 2 ^ 64) /\
  (0 <= x < 2 ^ 64 -> printk_arg false x = x).
Proof. exact printk_args_spec. Qed.
Print Assumptions C92_printk_arg.

Theorem C92_printk : forall fmt args, Z.of_nat (length fmt) < 2 ^ 32 -> (length args <= 12)%nat ->
  printed (printk fmt args) = Some (fmt, args).
Proof. exact printk_spec. Qed.
Print Assumptions C92_printk.

Theorem C92_printk_many : forall fmt args,
  (12 < length args)%nat -> Z.of_nat (length args) < 2 ^ 29 -> printed (printk fmt args) = None.
Proof. exact printk_many. Qed.
Print Assumptions C92_printk_many.

Theorem C92_strncmp : forall s1 s2, bytes_ok s1 = true -> bytes_ok s2 = true -> Z.of_nat (length s1) < 2 ^ 32 ->
  strncmp kernel_strncmp s1 s2 = dictionary (upto_nul s1) (firstn (length s1) (upto_nul s2)).
Proof. exact strncmp_spec. Qed.
Print Assumptions C92_strncmp.

(** Packets. *)
Theorem C92_load_partial : forall pkt offset size, packet_ok pkt -> 0 <= offset < 2 ^ 32 -> 0 <= size < 2 ^ 32 ->
  load (kernel_skb pkt) offset size =
  if offset + size <=? Z.of_nat (length pkt) then Ok (slice (Z.to_nat offset) (Z.to_nat size) pkt) else Err (Helper (-14)).
Proof. exact load_spec. Qed.
Print Assumptions C92_load_partial.

Theorem C92_load_bytes : forall pkt offset dst, packet_ok pkt -> 0 <= offset < 2 ^ 64 ->
  load_bytes (kernel_skb pkt) offset dst =
  if offset <=? Z.of_nat (length pkt) then
    let n := Nat.min (length dst) (length pkt - Z.to_nat offset) in
    (Ok (Z.of_nat n), slice (Z.to_nat offset) n pkt ++ skipn n dst)
  else (Err (Helper (-1)), dst).
Proof. exact load_bytes_spec. Qed.
Print Assumptions C92_load_bytes.

Theorem C92_store_partial : forall pkt offset v flags, packet_ok pkt -> 0 <= offset < 2 ^ 32 -> flags_known flags = true ->
  store (kernel_skb pkt) offset v flags =
  if offset + Z.of_nat (length v) <=? Z.of_nat (length pkt) then (Ok tt, splice (Z.to_nat offset) v pkt) else (Err (Helper (-14)), pkt).
Proof. exact store_spec. Qed.
Print Assumptions C92_store_partial.

Theorem C92_store_flags : forall pkt offset v flags,
  flags_known flags = false -> store (kernel_skb pkt) offset v flags = (Err (Helper (-22)), pkt).
Proof. exact store_bad_flags. Qed.
Print Assumptions C92_store_flags.

(** Offsets are cut to 32 bits: far behind the end of the packet is its start
    again. *)
Theorem C92_load_refuted : exists pkt offset size r,
  packet_ok pkt /\ 0 <= offset < 2 ^ 64 /\ Z.of_nat (length pkt) < offset /\ load (kernel_skb pkt) offset size = Ok r.
Proof. exact load_wraps. Qed.
Print Assumptions C92_load_refuted.

Theorem C92_store_refuted : exists pkt offset v flags pkt',
  packet_ok pkt /\ 0 <= offset < 2 ^ 64 /\ Z.of_nat (length pkt) < offset /\
  store (kernel_skb pkt) offset v flags = (Ok tt, pkt') /\ pkt' <> pkt.
Proof. exact store_wraps. Qed.
Print Assumptions C92_store_refuted.

(** Contexts: each accessor is at the field it is named after. *)
Theorem C92_fields : forall c m p, place c m = Some p <-> In (m, p) (kernel_place c).
Proof. exact place_iff. Qed.
Print Assumptions C92_fields.

Theorem C92_fields_read : forall c m o s ctx,
  In (m, (o, s)) (kernel_place c) -> context_size c <= Z.of_nat (length ctx) ->
  get c m ctx = Ok (slice (Z.to_nat o) (Z.to_nat s) ctx).
Proof. exact get_reads. Qed.
Print Assumptions C92_fields_read.

Theorem C92_fields_written : forall c m o s v ctx,
  In (m, (o, s)) (kernel_place c) -> context_size c <= Z.of_nat (length ctx) ->
  set c m v ctx = Ok (splice (Z.to_nat o) (le_enc (Z.to_nat s) v) ctx).
Proof. exact set_writes. Qed.
Print Assumptions C92_fields_written.

Theorem C92_sock_ops_arg : forall ctx n, 224 <= Z.of_nat (length ctx) ->
  sock_ops_arg ctx n = if (n <? 4)%nat then Ok (le_dec (slice (4 + 4 * n) 4 ctx)) else Err IndexPanic.
Proof. exact sock_ops_arg_reads. Qed.
Print Assumptions C92_sock_ops_arg.

Theorem C92_migrating_sk : forall ctx, 56 <= Z.of_nat (length ctx) ->
  migrating_sk ctx = Ok (let p := le_dec (slice 48 8 ctx) in if p =? 0 then None else Some p).
Proof. exact migrating_reads. Qed.
Print Assumptions C92_migrating_sk.

(** The hypotheses can be met. *)
Definition hi : Z -> option Z := fun a => if a =? 100 then Some 72 else if a =? 101 then Some 105 else if a =? 102 then Some 0 else None.
Definition sample : memory := {| user := hi; kern := fun _ => None; limit := 1000 |}.
Example string_sample : string_at (seen sample UserSpace 100) 100 [72; 105].
Proof.
  split; [|reflexivity]. intros i b N. destruct i as [|[|i]]; cbn in N.
  - injection N as <-. split; [reflexivity|lia].
  - injection N as <-. split; [reflexivity|lia].
  - destruct i; discriminate N.
Qed.
Example string_read : fst (probe_read_str_bytes (kernel_raw sample) UserSpace 100 [9; 9; 9; 9; 9]) = Ok [72; 105] /\
  fst (probe_read_str_bytes (kernel_raw sample) UserSpace 100 [9; 9]) = Ok [72] /\
  fst (probe_read_str_bytes (kernel_raw sample) KernelSpace 100 [9; 9]) = Err (Helper (-1)).
Proof. split; [|split]; vm_compute; reflexivity. Qed.
Example fault_sample : chars_of (seen sample UserSpace 103) 103 [] /\ seen sample UserSpace 103 (103 + Z.of_nat (@length Z [])) = None.
Proof. split; [intros [|i] b N; discriminate N|reflexivity]. Qed.
Example packet_sample : packet_ok [1; 2; 3] /\ load_bytes (kernel_skb [1; 2; 3]) 1 [8; 8; 8; 8] = (Ok 2, [2; 3; 8; 8]).
Proof. split; [unfold packet_ok, INT_MAX; cbn; lia|vm_compute; reflexivity]. Qed.
