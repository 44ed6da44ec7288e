(** Claims about maps used by programs and by user space. *)
From Verif Require Import Base Text MapModel MapSpec TypedModel TypedSpec TypedProofs TypedProofs2 TypedProofs3 UseModel UseSpec UseProofs UseProofs2 UseProofs3.
Import ListNotations.
Local Open Scope Z_scope.

(** * C93: a map used by programs and by user space is one map *)

(** Whatever order the calls come in, from programs on any CPU and from user
    space, a hash map behaves as one finite map; if it has a value for each CPU,
    programs see the one of theirs. *)
Theorem C93_hash : forall f cpus h l, hash_handle h -> Forall (side_ok cpus h (hd_k h) keyed) l ->
  fst (turns (turn (khash cpus (hd_shape h)) (fun cpu => hash_helpers cpus cpu (hd_shape h)) f cpus h) l []) =
  fst (turns (hash_turn (zeroes cpus h) (h_entries (hd_shape h))) l []).
Proof. exact hash_both. Qed.
Print Assumptions C93_hash.

(** An array is one array. *)
Theorem C93_array : forall f cpus h l, array_handle h -> Forall (side_ok cpus h 4 indexed) l ->
  fst (turns (turn (karray cpus (hd_shape h)) (fun cpu => array_helpers cpu (hd_shape h)) f cpus h) l
        (repeat (repeat 0 (Z.to_nat (copied cpus (hd_shape h)))) (Z.to_nat (h_entries (hd_shape h))))) =
  fst (turns array_turn l (repeat (zeroes cpus h) (Z.to_nat (h_entries (hd_shape h))))).
Proof. exact array_both. Qed.
Print Assumptions C93_array.

(** A queue is first in, first out, a stack last in, first out, whoever pushes
    and pops. *)
Theorem C93_queue : forall f cpus h l s, queue_handle false h -> Forall (side_ok cpus h 0 pushing) l ->
  fst (turns (turn (kqueue false (hd_shape h)) (fun _ => queue_helpers false (hd_shape h)) f cpus h) l s) =
  fst (turns (queue_turn false (h_entries (hd_shape h))) l s).
Proof. exact (queue_both false). Qed.
Print Assumptions C93_queue.
Theorem C93_stack : forall f cpus h l s, queue_handle true h -> Forall (side_ok cpus h 0 pushing) l ->
  fst (turns (turn (kqueue true (hd_shape h)) (fun _ => queue_helpers true (hd_shape h)) f cpus h) l s) =
  fst (turns (queue_turn true (h_entries (hd_shape h))) l s).
Proof. exact (queue_both true). Qed.
Print Assumptions C93_stack.

(** Both sides find in a Bloom filter what either side added, and get the same
    answer for everything else. *)
Theorem C93_bloom : forall extra f cpus h cs cpu b, bloom_handle h -> Forall (side_ok cpus h 0 adding) cs -> Z.of_nat (length b) = hd_v h ->
  let t := turn (kbloom extra (hd_shape h)) (fun _ => bloom_helpers extra (hd_shape h)) f cpus h in
  let s := snd (turns t cs []) in
  let mine := fst (t (Program cpu (PContains b)) s) in
  let user := fst (t (User (OContains (WData b) 0)) s) in
  (Exists (added_by b) cs -> mine = RProgram POk /\ user = RUser (Ok RUnit)) /\
  (mine = RProgram POk /\ user = RUser (Ok RUnit) \/ mine = RProgram (PErr (-2)) /\ user = RUser (Err EElementNotFound)) /\
  ((forall l v, extra l v = false) -> ~ Exists (added_by b) cs -> mine = RProgram (PErr (-2)) /\ user = RUser (Err EElementNotFound)).
Proof. exact bloom_both. Qed.
Print Assumptions C93_bloom.

(** A program's lookup in a trie finds the longest prefix. *)
Theorem C93_trie : forall (f : features) (cpus : nat) h rs n a, trie_handle h -> Forall (route_ok h) rs -> key_ok h (ULpm n a) -> n <= 8 * hd_k h ->
  (exists r, longest rs n a r /\ prog (trie_helpers (hd_shape h)) (PGet (lpm_key n a)) (map node rs) = (PSome (r_val r), map node rs)) \/
  ((forall r, In r rs -> ~ covers r n a) /\ prog (trie_helpers (hd_shape h)) (PGet (lpm_key n a)) (map node rs) = (PNone, map node rs)).
Proof. exact trie_prog_lookup. Qed.
Print Assumptions C93_trie.
(** A program's changes to a trie are those user space would make. *)
Theorem C93_trie_changes : forall f cpus h n a v fl l, trie_handle h ->
  let H := trie_helpers (hd_shape h) in
  let user o := call (ktrie (hd_shape h)) f cpus h o l in
  prog H (PInsert (lpm_key n a) v fl) l = (as_program (fst (user (OSet (ULpm n a) (WData v) fl))), snd (user (OSet (ULpm n a) (WData v) fl))) /\
  prog H (PRemove (lpm_key n a)) l = (as_program (fst (user (ORemove (ULpm n a)))), snd (user (ORemove (ULpm n a)))).
Proof. exact trie_same_calls. Qed.
Print Assumptions C93_trie_changes.

(** What user space put into a device or CPU map is what programs find: the
    interface also where the kernel knows no programs in entries, the program
    where it does. *)
Theorem C93_devices : forall f cpus h progs bad ops i, xdp_handle f h -> (forall fd id, progs fd = Some id -> 0 < id < 2 ^ 32) ->
  Forall (fun o => op_ok cpus h o /\ fds_above_0 o) ops ->
  let empty {A : Type} := repeat (@None A) (Z.to_nat (h_entries (hd_shape h))) in
  let r := kdev_lookup (hd_shape h) i (snd (calls (kxdp progs bad (hd_shape h)) f cpus h ops empty)) in
  let x := nth (Z.to_nat i) (after (xdp_step (xdp_supported f h) progs bad) ops empty) None in
  (xdp_supported f h = true -> dev_get r = Ok x) /\ dev_get_ifindex r = Ok (option_map fst x) /\ present r = present x.
Proof. exact dev_both. Qed.
Print Assumptions C93_devices.

(** With flags the kernel knows, redirecting to an entry succeeds, and to a
    missing one fails with the action asked for. *)
Theorem C93_redirect_partial : forall known entry flags, 0 <= flags -> Z.ldiff flags (Z.lor 3 known) = 0 -> Z.testbit flags 3 = false ->
  try_redirect (kredirect known entry flags) = if entry then Ok 4 else Err (flags mod 4).
Proof. exact redirect_spec. Qed.
Print Assumptions C93_redirect_partial.
Theorem C93_broadcast : forall known entry flags, Z.ldiff flags (Z.lor 3 known) = 0 -> Z.testbit flags 3 = true ->
  try_redirect (kredirect known entry flags) = Ok 4.
Proof. exact redirect_broadcast. Qed.
Print Assumptions C93_broadcast.
(** With others it always fails, as aborted. *)
Theorem C93_redirect_unknown : forall known entry flags, Z.ldiff flags (Z.lor 3 known) <> 0 -> try_redirect (kredirect known entry flags) = Err 0.
Proof. exact redirect_unknown. Qed.
Print Assumptions C93_redirect_unknown.
(** The documentation says that a failure gives the lowest two bits of the
    flags. *)
Theorem C93_redirect_refuted : exists known entry flags e, try_redirect (kredirect known entry flags) = Err e /\ e <> flags mod 4.
Proof. exact redirect_not_flags. Qed.
Print Assumptions C93_redirect_refuted.

(** Events go to the buffer of this CPU or the index given, with as much of the
    packet as the flags say; for 2^20 bytes or more there is none, and nothing
    says so. *)
Theorem C93_perf : forall current index data flags, 0 <= flags < 2 ^ 32 -> 0 <= index < 2 ^ 32 - 1 ->
  let send r := koutput current (fst r) (snd r) in
  send (output data flags) = (if flags <? 2 ^ 20 then Some (current, flags, data) else None) /\
  send (output_at_index index data flags) = (if flags <? 2 ^ 20 then Some (index, flags, data) else None).
Proof. exact output_spec. Qed.
Print Assumptions C93_perf.

(** A socket found is assigned and given back once, also if assigning fails. *)
Theorem C93_sockets : forall found assign flags,
  let (calls, r) := redirect_sk_lookup found assign flags in
  match found with
  | None => calls = [] /\ r = Err (-2)
  | Some sk => refs sk 1 calls = 0 /\ calls = [SkAssign sk flags; SkRelease sk] /\
      (assign sk flags = 0 -> r = Ok tt) /\ (- 2 ^ 31 <= assign sk flags < 0 -> r = Err (assign sk flags))
  end.
Proof. exact sk_spec. Qed.
Print Assumptions C93_sockets.

(** The results of the remaining helpers are passed on. *)
Theorem C93_results : forall ret,
  (under_cgroup ret = if ret =? 1 then Ok true else if ret =? 0 then Ok false else Err ret) /\
  (0 <= ret -> get_stackid ret = Ok ret) /\ (- 2 ^ 31 <= ret < 0 -> get_stackid ret = Err ret) /\
  (select_reuseport ret = Ok tt <-> ret = 0) /\
  storage_get = (None, 0) /\ (forall v, storage_get_or_insert v = (v, 1)).
Proof. exact results_spec. Qed.
Print Assumptions C93_results.

Definition shape_of (ty k v n : Z) : shape :=
  {| PinModel.h_type := ty; PinModel.h_key := k; PinModel.h_value := v; PinModel.h_entries := n; PinModel.h_flags := 0 |}.
Definition handle_of (w : wrapper) (k v : Z) (sh : shape) : handle := {| hd_wrap := w; hd_k := k; hd_v := v; hd_shape := sh |}.
Definition new_kernel : features := {| f_cpumap := true; f_devmap := true |}.

(** A counter kept for each CPU: what two programs count is what user space
    reads, and the other way round. *)
Definition hits : handle := handle_of WPerCpuHashMap 1 2 (shape_of 5 1 2 2).
Definition some_turns : list side :=
  [Program 1 (PInsert [7] [1; 0] 0); User (OGet (UData [7]) 0); Program 0 (PGet [7]); Program 0 (PStore [7] [4; 4]); User (OGet (UData [7]) 0);
   User (OSet (UData [8]) (WPerCpu [[1; 1]; [2; 2]]) 0); Program 1 (PGet [8]); Program 0 (PInsert [9] [0; 0] 0); User (ORemove (UData [8])); Program 1 (PGet [8]);
   Program 1 (PRemove [8])].
Example C93_hash_some : hash_handle hits /\ Forall (side_ok 2 hits 1 keyed) some_turns /\
  fst (turns (turn (khash 2 (hd_shape hits)) (fun cpu => hash_helpers 2 cpu (hd_shape hits)) new_kernel 2 hits) some_turns []) =
  [RProgram POk; RUser (Ok (RPerCpu [[0; 0]; [1; 0]])); RProgram (PSome [0; 0]); RProgram POk; RUser (Ok (RPerCpu [[4; 4]; [1; 0]]));
   RUser (Ok RUnit); RProgram (PSome [2; 2]); RProgram (PErr (-7)); RUser (Ok RUnit); RProgram PNone; RProgram (PErr (-2))].
Proof. split; [repeat split; cbn in *; try lia; auto|]. split; [repeat constructor; cbn; auto; repeat constructor|vm_compute; reflexivity]. Qed.

Definition slots2 : handle := handle_of WArray 4 2 (shape_of 2 4 2 2).
Example C93_array_some : array_handle slots2 /\
  fst (turns (turn (karray 1 (hd_shape slots2)) (fun cpu => array_helpers cpu (hd_shape slots2)) new_kernel 1 slots2)
    [Program 0 (PGet [1; 0; 0; 0]); Program 0 (PStore [1; 0; 0; 0] [5; 6]); User (OGet (UIndex 1) 0); User (OSet (UIndex 0) (WData [9; 9]) 0); Program 0 (PGet [0; 0; 0; 0]);
     Program 0 (PGet [2; 0; 0; 0])] [[0; 0]; [0; 0]]) =
  [RProgram (PSome [0; 0]); RProgram POk; RUser (Ok (RData [5; 6])); RUser (Ok RUnit); RProgram (PSome [9; 9]); RProgram PNone].
Proof. split; [repeat split; cbn in *; try lia; auto|vm_compute; reflexivity]. Qed.

Example C93_queue_some : forall b : bool,
  let h := handle_of (if b then WStack else WQueue) 0 1 (shape_of (if b then 23 else 22) 0 1 2) in
  queue_handle b h /\
  fst (turns (turn (kqueue b (hd_shape h)) (fun _ => queue_helpers b (hd_shape h)) new_kernel 1 h)
    [Program 0 (PPush [1] 0); User (OPush (WData [2]) 0); Program 0 (PPush [3] 0); Program 0 (PPeek []); User (OPop 0); Program 0 PPop; Program 0 PPop] []) =
  [RProgram POk; RUser (Ok RUnit); RProgram (PErr (-7)); RProgram (PSome [if b then 2 else 1]); RUser (Ok (RData [if b then 2 else 1]));
   RProgram (PSome [if b then 1 else 2]); RProgram PNone].
Proof. intros []; (split; [repeat split|vm_compute; reflexivity]). Qed.

Definition paths : list route :=
  [{| r_len := 8; r_addr := [10; 0; 0; 0]; r_val := [1] |}; {| r_len := 16; r_addr := [10; 1; 0; 0]; r_val := [2] |}].
Definition table : handle := handle_of WLpmTrie 4 1 (shape_of 11 8 1 10).
Example C93_trie_some : trie_handle table /\ Forall (route_ok table) paths /\
  fst (prog (trie_helpers (hd_shape table)) (PGet (lpm_key 32 [10; 1; 2; 3])) (map node paths)) = PSome [2] /\
  fst (prog (trie_helpers (hd_shape table)) (PGet (lpm_key 32 [10; 2; 2; 3])) (map node paths)) = PSome [1] /\
  fst (prog (trie_helpers (hd_shape table)) (PGet (lpm_key 32 [11; 2; 2; 3])) (map node paths)) = PNone.
Proof. split; [repeat split; cbn in *; lia|]. split; [repeat constructor; cbn; lia|]. vm_compute. auto. Qed.

Definition devices : handle := handle_of WDevMap 0 0 (shape_of 14 4 8 2).
Example C93_devices_some : xdp_handle new_kernel devices /\
  let s := snd (calls (kxdp (fun fd => Some (fd + 100)) (fun _ => None) (hd_shape devices)) new_kernel 1 devices [OSet (UIndex 1) (WXdp 3 (Some 5)) 0] [None; None]) in
  dev_get (kdev_lookup (hd_shape devices) 1 s) = Ok (Some (3, Some 105)) /\ dev_get (kdev_lookup (hd_shape devices) 0 s) = Ok None /\
  try_redirect (kredirect 24 (present (kdev_lookup (hd_shape devices) 1 s)) 2) = Ok 4 /\
  try_redirect (kredirect 24 (present (kdev_lookup (hd_shape devices) 0 s)) 2) = Err 2.
Proof. split; [repeat split; cbn in *; try lia; auto|vm_compute; auto]. Qed.
(** Entries of 4 bytes hold no program to read. *)
Example C93_devices_old : dev_get (Some [3; 0; 0; 0]) = Err PastValue /\ dev_get_ifindex (Some [3; 0; 0; 0]) = Ok (Some 3). Proof. vm_compute. auto. Qed.
