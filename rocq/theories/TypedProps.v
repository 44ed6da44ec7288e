(** C73, C74 and C75. *)
From Verif Require Import Base Text MapModel MapSpec TypedModel TypedSpec TypedProofs TypedProofs2 TypedProofs3.
From Verif Require UtilModel PinModel PinSpec PinProps.
Local Open Scope Z_scope.

Definition a_shape (ty k v n : Z) : shape :=
  {| PinModel.h_type := ty; PinModel.h_key := k; PinModel.h_value := v; PinModel.h_entries := n; PinModel.h_flags := 0 |}.
Definition view (w : wrapper) (k v : Z) (sh : shape) : handle := {| hd_wrap := w; hd_k := k; hd_v := v; hd_shape := sh |}.
Definition both : features := {| f_cpumap := true; f_devmap := true |}.

(** * C73: a handle is for maps of its type and of its sizes *)

(** A handle is given out exactly for maps of the type it documents whose
    elements have the sizes it reads and writes. *)
Theorem C73_type : forall f w k v sh, (exists h, from_id f w k v sh = Ok h) <-> In (h_type sh) (alias_types w) /\ fits f w k v sh.
Proof. exact handle_iff. Qed.
Print Assumptions C73_type.
(** For a map of another type the error names that type. *)
Theorem C73_wrong_type : forall f w k v sh, ~ In (h_type sh) (alias_types w) -> from_id f w k v sh = Err (EInvalidMapType (h_type sh)).
Proof. exact handle_wrong_type. Qed.
Print Assumptions C73_wrong_type.
(** Maps of an object and maps found in the kernel are given the same variant. *)
Theorem C73_tables : forall sh m,
  (from_map_data sh = Ok m -> parse_map sh true = Ok m /\ (m <> VUnsupported -> parse_map sh false = Ok m)) /\
  (forall allow, parse_map sh allow = Ok m -> (m <> VUnsupported -> from_map_data sh = Ok m) /\
     (m = VUnsupported -> allow = true /\ (from_map_data sh = Ok VUnsupported \/ h_type sh = 0))).
Proof. intros sh m. split; [exact (tables_converse sh m)|]. intros allow. exact (tables_agree sh allow m). Qed.
Print Assumptions C73_tables.
(** A map that a handle creates can be opened again as that handle. *)
Theorem C73_create : forall f w k v entries flags sh, create_shape w k v entries flags = Some sh ->
  exists h, from_id f w k v sh = Ok h /\ hd_shape h = sh /\ h_entries sh = entries /\ h_flags sh = flags.
Proof. exact create_ok. Qed.
Print Assumptions C73_create.
(** The size a loaded CPU or device map is created with is the one its handle
    asks for, whatever the object says. *)
Theorem C73_loaded : forall w f user cur vs cpus page n v k v' flags, In w [WCpuMap; WDevMap; WDevMapHash] ->
  forall ty, In ty (alias_types w) -> UtilModel.map_sizes ty user cur vs cpus page (f_cpumap f) (f_devmap f) = Ok (n, v) ->
  exists h, from_id f w k v'
    {| PinModel.h_type := ty; PinModel.h_key := 4; PinModel.h_value := v; PinModel.h_entries := n; PinModel.h_flags := flags |} = Ok h.
Proof.
  intros w f user cur vs cpus page n v k v' flags W ty T E. apply handle_iff. cbn [h_type]. split; [exact T|]. apply new_iff.
  cbn [In] in W. destruct W as [<-|[<-|[<-|[]]]]; cbn [alias_types In] in T; destruct T as [<-|[]];
    (unfold UtilModel.map_sizes, UtilModel.max_entries_override in E; cbn in E;
     apply ok_inj, pair_equal_spec in E as [_ <-]; cbn [new]; now apply kv_iff).
Qed.
Print Assumptions C73_loaded.
(** But the variants of [Map] can be applied by hand, and then the type of the
    map is not looked at. *)
Theorem C73_variant_refuted : exists f w k v m sh h, kernel_ok sh /\ try_from_map f w k v m sh = Ok h /\ ~ In (h_type sh) (alias_types w).
Proof.
  exists both, WHashMap, 4, 8, VHashMap, (a_shape 5 4 8 16), (view WHashMap 4 8 (a_shape 5 4 8 16)). split; [|split; [reflexivity|cbn; lia]].
  repeat split; cbn in *; lia.
Qed.
Print Assumptions C73_variant_refuted.

Example C73_some : from_id both WHashMap 4 8 (a_shape 1 4 8 16) = Ok (view WHashMap 4 8 (a_shape 1 4 8 16)) /\
  from_id both WHashMap 4 8 (a_shape 9 4 8 16) = Ok (view WHashMap 4 8 (a_shape 9 4 8 16)) /\
  from_id both WHashMap 4 4 (a_shape 1 4 8 16) = Err (EInvalidValueSize 4 8) /\
  from_id both WArray 4 8 (a_shape 1 4 8 16) = Err (EInvalidMapType 1) /\
  from_id both WLpmTrie 4 1 (a_shape 11 8 1 16) = Ok (view WLpmTrie 4 1 (a_shape 11 8 1 16)).
Proof. vm_compute. auto. Qed.
Example C73_loaded_some : UtilModel.map_sizes 16 None 64 4 None 4096 true true = Ok (64, 8). Proof. reflexivity. Qed.

(** * C74: calls stay within the memory of their caller *)

(** Whatever method is called with arguments of its types on a handle for a
    map, the kernel reads and writes exactly the memory it is shown. *)
Theorem C74_exact : forall f cpus w k v m sh h o q, kernel_ok sh -> from_map_data sh = Ok m -> try_from_map f w k v m sh = Ok h ->
  op_ok cpus h o -> plan f cpus h o = Ok q -> touches_exactly cpus sh q.
Proof. exact touches. Qed.
Print Assumptions C74_exact.
(** An index past the end of an array is refused before the kernel is asked. *)
Theorem C74_out_of_bounds : forall f cpus h i o, bounded (hd_wrap h) = true -> h_entries (hd_shape h) <= i ->
  In (meth_of o) (methods (hd_wrap h)) -> (exists fl, o = OGet (UIndex i) fl) \/ (exists v fl, o = OSet (UIndex i) v fl) \/ o = ORemove (UIndex i) ->
  plan f cpus h o = Err (EOutOfBounds i (h_entries (hd_shape h))).
Proof. exact out_of_bounds. Qed.
Print Assumptions C74_out_of_bounds.
(** With a variant applied by hand the kernel writes past the end: the map has
    one value for each CPU, the caller has room for one. *)
Theorem C74_variant_refuted : exists f cpus w k v m sh h o q, kernel_ok sh /\ try_from_map f w k v m sh = Ok h /\
  op_ok cpus h o /\ plan f cpus h o = Ok q /\ overruns cpus sh q.
Proof.
  exists both, 2%nat, WHashMap, 4, 8, VHashMap, (a_shape 5 4 8 16), (view WHashMap 4 8 (a_shape 5 4 8 16)), (OGet (UData [0; 0; 0; 0]) 0),
    (lookup CLookup (Some [0; 0; 0; 0]) 8 0).
  split; [repeat split; cbn in *; lia|]. split; [reflexivity|]. split; [reflexivity|]. split; [reflexivity|].
  exists (repeat 0 8), 16. split; [vm_compute; auto|vm_compute; reflexivity].
Qed.
Print Assumptions C74_variant_refuted.
(** The same happens when a load takes a pinned map of other sizes: the handle
    is checked against the sizes of the object, the kernel uses those of the
    map. *)
Theorem C74_reused_refuted : exists l o o' w id u kmap f cpus h p q,
  PinSpec.sound w /\ PinModel.load_map l o' (snd (PinModel.load_map l o w)) = (Ok id, u) /\ PinModel.map_at id u = Some kmap /\
  bind (parse_map (PinModel.o_shape o') false) (fun m => try_from_map f WArray 4 4 m (PinModel.o_shape o')) = Ok h /\
  op_ok cpus h p /\ plan f cpus h p = Ok q /\ overruns cpus (PinModel.k_shape kmap) q.
Proof.
  exists PinProps.some_loader, (PinProps.a_data 8 PinProps.array8), (PinProps.a_data 4 PinProps.array4), (PinModel.empty_world []), 1,
    (snd (PinModel.load_map PinProps.some_loader (PinProps.a_data 4 PinProps.array4)
       (snd (PinModel.load_map PinProps.some_loader (PinProps.a_data 8 PinProps.array8) (PinModel.empty_world []))))),
    {| PinModel.k_id := 1; PinModel.k_shape := PinProps.array8; PinModel.k_data := repeat 7 4%nat; PinModel.k_frozen := false |},
    both, 1%nat, (view WArray 4 4 PinProps.array4), (OGet (UIndex 0) 0), (lookup CLookup (Some [0; 0; 0; 0]) 4 0).
  split; [apply PinProps.sound_empty|]. split; [vm_compute; reflexivity|]. split; [vm_compute; reflexivity|]. split; [vm_compute; reflexivity|].
  split; [cbn; lia|]. split; [vm_compute; reflexivity|].
  exists (repeat 0 4), 8. split; [vm_compute; auto|vm_compute; reflexivity].
Qed.
Print Assumptions C74_reused_refuted.

Example C74_some : plan both 3 (view WPerCpuArray 4 6 (a_shape 6 4 6 2)) (OSet (UIndex 1) (WPerCpu [[1;1;1;1;1;1]; [2;2;2;2;2;2]; [3;3;3;3;3;3]]) 0) =
  Ok (update (Some [1; 0; 0; 0]) [1;1;1;1;1;1;0;0; 2;2;2;2;2;2;0;0; 3;3;3;3;3;3;0;0] 0).
Proof. vm_compute. reflexivity. Qed.

(** * C75: the methods do what they are named for *)

(** A hash map, also with a value for each CPU, is a finite map. *)
Theorem C75_hash : forall f cpus h ops, hash_handle h -> Forall (op_ok cpus h) ops ->
  fst (calls (khash cpus (hd_shape h)) f cpus h ops []) = steps (hash_step (h_entries (hd_shape h))) ops [].
Proof. exact hash_faithful. Qed.
Print Assumptions C75_hash.
(** An array, also with a value for each CPU, is an array of zeroes that is
    written to. *)
Theorem C75_array : forall f cpus h ops, array_handle h -> Forall (op_ok cpus h) ops ->
  fst (calls (karray cpus (hd_shape h)) f cpus h ops (repeat (repeat 0 (Z.to_nat (copied cpus (hd_shape h)))) (Z.to_nat (h_entries (hd_shape h))))) =
  steps array_step ops (repeat (zero_value cpus h) (Z.to_nat (h_entries (hd_shape h)))).
Proof. exact array_faithful. Qed.
Print Assumptions C75_array.
(** First in, first out; last in, first out. *)
Theorem C75_queue : forall f cpus h ops l, queue_handle false h -> Forall (op_ok cpus h) ops ->
  fst (calls (kqueue false (hd_shape h)) f cpus h ops l) = steps (queue_step false (h_entries (hd_shape h))) ops l.
Proof. exact (queue_faithful false). Qed.
Print Assumptions C75_queue.
Theorem C75_stack : forall f cpus h ops l, queue_handle true h -> Forall (op_ok cpus h) ops ->
  fst (calls (kqueue true (hd_shape h)) f cpus h ops l) = steps (queue_step true (h_entries (hd_shape h))) ops l.
Proof. exact (queue_faithful true). Qed.
Print Assumptions C75_stack.
(** A Bloom filter never denies a value that was added. *)
Theorem C75_bloom : forall extra f cpus h ops b fl, bloom_handle h -> Forall (op_ok cpus h) ops -> Z.of_nat (length b) = hd_v h ->
  let r := fst (call (kbloom extra (hd_shape h)) f cpus h (OContains (WData b) fl) (snd (calls (kbloom extra (hd_shape h)) f cpus h ops []))) in
  (added ops b -> r = Ok RUnit) /\ (r = Ok RUnit \/ r = Err EElementNotFound) /\
  ((forall l v, extra l v = false) -> ~ added ops b -> r = Err EElementNotFound).
Proof. exact bloom_faithful. Qed.
Print Assumptions C75_bloom.
(** A trie gives the value of the longest prefix covering the query; insertion
    and removal change one prefix. *)
Theorem C75_trie : forall f cpus h rs n a, trie_handle h -> Forall (route_ok h) rs -> key_ok h (ULpm n a) -> n <= 8 * hd_k h ->
  (exists r, longest rs n a r /\ call (ktrie (hd_shape h)) f cpus h (OGet (ULpm n a) 0) (map node rs) = (Ok (RData (r_val r)), map node rs)) \/
  ((forall r, In r rs -> ~ covers r n a) /\
   call (ktrie (hd_shape h)) f cpus h (OGet (ULpm n a) 0) (map node rs) = (Err EKeyNotFound, map node rs)).
Proof. exact trie_lookup. Qed.
Print Assumptions C75_trie.
Theorem C75_trie_insert : forall f cpus h rs n a v fl r l, trie_handle h -> Forall (route_ok h) rs -> key_ok h (ULpm n a) -> val_ok cpus h (WData v) ->
  call (ktrie (hd_shape h)) f cpus h (OSet (ULpm n a) (WData v) fl) (map node rs) = (Ok r, l) ->
  exists others, l = map node ({| r_len := n; r_addr := a; r_val := v |} :: others) /\ r = RUnit /\
    route_ok h {| r_len := n; r_addr := a; r_val := v |} /\ forall x, In x others <-> In x rs /\ ~ same_prefix x n a.
Proof. exact trie_insert. Qed.
Print Assumptions C75_trie_insert.
Theorem C75_trie_remove : forall f cpus h rs n a r l, trie_handle h -> Forall (route_ok h) rs -> key_ok h (ULpm n a) ->
  call (ktrie (hd_shape h)) f cpus h (ORemove (ULpm n a)) (map node rs) = (Ok r, l) ->
  exists others, l = map node others /\ (exists x, In x rs /\ same_prefix x n a) /\ forall x, In x others <-> In x rs /\ ~ same_prefix x n a.
Proof. exact trie_remove. Qed.
Print Assumptions C75_trie_remove.
(** A stack trace is read back with its addresses in order, and no more. *)
Theorem C75_frames : forall f h ips, hd_wrap h = WStackTraceMap -> fits f WStackTraceMap (hd_k h) (hd_v h) (hd_shape h) -> 0 <= h_value (hd_shape h) ->
  Forall (fun x => 0 < x < 2 ^ 64) ips -> 8 * Z.of_nat (length ips) <= h_value (hd_shape h) ->
  let b := trace_bytes (Z.to_nat (h_value (hd_shape h) / 8)) ips in
  Z.of_nat (length b) = h_value (hd_shape h) /\ answer f h (OGet (UIndex 0) 0) (Ok b) = Ok (RFrames ips).
Proof. exact frames_faithful. Qed.
Print Assumptions C75_frames.
(** CPU and device maps hold targets with programs, if no program has the
    descriptor 0. *)
Theorem C75_xdp_partial : forall f cpus h progs bad ops, xdp_handle f h -> (forall fd id, progs fd = Some id -> 0 < id < 2 ^ 32) ->
  Forall (fun o => op_ok cpus h o /\ fds_above_0 o) ops ->
  fst (calls (kxdp progs bad (hd_shape h)) f cpus h ops (repeat None (Z.to_nat (h_entries (hd_shape h))))) =
  steps (xdp_step (xdp_supported f h) progs bad) ops (repeat None (Z.to_nat (h_entries (hd_shape h)))).
Proof. exact xdp_faithful. Qed.
Print Assumptions C75_xdp_partial.
(** One that has it is left out, and the call succeeds. *)
Theorem C75_fd0_refuted : exists f cpus h progs bad ops, xdp_handle f h /\ (forall fd id, progs fd = Some id -> 0 < id < 2 ^ 32) /\ Forall (op_ok cpus h) ops /\
  fst (calls (kxdp progs bad (hd_shape h)) f cpus h ops (repeat None (Z.to_nat (h_entries (hd_shape h))))) = [Ok RUnit; Ok (RXdp 64 None)] /\
  steps (xdp_step (xdp_supported f h) progs bad) ops (repeat None (Z.to_nat (h_entries (hd_shape h)))) = [Ok RUnit; Ok (RXdp 64 (Some 7))].
Proof.
  exists both, 1%nat, (view WCpuMap 0 0 (a_shape 16 4 8 2)), (fun fd => if fd =? 0 then Some 7 else None), (fun _ => None),
    [OSet (UIndex 0) (WXdp 64 (Some 0)) 0; OGet (UIndex 0) 0].
  split; [split; [left; split; reflexivity|split; [reflexivity|cbn; lia]]|]. split.
  { intros fd id. destruct (fd =? 0); [|discriminate]. intros E. apply some_inj in E. lia. }
  split; [repeat constructor; cbn; lia|]. split; vm_compute; reflexivity.
Qed.
Print Assumptions C75_fd0_refuted.
(** Reading from a socket hash never succeeds: its handle asks for values of
    4 bytes, the kernel only answers for 8. *)
Theorem C75_sockhash_refuted : forall f k v sh h key fl cookie, from_id f WSockHash k v sh = Ok h ->
  answer f h (OGet key fl) (ksockhash_lookup sh cookie) = Err (ESyscall ENOSPC).
Proof.
  intros f k v sh h key fl cookie E. assert (exists h, from_id f WSockHash k v sh = Ok h) as X by eauto.
  apply handle_iff in X as (_ & (_ & F & _)). specialize (F 4 eq_refl). unfold ksockhash_lookup. rewrite F. reflexivity.
Qed.
Print Assumptions C75_sockhash_refuted.

Definition counts : handle := view WHashMap 1 2 (a_shape 1 1 2 2).
Example C75_hash_some : hash_handle counts /\
  fst (calls (khash 1 (hd_shape counts)) both 1 counts
    [OSet (UData [1]) (WData [5; 0]) 0; OSet (UData [2]) (WData [6; 0]) 1; OSet (UData [3]) (WData [7; 0]) 0; OSet (UData [2]) (WData [8; 0]) 1;
     OGet (UData [1]) 0; ORemove (UData [1]); OGet (UData [1]) 0; OKeys None; OKeys (Some (UData [2]))] []) =
  [Ok RUnit; Ok RUnit; Err (ESyscall E2BIG); Err (ESyscall EEXIST); Ok (RData [5; 0]); Ok RUnit; Err EKeyNotFound; Ok (RKey [2]); Ok REnd].
Proof. split; [repeat split; cbn in *; try lia; auto|vm_compute; reflexivity]. Qed.
Example C75_percpu_some : hash_handle (view WPerCpuHashMap 1 2 (a_shape 5 1 2 2)) /\
  fst (calls (khash 2 (a_shape 5 1 2 2)) both 2 (view WPerCpuHashMap 1 2 (a_shape 5 1 2 2)) [OSet (UData [1]) (WPerCpu [[1; 2]; [3; 4]]) 0; OGet (UData [1]) 0] []) =
  [Ok RUnit; Ok (RPerCpu [[1; 2]; [3; 4]])].
Proof. split; [repeat split; cbn in *; try lia; auto|vm_compute; reflexivity]. Qed.
Example C75_array_some : array_handle (view WPerCpuArray 4 2 (a_shape 6 4 2 2)) /\
  steps array_step [OGet (UIndex 1) 0; OSet (UIndex 1) (WPerCpu [[1; 1]]) 0; OGet (UIndex 1) 0; OGet (UIndex 2) 0]
    (repeat (zero_value 1 (view WPerCpuArray 4 2 (a_shape 6 4 2 2))) 2) =
  [Ok (RPerCpu [[0; 0]]); Ok RUnit; Ok (RPerCpu [[1; 1]]); Err (EOutOfBounds 2 2)].
Proof. split; [repeat split; cbn in *; try lia; auto|vm_compute; reflexivity]. Qed.
Example C75_queue_some : queue_handle false (view WQueue 0 1 (a_shape 22 0 1 2)) /\ queue_handle true (view WStack 0 1 (a_shape 23 0 1 2)) /\
  (forall b, steps (queue_step b 2) [OPush (WData [1]) 0; OPush (WData [2]) 0; OPush (WData [3]) 0; OPop 0; OPop 0; OPop 0] [] =
    [Ok RUnit; Ok RUnit; Err (ESyscall E2BIG); Ok (RData [if b then 2 else 1]); Ok (RData [if b then 1 else 2]); Err EElementNotFound]).
Proof. split; [|split]; [repeat split|repeat split|]. intros []; vm_compute; reflexivity. Qed.
Definition routes : list route :=
  [{| r_len := 8; r_addr := [10; 0; 0; 0]; r_val := [1] |}; {| r_len := 16; r_addr := [10; 1; 0; 0]; r_val := [2] |}; {| r_len := 12; r_addr := [10; 16; 0; 0]; r_val := [3] |}].
Definition fib : handle := view WLpmTrie 4 1 (a_shape 11 8 1 10).
Example C75_trie_some : trie_handle fib /\ Forall (route_ok fib) routes /\
  fst (call (ktrie (hd_shape fib)) both 1 fib (OGet (ULpm 32 [10; 1; 2; 3]) 0) (map node routes)) = Ok (RData [2]) /\
  fst (call (ktrie (hd_shape fib)) both 1 fib (OGet (ULpm 32 [10; 17; 2; 3]) 0) (map node routes)) = Ok (RData [3]) /\
  fst (call (ktrie (hd_shape fib)) both 1 fib (OGet (ULpm 12 [10; 1; 2; 3]) 0) (map node routes)) = Ok (RData [1]) /\
  fst (call (ktrie (hd_shape fib)) both 1 fib (OGet (ULpm 32 [11; 1; 2; 3]) 0) (map node routes)) = Err EKeyNotFound.
Proof. split; [repeat split; cbn in *; lia|]. split; [repeat constructor; cbn; lia|]. vm_compute. auto. Qed.
Example C75_xdp_some : fst (calls (kxdp (fun fd => Some (fd + 100)) (fun t => if t =? 9 then Some 19 else None) (a_shape 14 4 8 2)) both 1 (view WDevMap 0 0 (a_shape 14 4 8 2))
    [OSet (UIndex 0) (WXdp 3 (Some 5)) 0; OGet (UIndex 0) 0; OSet (UIndex 1) (WXdp 9 None) 0; OGet (UIndex 1) 0; OSet (UIndex 2) (WXdp 3 None) 0] [None; None]) =
  [Ok RUnit; Ok (RXdp 3 (Some 105)); Err (ESyscall 19); Err EKeyNotFound; Err (EOutOfBounds 2 2)].
Proof. vm_compute. reflexivity. Qed.
Example C75_frames_some : fits both WStackTraceMap 4 8 (a_shape 7 4 32 8) /\
  answer both (view WStackTraceMap 4 8 (a_shape 7 4 32 8)) (OGet (UIndex 0) 0) (Ok (trace_bytes 4 [17; 18])) = Ok (RFrames [17; 18]).
Proof. split; [|vm_compute; reflexivity]. apply new_iff. reflexivity. Qed.
