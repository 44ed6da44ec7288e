(** C48, C71 and C72. *)
From Coq Require Import String.
From Verif Require Import Base Text PinModel PinSpec PinProofs PinProofs2 PinProofs3 PinProofs4.
Local Open Scope Z_scope.

(** * C48: maps pinned by name are shared *)

(** Whatever calls fail, all loads that got a map for a path got the same one. *)
Theorem C48_shared : forall js w rs u p a b, sound w -> loads js w = (rs, u) -> loaded_from rs p a -> loaded_from rs p b -> a = b.
Proof. exact loads_shared. Qed.
Print Assumptions C48_shared.
(** One that was pinned before is the one they get. *)
Theorem C48_shared_first : forall js w rs u p a id, sound w -> loads js w = (rs, u) -> In (p, id) (w_pins w) -> loaded_from rs p a -> a = id.
Proof. exact loads_shared_first. Qed.
Print Assumptions C48_shared_first.
(** At most one map is pinned at a path, and none if there was one. *)
Theorem C48_pinned_once : forall js w rs u p, sound w -> loads js w = (rs, u) -> (pinned_at p u + here p w <= pinned_at p w + 1)%nat.
Proof. exact loads_pinned_once. Qed.
Print Assumptions C48_pinned_once.
(** If no call fails for other reasons, no second map is created for a path. *)
Theorem C48_created_once : forall js w rs u p, w_fail w = [] -> loads js w = (rs, u) -> (created_for p u + here p w <= created_for p w + 1)%nat.
Proof. exact loads_created_once. Qed.
Print Assumptions C48_created_once.
(** A pinned map that is not frozen is taken by any further load of a map that
    is not read-only: nothing is created or pinned; contents stay unless the
    object carries some. *)
Theorem C48_reuse_partial : forall l o w p id k, w_fail w = [] -> pin_path l o = Some p -> pin_at p w = Some id -> map_at id w = Some k -> k_frozen k = false ->
  o_rodata o = false -> has_nul p = false -> o_inner o <> Some None ->
  exists u, load_map l o w = (Ok id, u) /\ w_pins u = w_pins w /\ (forall q, created_for q u = created_for q w) /\ (forall q, pinned_at q u = pinned_at q w)
    /\ map k_id (w_maps u) = map k_id (w_maps w) /\ (o_data o = [] -> u = w)
    /\ (o_data o <> [] -> Z.of_nat (length (o_data o)) = h_value (k_shape k) -> exists k', map_at id u = Some k' /\ k_data k' = o_data o).
Proof. exact reuse. Qed.
Print Assumptions C48_reuse_partial.
(** A read-only one is never shared: after one load of it every further load
    fails, because it is frozen. *)
Theorem C48_rodata_refuted : forall l o w id u js rs v l' o' p,
  sound w -> load_map l o w = (Ok id, u) -> o_rodata o = true -> pin_path l o = Some p ->
  loads js u = (rs, v) -> o_rodata o' = true -> pin_path l' o' = Some p -> exists x, fst (load_map l' o' v) = Err x.
Proof. exact rodata_again. Qed.
Print Assumptions C48_rodata_refuted.

Definition some_loader : loader := {| l_dir := Some (txt "/sys/fs/bpf/a"); l_paths := [] |}.
Definition array4 : shape := {| h_type := 2; h_key := 4; h_value := 4; h_entries := 1; h_flags := 0 |}.
Definition a_map : omap := {| o_name := txt "COUNTS"; o_shape := array4; o_data := []; o_rodata := false; o_pinned := true; o_inner := None |}.
Definition a_rodata : omap := {| o_name := txt ".rodata"; o_shape := array4; o_data := [1; 2; 3; 4]; o_rodata := true; o_pinned := true; o_inner := None |}.
Example sound_empty : sound (empty_world []). Proof. repeat split; constructor. Qed.
Example C48_holds : loads [(some_loader, [a_map]); (some_loader, [a_map])] (empty_world []) = ([(some_loader, Ok [(a_map, 1)]); (some_loader, Ok [(a_map, 1)])], snd (loads [(some_loader, [a_map])] (empty_world []))).
Proof. vm_compute. reflexivity. Qed.
(** A call fails between creating and pinning; the next load creates anew. *)
Example C48_after_failure : map snd (fst (loads [(some_loader, [a_map]); (some_loader, [a_map]); (some_loader, [a_map])] (empty_world [true; false; true]))) = [Err EPin; Ok [(a_map, 2)]; Ok [(a_map, 2)]].
Proof. vm_compute. reflexivity. Qed.
Example C48_rodata_twice : map snd (fst (loads [(some_loader, [a_rodata]); (some_loader, [a_rodata])] (empty_world []))) = [Ok [(a_rodata, 1)]; Err EUpdate].
Proof. vm_compute. reflexivity. Qed.

(** A map that was loaded is pinned where it belongs, and only there. *)
Theorem C48_where : forall l o w r id u, sound w -> one_path l -> relative (o_name o) -> belongs l o r -> load_map l o w = (Ok id, u) ->
  match r with Some p => In (p, id) (w_pins u) | None => w_pins u = w_pins w end.
Proof. exact load_where. Qed.
Print Assumptions C48_where.
Example C48_where_holds : sound (empty_world []) /\ one_path some_loader /\ relative (o_name a_map) /\ belongs some_loader a_map (Some (txt "/sys/fs/bpf/a/COUNTS")) /\
  fst (load_map some_loader a_map (empty_world [])) = Ok 1 /\ w_pins (snd (load_map some_loader a_map (empty_world []))) = [(txt "/sys/fs/bpf/a/COUNTS", 1)].
Proof.
  split; [apply sound_empty|]. split; [constructor|]. split; [vm_compute; discriminate|].
  split; [apply (belongs_dir some_loader a_map (txt "/sys/fs/bpf/a")); [intros p []|reflexivity|reflexivity|discriminate|vm_compute; discriminate]|].
  split; vm_compute; reflexivity.
Qed.

(** * C72: the map a load gets is of the shape the object asks for *)

(** It is if it was created. *)
Theorem C72_created : forall l o w id u, sound w -> load_map l o w = (Ok id, u) -> (forall p, pin_path l o = Some p -> pin_at p w = None) -> exists k, map_at id u = Some k /\ k_shape k = o_shape o.
Proof. exact fresh_shape. Qed.
Print Assumptions C72_created.
(** One that was pinned is taken without a look at it. *)
Definition array8 : shape := {| h_type := 2; h_key := 4; h_value := 8; h_entries := 1; h_flags := 0 |}.
Definition a_data n sh : omap := {| o_name := txt ".data"; o_shape := sh; o_data := repeat 7 n; o_rodata := false; o_pinned := true; o_inner := None |}.
Theorem C72_reused_refuted : exists l o o' w id u k, sound w /\ snd (load_map l o w) = u /\ fst (load_map l o' u) = Ok id /\ map_at id (snd (load_map l o' u)) = Some k /\ k_shape k <> o_shape o'.
Proof.
  exists some_loader, (a_data 8 array8), (a_data 4 array4), (empty_world []), 1, (snd (load_map some_loader (a_data 8 array8) (empty_world []))), {| k_id := 1; k_shape := array8; k_data := repeat 7 4%nat; k_frozen := false |}.
  split; [apply sound_empty|]. vm_compute. repeat split. discriminate.
Qed.
Print Assumptions C72_reused_refuted.
(** The contents of such a map may then be read from past the end of the
    object's data. *)
Theorem C72_beyond_refuted : exists l o o' w id, sound w /\ beyond w = 0%nat /\ fst (load_map l o' (snd (load_map l o w))) = Ok id /\ beyond (snd (load_map l o' (snd (load_map l o w)))) = 1%nat /\ Z.of_nat (length (o_data o')) = h_value (o_shape o') /\ Z.of_nat (length (o_data o)) = h_value (o_shape o).
Proof. exists some_loader, (a_data 8 array8), (a_data 4 array4), (empty_world []), 1. split; [apply sound_empty|]. vm_compute. repeat split. Qed.
Print Assumptions C72_beyond_refuted.
(** Not if the pinned map has no bigger values than there is data. *)
Theorem C72_beyond_partial : forall l o w r u, sound w -> load_map l o w = (r, u) ->
  o_data o = [] \/ (h_value (o_shape o) <= Z.of_nat (length (o_data o)) /\ (forall p id k, pin_path l o = Some p -> In (p, id) (w_pins w) -> In k (w_maps w) -> k_id k = id -> h_value (k_shape k) <= Z.of_nat (length (o_data o)))) ->
  beyond u = beyond w.
Proof. exact no_beyond. Qed.
Print Assumptions C72_beyond_partial.

(** * C71: unpinning a program removes what pinning it made *)

(** [pin] adds the file, [unpin] after it brings back the files there were. *)
Theorem C71_round : forall i p s u, (i < length (f_progs s))%nat -> pin i p s = (Ok tt, u) ->
  file_at p u = Some (FProg i) /\ (forall q, q <> p -> file_at q u = file_at q s)
  /\ (hd false (f_fail u) = false -> exists v, unpin i u = (Ok tt, v) /\ f_files v = f_files s /\ d_path (data_at i v) = None).
Proof. exact pin_round. Qed.
Print Assumptions C71_round.
(** As long as no [pin] fails and no others remove files, [unpin] removes only
    a pin of the program. *)
Theorem C71_own_partial : forall l s i q f, fresh_fs s -> smooth l s -> file_at q (fsteps l s) = Some f -> file_at q (snd (unpin i (fsteps l s))) = Some f \/ f = FProg i.
Proof. exact unpin_own. Qed.
Print Assumptions C71_own_partial.
Definition two_progs : fs := {| f_files := []; f_progs := [{| d_loaded := true; d_path := None |}; {| d_loaded := true; d_path := None |}]; f_fail := [] |}.
Definition here_ : list Z := txt "/sys/fs/bpf/p".
Definition there_ : list Z := txt "/sys/fs/bpf/q".
Example fresh_two : fresh_fs two_progs. Proof. split; repeat constructor. Qed.
Example smooth_two : smooth [FPin 0 here_; FMake there_; FPin 1 (txt "/r"); FUnpin 0; FPin 0 here_] two_progs. Proof. repeat split. Qed.
(** A [pin] that failed because the path was taken is remembered: [unpin] then
    removes another program's pin. *)
Theorem C71_failed_pin_refuted : exists s, fresh_fs s /\ fst (fstep (FPin 1 here_) (fsteps [FPin 0 here_] s)) = Err EPinFailed
  /\ file_at here_ (fsteps [FPin 0 here_; FPin 1 here_] s) = Some (FProg 0) /\ fst (fstep (FUnpin 1) (fsteps [FPin 0 here_; FPin 1 here_] s)) = Ok tt /\ file_at here_ (fsteps [FPin 0 here_; FPin 1 here_; FUnpin 1] s) = None.
Proof. exists two_progs. split; [apply fresh_two|]. vm_compute. repeat split. Qed.
Print Assumptions C71_failed_pin_refuted.
(** So is that of a program that is not loaded. *)
Theorem C71_not_loaded_refuted : exists s, fresh_fs s /\ fst (fstep (FPin 0 here_) (fsteps [FMake here_] s)) = Err ENoFd
  /\ fst (fstep (FUnpin 0) (fsteps [FMake here_; FPin 0 here_] s)) = Ok tt /\ file_at here_ (fsteps [FMake here_; FPin 0 here_; FUnpin 0] s) = None.
Proof. exists {| f_files := []; f_progs := [no_data]; f_fail := [] |}. split; [split; repeat constructor|]. vm_compute. repeat split. Qed.
Print Assumptions C71_not_loaded_refuted.
(** Of two pins only the later one is removed. *)
Theorem C71_twice_refuted : exists s, fresh_fs s /\ smooth [FPin 0 here_; FPin 0 there_; FUnpin 0] s /\ file_at here_ (fsteps [FPin 0 here_; FPin 0 there_; FUnpin 0] s) = Some (FProg 0) /\ d_path (data_at 0 (fsteps [FPin 0 here_; FPin 0 there_; FUnpin 0] s)) = None.
Proof. exists two_progs. split; [apply fresh_two|]. vm_compute. repeat split. Qed.
Print Assumptions C71_twice_refuted.

(** * Zero bytes *)

(** A path or a name with a zero byte fails before anything is done. *)
Theorem C48_zero_path : forall l o w p, o_inner o <> Some None -> pin_path l o = Some p -> In 0 p -> load_map l o w = (Err EInvalidPath, w).
Proof. exact zero_path. Qed.
Theorem C72_zero_name : forall l o w, o_inner o <> Some None -> pin_path l o = None -> In 0 (o_name o) -> load_map l o w = (Err EInvalidName, w).
Proof. exact zero_name. Qed.
Theorem C71_zero_path : forall i p s, d_loaded (data_at i s) = true -> In 0 p -> fst (pin i p s) = Err EBadPath /\ f_files (snd (pin i p s)) = f_files s.
Proof. exact zero_pin. Qed.
Print Assumptions C48_zero_path.
Print Assumptions C72_zero_name.
Print Assumptions C71_zero_path.

(** A program that was pinned can be unpinned after it was unloaded; nothing
    but its pin goes. *)
Theorem C71_unloaded : forall i p s u b, (i < length (f_progs s))%nat -> pin i p s = (Ok tt, u) -> hd false (f_fail u) = false ->
  let t := snd (fstep (FLoaded i b) u) in
  file_at p t = Some (FProg i) /\ exists v, unpin i t = (Ok tt, v) /\ f_files v = f_files s.
Proof. exact unload_round. Qed.
Print Assumptions C71_unloaded.
