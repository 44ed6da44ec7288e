(** Property C87: a handle for something in the kernel refers to something of
    its kind. *)
From Coq Require Import String.
From Verif Require Import Base Text ProgModel LayoutModel LayoutDecls InfoModel InfoSpec InfoProofs HandleModel HandleSpec HandleProofs.
Import ListNotations.
Local Open Scope Z_scope.

(** * Programs *)

(** A pinned program is what the handle refers to. *)
Theorem C87_pin : forall named p path b k, pinned path (Prog b) k -> whole_prog b -> btf_there b k ->
  from_pin named p path k = Ret {| h_kind := p; h_obj := Prog b; h_name := prog_name_as_str named (info_of P b); h_btf := btf_of b k; h_btf_id := some_positive (k_field b 224 4) |}.
Proof. exact pin_program. Qed.
Print Assumptions C87_pin.
Theorem C87_pin_name : forall named p path b k n, pinned path (Prog b) k -> whole_prog b -> btf_there b k -> k_bytes b 64 16 = Some (stored_name n) -> good_name n -> n <> [] ->
  exists h, from_pin named p path k = Ret h /\ h_name h = Some n.
Proof. exact pin_name. Qed.
Print Assumptions C87_pin_name.
Theorem C87_pin_none : forall named p path k, nothing_pinned path k -> from_pin named p path k = Fail ESyscall.
Proof. exact pin_nothing. Qed.
Print Assumptions C87_pin_none.
Theorem C87_pin_btf_gone : forall named p path b k n, pinned path (Prog b) k -> whole_prog b -> k_field b 220 4 = Some n -> n <> 0 -> k_btfs k n = None -> from_pin named p path k = Fail ESyscall.
Proof. exact btf_gone. Qed.
Print Assumptions C87_pin_btf_gone.

(** But nothing checks what is pinned: a handle of any kind can be made for
    any program whose structure names no BTF object, of whatever type, and
    for maps and links too. *)
Theorem C87_pin_refuted : forall named p path o k, pinned path o k -> short_info o -> exists h, from_pin named p path k = Ret h /\ h_kind h = p /\ h_obj h = o.
Proof. exact pin_anything. Qed.
Print Assumptions C87_pin_refuted.

(** A handle made from a [ProgramInfo] is of a kind with the program's type,
    and refers to the program that has the number now. *)
Theorem C87_info : forall p b name k, whole_prog b -> still b k -> btf_there b k -> loaded_as p b -> has_from_info p = true ->
  from_program_info p (info_of P b) name k = Ret {| h_kind := p; h_obj := Prog b; h_name := Some name; h_btf := btf_of b k; h_btf_id := some_positive (k_field b 224 4) |}.
Proof. exact info_handle. Qed.
Print Assumptions C87_info.
Theorem C87_info_type : forall p b name k, (8 <= length b)%nat -> (exists t, k_field b 0 4 = Some t /\ t <> fst (kind_type p)) -> from_program_info p (info_of P b) name k = Fail EUnexpectedType.
Proof. exact info_mismatch. Qed.
Print Assumptions C87_info_type.
Theorem C87_info_made : forall p b name k h, (8 <= length b)%nat -> from_program_info p (info_of P b) name k = Ret h ->
  loaded_as p b /\ h_kind h = p /\ exists c, h_obj h = Prog c /\ k_progs k (or_zero (k_field b 4 4)) = Some c.
Proof. exact info_right. Qed.
Print Assumptions C87_info_made.
Theorem C87_info_gone : forall p b name k n, (8 <= length b)%nat -> k_field b 4 4 = Some n -> k_progs k n = None -> exists e, from_program_info p (info_of P b) name k = Fail e.
Proof. exact info_gone. Qed.
Print Assumptions C87_info_gone.
(** The type tells the kind for every kind whose [from_program_info] is not
    [unsafe], except two. *)
(** The kinds without such a function. *)
Theorem C87_info_without : forall p, has_from_info p = false <->
  p = KLsmCgroup \/ p = KFlowDissector \/ (exists a, p = KCgroupSockAddr a) \/ (exists a, p = KCgroupSock a).
Proof. exact info_without. Qed.
Print Assumptions C87_info_without.
Theorem C87_info_kind_partial : forall p q, has_from_info p = true -> unsafe_from_info p = false -> p <> KIter -> p <> KLsm -> fst (kind_type q) = fst (kind_type p) -> same_kind p q.
Proof. exact info_kind. Qed.
Print Assumptions C87_info_kind_partial.

(** An [fentry] program, and a kernel in which it is number 42. *)
Definition fentry : list Z := [26; 0; 0; 0; 42; 0; 0; 0] ++ repeat 0 212 ++ [1; 0; 0; 0; 9; 0; 0; 0] ++ repeat 0 4.
(** An [LsmCgroup] program. *)
Definition lsm_cgroup : list Z := [29; 0; 0; 0; 43; 0; 0; 0] ++ repeat 0 224.
(** An XDP program from a kernel without the last fields. *)
Definition xdp : list Z := [6; 0; 0; 0; 44; 0; 0; 0] ++ repeat 0 208.
(** An [xdp] link: number 3, for program 44. *)
Definition xdp_link : list Z := [6; 0; 0; 0; 3; 0; 0; 0; 44; 0; 0; 0; 0; 0; 0; 0; 2; 0; 0; 0] ++ repeat 0 20.
(** A hash map with 8 entries. *)
Definition hash : list Z := [1; 0; 0; 0; 5; 0; 0; 0; 4; 0; 0; 0; 8; 0; 0; 0; 8; 0; 0; 0] ++ repeat 0 68.
Definition sample_kernel : kernel :=
  {| k_pins := [(txt "/p", Prog fentry); (txt "/x", Prog xdp); (txt "/l", Link_ xdp_link); (txt "/m", Map_ hash)];
     k_progs := fun n => if n =? 42 then Some fentry else if n =? 43 then Some lsm_cgroup else if n =? 44 then Some xdp else None;
     k_maps := fun n => if n =? 5 then Some hash else None; k_btfs := fun n => if n =? 1 then Some 17 else None |}.
(** The two: [Iter] takes every tracing program, [Lsm] takes [LsmCgroup]
    programs, both without [unsafe]. *)
Theorem C87_info_kind_refuted : has_from_info KIter = true /\ unsafe_from_info KIter = false /\ has_from_info KLsm = true /\ unsafe_from_info KLsm = false /\
  loaded_as KFEntry fentry /\ loaded_as KLsmCgroup lsm_cgroup /\ ~ same_kind KIter KFEntry /\ ~ same_kind KLsm KLsmCgroup /\
  (exists h, from_program_info KIter (info_of P fentry) (txt "it") sample_kernel = Ret h /\ h_kind h = KIter /\ h_obj h = Prog fentry) /\
  (exists h, from_program_info KLsm (info_of P lsm_cgroup) (txt "it") sample_kernel = Ret h /\ h_kind h = KLsm /\ h_obj h = Prog lsm_cgroup).
Proof.
  split; [reflexivity|]. split; [reflexivity|]. split; [reflexivity|]. split; [reflexivity|]. split; [vm_compute; reflexivity|]. split; [vm_compute; reflexivity|].
  split; [intros X; exact X|]. split; [intros X; exact X|]. split.
  - exists {| h_kind := KIter; h_obj := Prog fentry; h_name := Some (txt "it"); h_btf := Some 17; h_btf_id := Some 9 |}. split; [vm_compute; reflexivity|]. split; reflexivity.
  - exists {| h_kind := KLsm; h_obj := Prog lsm_cgroup; h_name := Some (txt "it"); h_btf := None; h_btf_id := None |}. split; [vm_compute; reflexivity|]. split; reflexivity.
Qed.
Print Assumptions C87_info_kind_refuted.
(** The constants are the types the programs are loaded with. *)
Theorem C87_types : forall p t, PROGRAM_TYPE p = Some t -> t = fst (kind_type p).
Proof. exact types_agree. Qed.
Print Assumptions C87_types.

(** * Maps *)

Theorem C87_map : forall path o k, pinned path o k -> whole_map2 (bytes_of o) -> exists h, map_from_pin path k = Ret h /\ map_said (bytes_of o) o h.
Proof. exact map_pin. Qed.
Print Assumptions C87_map.
Theorem C87_map_id : forall n b k, k_maps k n = Some b -> whole_map2 b -> exists h, map_from_id n k = Ret h /\ map_said b (Map_ b) h.
Proof. exact map_id_handle. Qed.
Print Assumptions C87_map_id.
Theorem C87_map_none : forall path n k, (nothing_pinned path k -> map_from_pin path k = Fail ESyscall /\ link_from_pin path k = Fail ESyscall) /\ (k_maps k n = None -> map_from_id n k = Fail ESyscall).
Proof. exact map_none. Qed.
Print Assumptions C87_map_none.
(** A pinned program is taken for a map: an XDP program for a per-CPU
    array. *)
Theorem C87_map_refuted : exists path o k h, pinned path o k /\ is_prog o /\ map_from_pin path k = Ret h /\ m_obj h = o /\ m_type h = 6.
Proof.
  exists (txt "/x"), (Prog xdp), sample_kernel, (from_fd_inner (Prog xdp)). split; [|split; [exact I|split; [vm_compute; reflexivity|split; vm_compute; reflexivity]]].
  split; [|split; [vm_compute; tauto|vm_compute; intuition discriminate]].
  vm_compute. repeat (apply NoDup_cons; [cbn; intuition discriminate|]). apply NoDup_nil.
Qed.
Print Assumptions C87_map_refuted.

(** * Links *)

Theorem C87_link_pin : forall path o k, pinned path o k -> link_from_pin path k = Ret o.
Proof. exact link_pin. Qed.
Print Assumptions C87_link_pin.
(** A link is made into a structure exactly when its type is the one the
    structure is for. *)
Theorem C87_link : forall l o t, whole_link (bytes_of o) -> k_field (bytes_of o) 0 4 = Some t -> (link_try_from l o = Ret o <-> made_for l t) /\ (~ made_for l t -> link_try_from l o = Fail EInvalidLink).
Proof. exact link_convert. Qed.
Print Assumptions C87_link.
Theorem C87_link_info : forall b t, whole_link b -> k_field b 0 4 = Some t -> 0 <= t ->
  link_type (info_of L b) = (if t <=? 13 then Ret t else Fail (EUnknownLinkType t)) /\ link_id (info_of L b) = or_zero (k_field b 4 4) /\ link_program (info_of L b) = or_zero (k_field b 8 4).
Proof. exact link_info. Qed.
Print Assumptions C87_link_info.
(** A pinned program is taken for a link: an XDP program for an XDP link,
    both having type 6. *)
Theorem C87_link_refuted : exists path o k, pinned path o k /\ is_prog o /\ link_from_pin path k = Ret o /\ link_try_from LXdp o = Ret o.
Proof.
  exists (txt "/x"), (Prog xdp), sample_kernel. split; [|split; [exact I|split; vm_compute; reflexivity]].
  split; [|split; [vm_compute; tauto|vm_compute; intuition discriminate]].
  vm_compute. repeat (apply NoDup_cons; [cbn; intuition discriminate|]). apply NoDup_nil.
Qed.
Print Assumptions C87_link_refuted.

(** Paths with a zero byte: a panic for programs and links, an error for
    maps. *)
Theorem C87_nul_refuted : forall named p path k, In 0 path -> from_pin named p path k = Panic /\ link_from_pin path k = Panic /\ map_from_pin path k = Fail EInvalidPath.
Proof. exact nul_paths. Qed.
Print Assumptions C87_nul_refuted.

Lemma sample_pins : NoDup (map fst (k_pins sample_kernel)).
Proof. vm_compute. repeat (apply NoDup_cons; [cbn; intuition discriminate|]). apply NoDup_nil. Qed.
Lemma sample_pinned path o : In (path, o) (k_pins sample_kernel) -> existsb (Z.eqb 0) path = false -> pinned path o sample_kernel.
Proof. intros I N. split; [exact sample_pins|]. split; [exact I|]. intros Z0. apply nul_there in Z0. unfold has_nul in Z0. congruence. Qed.
Example handle_example :
  pinned (txt "/p") (Prog fentry) sample_kernel /\ pinned (txt "/l") (Link_ xdp_link) sample_kernel /\ pinned (txt "/m") (Map_ hash) sample_kernel /\
  whole_prog fentry /\ whole_map2 hash /\ whole_link xdp_link /\ still fentry sample_kernel /\ btf_there fentry sample_kernel /\ short_info (Map_ hash) /\ short_info (Link_ xdp_link) /\
  nothing_pinned (txt "/q") sample_kernel /\ link_try_from LXdp (Link_ xdp_link) = Ret (Link_ xdp_link) /\ link_try_from LIter (Link_ xdp_link) = Fail EInvalidLink /\
  (exists h, from_pin true (KXdp 37) (txt "/m") sample_kernel = Ret h /\ h_obj h = Map_ hash) /\
  (exists h, map_from_id 5 sample_kernel = Ret h /\ m_entries h = 8).
Proof.
  split; [apply sample_pinned; [vm_compute; tauto|reflexivity]|]. split; [apply sample_pinned; [vm_compute; tauto|reflexivity]|]. split; [apply sample_pinned; [vm_compute; tauto|reflexivity]|].
  split. { split; [apply whole_check; vm_compute; reflexivity|]. unfold ends. replace (length fentry) with 232%nat by reflexivity. lia. }
  split. { split; [apply whole_check; vm_compute; reflexivity|]. unfold ends. replace (length hash) with 88%nat by reflexivity. lia. }
  split. { apply Nat.leb_le. reflexivity. }
  split. { exists 42. split; vm_compute; reflexivity. }
  split. { exists 17. vm_compute; reflexivity. }
  split. { apply Nat.leb_le. reflexivity. } split. { apply Nat.leb_le. reflexivity. }
  split. { split; vm_compute; intuition discriminate. }
  split; [vm_compute; reflexivity|]. split; [vm_compute; reflexivity|].
  split; eexists; (split; [vm_compute; reflexivity|vm_compute; reflexivity]).
Qed.
