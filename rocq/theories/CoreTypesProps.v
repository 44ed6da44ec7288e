(** C22 and C56: candidates and access strings of types, against predicates that
    do not use the model. *)
From Coq Require Import String.
From Verif Require Import Base Text BtfTypes BtfModel CoreModel CoreSpec CoreSpec2 CoreProofs2 CoreProofs5 CoreProofs6.
Open Scope Z_scope.

(** Candidates are exactly the types of the kernel of a fitting kind with the
    same essential name. *)
Theorem C22_fitting : forall tb l lname cs, find_candidates tb l lname = Ok cs -> forall id n, In (id, n) cs <->
  exists j t e, nth_error (b_types tb) j = Some t /\ id = u32 (Z.of_nat j) /\ fitting l t /\
    type_name tb t = Ok n /\ essential lname e /\ essential n e.
Proof. exact candidates_fitting. Qed.
Print Assumptions C22_fitting.

(** Relocations about types have the access string 0; any other is refused. *)
Theorem C56_type_access : forall b k root s sp, about_types k -> access_new b k root s = Ok sp ->
  indices s [0] /\ sp = {| sp_root := root; sp_parts := [0]; sp_acc := []; sp_bit := 0 |}.
Proof. exact type_access. Qed.
Print Assumptions C56_type_access.
Theorem C56_type_access_refused : forall b k root s l id ty, about_types k -> indices s l -> l <> [0] ->
  resolve_type (b_types b) root = Ok id -> type_by_id (b_types b) id = Ok ty ->
  access_new b k root s = Err RInvalidAccessString.
Proof. exact type_access_other. Qed.
Print Assumptions C56_type_access_refused.
Example C56_type_ex : about_types TSize /\ indices (txt "0") [0] /\ indices (txt "0:1") [0; 1].
Proof. split; [unfold about_types; auto|]. split; apply parts_indices; vm_compute; reflexivity. Qed.

(** C59: the value of a relocation about existence says whether a target was
    found. *)
Theorem C59_existence : forall be lb tb k ls ts, about_existence k -> exists c t,
  compute be lb tb k ls ts = Ok c /\ c_target c = Some t /\ (v_value t = 1 <-> ts <> None) /\ (v_value t = 0 <-> ts = None).
Proof. exact existence. Qed.
Print Assumptions C59_existence.
Example C59_existence_ex : about_existence FExists /\ about_existence TExists /\ about_existence EExists /\ ~ about_existence TSize.
Proof. unfold about_existence. repeat split; auto. intros [H|[H|H]]; discriminate H. Qed.

(** The offset of an element of an array counts the bytes before it. *)
Theorem C59_element : forall be b s a r, last_acc (sp_acc s) = Some a -> ac_name a = None ->
  compute_field be b FByteOffset (Some s) = Ok r ->
  8 * v_value r <= sp_bit s < 8 * v_value r + 8 /\ v_type r = Some (ac_type a) /\
  exists n, type_size (b_types b) (ac_type a) = Ok n /\ v_size r = u32 n.
Proof. exact element_offset. Qed.
Print Assumptions C59_element.

(** C57: for relocations about types, a candidate is a target exactly if the
    types are compatible. *)
Theorem C57_types : forall stack lb tb k ls cid, about_types k ->
  (forall ts, match_candidate stack lb tb k ls cid = Ok (Some ts) <->
     compat stack (b_types lb) (b_types tb) (sp_root ls) cid = CRes (Ok true) /\
     ts = {| sp_root := cid; sp_parts := []; sp_acc := []; sp_bit := 0 |}) /\
  (match_candidate stack lb tb k ls cid = Ok None <->
     compat stack (b_types lb) (b_types tb) (sp_root ls) cid = CRes (Ok false)).
Proof. exact type_matches. Qed.
Print Assumptions C57_types.

(** The depth at which matching gives up is that of libbpf. *)
Theorem C57_depth : forall tb first a tid sp t sp', match_index tb first a tid sp = Ok (Some (t, sp')) ->
  length (sp_parts sp) <> deepest.
Proof. exact depth_ok. Qed.
Print Assumptions C57_depth.
Theorem C57_depth_refused : forall tb first a tid sp, match_index tb first a tid sp = Err RMaxNesting ->
  length (sp_parts sp) = deepest.
Proof. exact depth_err. Qed.
Print Assumptions C57_depth_refused.

(** C21: the width of a load changes only between pointers and between
    unsigned integers; it is refused for others. *)
Theorem C21_resizable : forall lb tb l t c c', v_size l <> v_size t -> resize lb tb l t c = Ok c' ->
  exists li ti lty tty, v_type l = Some li /\ v_type t = Some ti /\ type_by_id (b_types lb) li = Ok lty /\
    type_by_id (b_types tb) ti = Ok tty /\ resizable lty tty.
Proof. exact resize_ok. Qed.
Print Assumptions C21_resizable.
Theorem C21_not_resizable : forall lb tb l t c li ti lty tty, v_size l <> v_size t -> v_type l = Some li -> v_type t = Some ti ->
  type_by_id (b_types lb) li = Ok lty -> type_by_id (b_types tb) ti = Ok tty -> ~ resizable lty tty ->
  resize lb tb l t c = Err RInvalidInsn.
Proof. exact resize_refused. Qed.
Print Assumptions C21_not_resizable.
Example C21_signed_ex : signed_int 16777248 /\ ~ signed_int 32.
Proof. split; [reflexivity|discriminate]. Qed.
