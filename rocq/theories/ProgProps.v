(** C76-C79: loading programs and attaching them. *)
From Coq Require Import String.
From Verif Require Import Base Text ObjModel BtfModel BtfExt BtfExtSpec BtfExtProps SysModel ProgModel ProgSpec ProgProofs ProgProofs2.
Local Open Scope Z_scope.

(** * C76: a program is loaded as the kind its section names *)

(** Every section name of the table is accepted, with any further name where
    one may follow, and every load request of the program has the table's
    type, attach type and flags; a hook is looked up as the table says and its
    id is in the request. *)
Theorem C76_table : forall r s, In r table -> matches r s ->
  exists ps, parse_psec s = Ok ps /\
    forall k running t name o btf level q, In q (requests k running false ps t name o btf level) -> asked r t q.
Proof. exact table_requests. Qed.
Print Assumptions C76_table.

(** No other section name is accepted. *)
Theorem C76_complete : forall s ps, parse_psec s = Ok ps ->
  exists r, In r table /\ matches r s /\
    forall k running t name o btf level q, In q (requests k running false ps t name o btf level) -> asked r t q.
Proof. exact table_complete. Qed.
Print Assumptions C76_complete.

(** A program listed as an extension is loaded as one whatever its section is
    called, for the function of the target program. *)
Theorem C76_extension : forall k running ps fd n btf name o prog_btf level q,
  In q (requests k running true ps (TProgram fd n btf) name o prog_btf level) ->
  q_type q = 28 /\ q_attach q = 0 /\ q_flags q = 0 /\ q_target q = fd /\
  exists bfd lookup, btf = Some (bfd, lookup) /\ lookup n 12 = Some (q_btf_id q).
Proof. exact extension_requests. Qed.
Print Assumptions C76_extension.

Definition accept : loader := fun _ q => (Ok 7, match q_log q with Some b => b | None => [] end).
Definition code : object :=
  {| ob_license := txt "GPL"; ob_version := None; ob_insns := [183; 149]; ob_func := []; ob_func_rec := 0; ob_line := []; ob_line_rec := 0 |}.
Definition one_btf (n : list Z) (bk id : Z) : list Z -> Z -> option Z := fun n' bk' => if str_eqb n n' && (bk =? bk') then Some id else None.
Example C76_example :
  (exists r, In r table /\ matches r (txt "fentry.s/tcp_v4_connect") /\ r_type r = 26 /\ r_flags r = 16) /\
  map (fun q => (q_type q, q_attach q, q_flags q, q_btf_id q))
    (requests accept 0 false (PFEntry true) (THook (txt "f") (one_btf (txt "f") 12 99)) (Some (txt "p")) code None 1) = [(26, 24, 16, 99)] /\
  map (fun q => (q_type q, q_attach q, q_flags q, q_btf_id q))
    (requests accept 0 false (PLsm false) (THook (txt "f") (one_btf (txt "bpf_lsm_f") 12 99)) (Some (txt "p")) code None 1) = [(29, 27, 0, 99)].
Proof.
  split; [|split; vm_compute; reflexivity]. exists (hook "fentry.s" 26 24 16 "" 12). split; [cbn; tauto|]. split; [|split; reflexivity].
  right. split; [reflexivity|]. exists (txt "tcp_v4_connect"). reflexivity.
Qed.

(** * C77: a load request carries the program's own data *)

(** Name, flags, code, licence, version and log are the program's own. *)
Theorem C77_content : forall k running p t d q, In q (snd (load k running p t d)) -> exists o, d_obj d = Some o /\ own running d o q.
Proof. exact ld_own. Qed.
Print Assumptions C77_content.

(** A retry asks for the same thing. *)
Theorem C77_retries : forall k running p t d q q', In q (snd (load k running p t d)) -> In q' (snd (load k running p t d)) -> same_but_log q q'.
Proof. exact ld_same. Qed.
Print Assumptions C77_retries.

(** A program that is loaded already, that comes from a pin or whose name has
    a zero byte is refused without asking the kernel. *)
Theorem C77_refused : forall k running p t d,
  (d_fd d <> None \/ d_obj d = None \/ exists n, d_name d = Some n /\ In 0 n) ->
  snd (load k running p t d) = [] /\ exists e, fst (fst (load k running p t d)) = Err e.
Proof. exact ld_refused. Qed.
Print Assumptions C77_refused.

(** Otherwise there are between one and eleven requests; all but the last were
    refused and the last one's answer is the outcome, its descriptor the
    program's. *)
Theorem C77_outcome : forall k running p t d r d' qs, honest k ->
  ~ (d_fd d <> None \/ d_obj d = None \/ exists n, d_name d = Some n /\ In 0 n) -> found p t -> load k running p t d = (r, d', qs) ->
  (1 <= length qs <= 11)%nat /\
  exists pre q, qs = pre ++ [q] /\
    (forall fd, r = Ok tt -> d_fd d' = Some fd <-> fst (k (length pre) q) = Ok fd) /\
    (forall e log, r = Err (PLoad e log) -> fst (k (length pre) q) = Err e) /\
    (forall i c, nth_error pre i = Some c -> exists e, fst (k i c) = Err e).
Proof. exact ld_calls. Qed.
Print Assumptions C77_outcome.
Example C77_example :
  honest accept /\
  (let d := data_new (Some (txt "a_name_longer_than_the_field")) code (Some 5) 1 0 in
   ~ (d_fd d <> None \/ d_obj d = None \/ exists n, d_name d = Some n /\ In 0 n) /\ found KTracePoint TNone /\
   map (fun q => (q_name q, q_version q, q_btf_fd q)) (snd (load accept 395008 KTracePoint TNone d)) = [(txt "a_name_longer_t" ++ [0], 395008, 5)]).
Proof.
  split; [intros i q; cbn; now destruct (q_log q)|]. cbv zeta. split; [|split; [split; [reflexivity|discriminate]|vm_compute; reflexivity]].
  intros [H|[H|(n & E & I)]]; [now apply H|discriminate H|]. cbn in E. apply some_inj in E. subst n. apply has_zero_in in I. vm_compute in I. discriminate I.
Qed.

(** The records of function and line information the kernel is told to read lie
    in the memory it is pointed to, when the object's record sizes are those of
    the structures. *)
Theorem C77_infos_partial : forall k running p t d o q, d_obj d = Some o -> 0 <= ob_func_rec o <= 8 -> 0 <= ob_line_rec o <= 16 ->
  In q (snd (load k running p t d)) -> infos_ok q.
Proof. exact ld_infos. Qed.
Print Assumptions C77_infos_partial.

(** An object whose records are longer, as the format allows, makes the kernel
    read beyond them: the records are packed to eight bytes and the size still
    announced as the object's. *)
Definition long_records (x : ext) : object :=
  {| ob_license := txt "GPL"; ob_version := None; ob_insns := [183; 149]; ob_func := snd (info_get (txt ".text") (x_funcs x)); ob_func_rec := x_func_rec x;
     ob_line := snd (info_get (txt ".text") (x_lines x)); ob_line_rec := x_line_rec x |}.
Theorem C77_infos_refuted :
  exists b blob x, ext_parse b false blob = Ok x /\
    exists q, In q (snd (load accept 0 KTracePoint TNone (data_new None (long_records x) (Some 5) 1 0))) /\
      q_func_cnt q * q_func_rec q = 24 /\ option_map (@length Z) (q_func q) = Some 16%nat /\ ~ infos_ok q.
Proof.
  exists strs, ex_blob. eexists. split; [exact C55_example|]. eexists. split; [cbn; left; reflexivity|].
  split; [vm_compute; reflexivity|]. split; [vm_compute; reflexivity|]. intros [H _]. vm_compute in H. now apply H.
Qed.
Print Assumptions C77_infos_refuted.

(** * C78: a failed load changes nothing *)

(** For a program without a target nothing changes. *)
Theorem C78_plain : forall k running p t d e d' qs, load k running p t d = (Err e, d', qs) -> hook_name p = None -> p <> KExtension -> d' = d.
Proof. intros k running p t d e d' qs H N E. destruct (ld_failed _ _ _ _ _ _ _ _ H) as (a & b & c & _ & X & _). now apply X. Qed.
Print Assumptions C78_plain.

(** Otherwise a target may have been recorded, but whether the program is
    loaded and how it is attached stay as they were, unless an extension was
    loaded already. *)
Theorem C78_attach_partial : forall k running p t d e d' qs, load k running p t d = (Err e, d', qs) -> (p <> KExtension \/ d_fd d = None) ->
  d_fd d' = d_fd d /\ forall link s, attach_req link p s d' = attach_req link p s d.
Proof. exact ld_failed_attach. Qed.
Print Assumptions C78_attach_partial.

(** A second load of an extension fails but redirects it: [attach] then
    replaces the function of the second target, not of the one the kernel
    checked the program for. *)
Theorem C78_extension_refuted :
  exists k t t' d d' d'', fst (fst (load k 0 KExtension t d)) = Ok tt /\ d' = snd (fst (load k 0 KExtension t d)) /\
    load k 0 KExtension t' d' = (Err PAlreadyLoaded, d'', []) /\
    attach_req true KExtension SNone d' = Ok (ALinkCreate 7 (WFd 20) 0 0 (Some 3)) /\
    attach_req true KExtension SNone d'' = Ok (ALinkCreate 7 (WFd 30) 0 0 (Some 4)).
Proof.
  exists accept, (TProgram 20 (txt "f") (Some (21, one_btf (txt "f") 12 3))), (TProgram 30 (txt "g") (Some (31, one_btf (txt "g") 12 4))),
    (data_new (Some (txt "e")) code (Some 5) 1 0).
  do 2 eexists. split; [vm_compute; reflexivity|]. split; [vm_compute; reflexivity|]. split; [vm_compute; reflexivity|]. split; vm_compute; reflexivity.
Qed.
Print Assumptions C78_extension_refuted.
Example C78_example :
  let reject : loader := fun _ q => (Err 22, match q_log q with Some b => b | None => [] end) in
  let d := data_new (Some (txt "e")) code (Some 5) 1 0 in
  exists d' qs, load reject 0 KFEntry (THook (txt "f") (one_btf (txt "f") 12 3)) d = (Err (PLoad 22 []), d', qs) /\ d' <> d.
Proof. cbv zeta. do 2 eexists. split; [vm_compute; reflexivity|discriminate]. Qed.

(** * C79: a program is attached as what it was loaded as *)

(** A request to attach is for the loaded program; without one it is not
    made. *)
Theorem C79_program : forall link p s d a, attach_req link p s d = Ok a -> d_fd d = Some (areq_prog a).
Proof. exact attach_loaded. Qed.
Print Assumptions C79_program.

(** It names the object the caller gave. *)
Theorem C79_site : forall link p s d a f, attach_req link p s d = Ok a -> site_fd s = Some f -> areq_fd a = Some f.
Proof. exact attach_site. Qed.
Print Assumptions C79_site.

(** An interface, a tracepoint and the socket options are passed as given;
    what hooks by its load needs no more. *)
Theorem C79_call : forall link p s d a, attach_req link p s d = Ok a -> call_ok (fst (kind_type p)) s a.
Proof. exact attach_call. Qed.
Print Assumptions C79_call.

(** An extension goes where it was last loaded for. *)
Theorem C79_extension : forall link s d a, attach_req link KExtension s d = Ok a ->
  areq_fd a = d_prog_fd d /\ exists g t id, a = ALinkCreate g (WFd t) 0 0 (Some id) /\ d_btf_id d = Some id.
Proof. exact attach_ext. Qed.
Print Assumptions C79_extension.

(** The attach type is the one of the program's section. *)
Theorem C79_type : forall r sec ps p fl link s d a t, In r table -> matches r sec -> parse_psec sec = Ok ps -> of_section false ps = (p, fl) ->
  attach_req link p s d = Ok a -> areq_type a = Some t -> attach_type_ok r s t.
Proof. exact attach_type_row. Qed.
Print Assumptions C79_type.

(** Detaching names the same program, object and type. *)
Theorem C79_detach : forall link p s d a g f t, attach_req link p s d = Ok a -> detach_req a = Some (g, f, t) ->
  g = areq_prog a /\ areq_fd a = Some f /\ areq_type a = Some t /\ d_fd d = Some g /\ site_fd s = Some f.
Proof. exact detach_same. Qed.
Print Assumptions C79_detach.

(** Before Linux 5.7 a program is attached to a cgroup in the mode the caller
    asked for. *)
Theorem C79_mode_partial : forall p s d a m, cgroup_kind p = true -> site_mode s = Some m -> attach_req false p s d = Ok a -> kernel_cgroup a = Ok m.
Proof. exact mode_old. Qed.
Print Assumptions C79_mode_partial.

(** From 5.7 on never: the exclusive mode becomes the shared one and the other
    two are refused. *)
Theorem C79_mode_refuted : forall p s d a m, cgroup_kind p = true -> site_mode s = Some m -> attach_req true p s d = Ok a ->
  kernel_cgroup a = match m with CSingle => Ok CAllowMultiple | _ => Err 22 end.
Proof. exact mode_new. Qed.
Print Assumptions C79_mode_refuted.
Example C79_example :
  let d := with_fd (Some 7) (data_new (Some (txt "e")) code (Some 5) 1 0) in
  attach_req false (KCgroupSock 2) (SFd 9 CAllowMultiple) d = Ok (AProgAttach 7 9 2 2) /\
  attach_req true (KCgroupSock 2) (SFd 9 CAllowMultiple) d = Ok (ALinkCreate 7 (WFd 9) 2 2 None) /\
  kernel_cgroup (AProgAttach 7 9 2 2) = Ok CAllowMultiple /\ kernel_cgroup (ALinkCreate 7 (WFd 9) 2 2 None) = Err 22.
Proof. vm_compute. auto. Qed.
