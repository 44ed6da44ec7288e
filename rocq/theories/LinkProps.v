(** Property theorems C07-C10: function linking. *)
From Coq Require Import Sorting.Sorted.
From Verif Require Import Base Insn LinkModel LinkSpec LinkProofs LinkProofs2 LinkProofs3.
Local Open Scope Z_scope.

(** C07: the result is the entry function followed by copies of functions; each
    reference lands on the first instruction of a copy of the function it
    named; every other instruction is unchanged. *)
Theorem C07_calls_reach_what_they_named :
  forall o entry out,
    addresses_distinct o entry -> Z.of_nat (length (f_ins out)) < 2 ^ 31 ->
    link o entry = Ok out ->
    exists segs, well_linked o entry (f_ins out) segs /\
      (forall s f, In (s, f) (tl segs) -> reach o entry f) /\ NoDup (map snd (tl segs)).
Proof. exact link_well. Qed.
Print Assumptions C07_calls_reach_what_they_named.

(** C07, whole object: linking all programs, in any order, links each program
    as if it were alone, provided no program is called by another one, and
    succeeds exactly if each can be linked. *)
Theorem C07_programs_are_linked_independently :
  forall o progs,
    NoDup progs ->
    (forall sec a f g, In (sec, a) progs -> lookup_fun (o_funs o) sec a = Some f -> reach o f g ->
       ~ In (f_sec g, f_addr g) progs) ->
    ((exists funs', relocate_calls o progs = Ok funs') <->
     (forall sec a, In (sec, a) progs -> exists f g, lookup_fun (o_funs o) sec a = Some f /\ link o f = Ok g)) /\
    (forall funs', relocate_calls o progs = Ok funs' ->
    (forall sec a, In (sec, a) progs ->
       exists f g, lookup_fun (o_funs o) sec a = Some f /\ link o f = Ok g /\ lookup_fun funs' sec a = Some g) /\
    (forall sec a, ~ In (sec, a) progs -> lookup_fun funs' sec a = lookup_fun (o_funs o) sec a)).
Proof.
  intros o progs ND HC.
  assert (A : forall funs', relocate_calls o progs = Ok funs' ->
    (forall sec a, In (sec, a) progs ->
       exists f g, lookup_fun (o_funs o) sec a = Some f /\ link o f = Ok g /\ lookup_fun funs' sec a = Some g) /\
    (forall sec a, ~ In (sec, a) progs -> lookup_fun funs' sec a = lookup_fun (o_funs o) sec a)).
  { intros funs' H. exact (relocate_calls_spec o progs o funs' ND eq_refl eq_refl eq_refl eq_refl
      (fun sec a f g Hi Hl Hr => conj eq_refl (HC sec a f g Hi Hl Hr)) (fun sec a N => N) (fun p _ => eq_refl) H). }
  split; [|exact A]. split.
  - intros (funs' & H) sec a I. destruct (proj1 (A funs' H) sec a I) as (f & g & E1 & E2 & _). eauto.
  - exact (relocate_calls_all o progs o ND eq_refl eq_refl eq_refl eq_refl
      (fun sec a f g Hi Hl Hr => conj eq_refl (HC sec a f g Hi Hl Hr)) (fun sec a N => N) (fun p _ => eq_refl)).
Qed.
Print Assumptions C07_programs_are_linked_independently.

(** C08: for any call graph, linking terminates... *)
Theorem C08_linking_terminates : forall o entry, link o entry <> Err OutOfFuel.
Proof. exact link_never_out_of_fuel. Qed.
Print Assumptions C08_linking_terminates.

(** ... and succeeds when every reference reachable from the entry resolves. *)
Theorem C08_linking_succeeds :
  forall o entry, (forall h, h = entry \/ reach o entry h -> references_resolve o h) ->
    exists out, link o entry = Ok out.
Proof. exact link_succeeds. Qed.
Print Assumptions C08_linking_succeeds.

(** C08: exactly the reachable functions are appended, each once. *)
Theorem C08_each_reachable_callee_once :
  forall o entry out,
    keys_unique o -> addresses_distinct o entry -> Z.of_nat (length (f_ins out)) < 2 ^ 31 ->
    link o entry = Ok out ->
    exists segs, well_linked o entry (f_ins out) segs /\ NoDup (map snd (tl segs)) /\
      (forall f, In f (map snd (tl segs)) <-> reach o entry f).
Proof.
  intros o entry out HK HD HL H. destruct (link_well o entry out HD HL H) as (segs & W & R & N).
  exists segs. split; [exact W|]. split; [exact N|]. intros f. split.
  - intros Hf. apply in_map_iff in Hf. destruct Hf as ([s g] & <- & Hin). exact (R s g Hin).
  - intros Hf. destruct (reach_included o entry out segs HK W f Hf) as (s & Hs). apply in_map_iff. exists (s, f). auto.
Qed.
Print Assumptions C08_each_reachable_callee_once.

(** C10: the records of the result are the entry's, followed by those of each
    appended function moved by as much as its code; hypothesis [described]: the
    first line record of each callee is about its first instruction. *)
Theorem C10_infos_follow_the_code :
  forall o base entry out,
    (forall g, reach o entry g -> described base g) -> Z.of_nat (length (f_ins out)) < 2 ^ 31 ->
    link o entry = Ok out ->
    exists segs, (exists r, segs = (0%nat, entry) :: r) /\ tiles 0 segs (length (f_ins out)) /\
      (forall s f k x, In (s, f) segs -> nth_error (f_ins f) k = Some x ->
         exists y, nth_error (f_ins out) (s + k) = Some y /\ code y = code x /\ dst y = dst x /\ off y = off x) /\
      f_finfo out = f_finfo entry ++ flat_map (moved base f_finfo) (tl segs) /\
      f_linfo out = f_linfo entry ++ flat_map (moved base f_linfo) (tl segs).
Proof. exact link_infos_spec. Qed.
Print Assumptions C10_infos_follow_the_code.

(** C10: parsing attaches records with which [described] holds, if the
    section's line records are sorted and one is about the function's start. *)
Theorem C10_parsed_functions_are_described :
  forall f recs_f recs_l (p0 : Z) rewrite offset,
    0 <= offset -> offset mod 8 = 0 -> offset / 8 + Z.of_nat (length (f_ins f)) < 2 ^ 32 -> (0 < length (f_ins f))%nat ->
    (forall r, In r recs_l -> 0 <= fst r) -> StronglySorted (fun a b => fst a <= fst b) recs_l -> In (offset / 8, p0) recs_l ->
    f_finfo f = pick_finfo recs_f offset rewrite ->
    f_linfo f = pick_linfo recs_l offset (8 * Z.of_nat (length (f_ins f))) rewrite ->
    forall base, base f = (if rewrite then 0 else offset / 8) -> described base f.
Proof. exact pick_described. Qed.
Print Assumptions C10_parsed_functions_are_described.

(* ------------------------------------------------------------------ *)
(** ** Concrete cases *)
Definition xcall i := {| code := CALL_CODE; dst := 0; src := BPF_PSEUDO_CALL; off := 0; imm := i |}.
Definition xlddw i := {| code := LDDW_CODE; dst := 1; src := 0; off := 0; imm := i |}.
Definition xnop := {| code := 0; dst := 0; src := 0; off := 0; imm := 0 |}.
Definition xexit := {| code := 149; dst := 0; src := 0; off := 0; imm := 0 |}.
Definition xmov i := {| code := 183; dst := 0; src := 0; off := 0; imm := i |}.
Definition xsym sec kind addr : symbol :=
  {| s_section := Some sec; s_name := Some [65]; s_address := addr; s_size := 8; s_def := true; s_kind := kind; s_weak := false |}.

(** Mutually recursive callees, a section-relative call, a function address. *)
Definition l_entry := {| f_sec := 3; f_addr := 64; f_secoff := 64; f_ins := [xcall (-1); xexit]; f_finfo := [(0, 90)]; f_linfo := [(0, 91); (1, 92)] |}.
Definition l_f1 := {| f_sec := 1; f_addr := 0; f_secoff := 0; f_ins := [xcall 1; xexit]; f_finfo := [(0, 93)]; f_linfo := [(0, 94); (1, 95)] |}.
Definition l_f2 := {| f_sec := 1; f_addr := 16; f_secoff := 16; f_ins := [xcall (-3); xlddw 16; xnop; xexit]; f_finfo := [(2, 96)]; f_linfo := [(2, 97); (5, 98)] |}.
Definition l_obj := {|
  o_funs := [l_entry; l_f1; l_f2];
  o_relocs := fun sec off =>
    if Nat.eqb sec 3 && (off =? 64) then Some {| r_offset := 64; r_size := 32; r_sym := 0 |}
    else if Nat.eqb sec 1 && (off =? 24) then Some {| r_offset := 24; r_size := 64; r_sym := 0 |} else None;
  o_syms := fun n => match n with O => Some (xsym 1 KSection 0) | _ => None end;
  o_text := fun sec => Nat.eqb sec 1 |}.

Example C07_case : exists out, link l_obj l_entry = Ok out /\
  f_ins out = [xcall 1; xexit; xcall 1; xexit; xcall (-3); set_src 4 (xlddw (-2)); xnop; xexit] /\
  f_finfo out = [(0, 90); (2, 93); (4, 96)] /\
  f_linfo out = [(0, 91); (1, 92); (2, 94); (3, 95); (4, 97); (7, 98)].
Proof. eexists. split; [vm_compute; reflexivity|]. vm_compute. auto. Qed.

Lemma reach_in o f g : reach o f g -> In g (o_funs o).
Proof. induction 1 as [f g (k & x & sec & a & _ & _ & H & _)|]; auto. Qed.

Example C07_case_distinct : addresses_distinct l_obj l_entry /\ keys_unique l_obj.
Proof.
  split.
  - intros g h Hg Hh. apply reach_in in Hg, Hh. cbn in Hg, Hh.
    destruct Hg as [<-|[<-|[<-|[]]]], Hh as [<-|[<-|[<-|[]]]]; cbn; intros E; congruence || (exfalso; vm_compute in E; discriminate).
  - intros g h Hg Hh _. cbn in Hg, Hh.
    destruct Hg as [<-|[<-|[<-|[]]]], Hh as [<-|[<-|[<-|[]]]]; cbn; intros E; congruence || (exfalso; vm_compute in E; discriminate).
Qed.

Example C10_case_described : forall g, reach l_obj l_entry g -> described (fun f => if Nat.eqb (f_sec f) 3 then 0 else f_secoff f / 8) g.
Proof.
  intros g Hg. apply reach_in in Hg. cbn in Hg. destruct Hg as [<-|[<-|[<-|[]]]];
    (split; [|split]); cbn; intros r Hr;
    repeat match goal with
    | H : _ \/ _ |- _ => destruct H
    | H : False |- _ => contradiction
    end; subst; try (vm_compute; auto; fail); try (vm_compute; split; [discriminate|reflexivity]);
    intros E; inversion E; reflexivity.
Qed.

(** C09: functions at the same address of two executable sections are confused:
    the second call of the entry names [c_b] but reaches [c_a]; no copy of
    [c_b] is in the result at all. *)
Definition c_entry := {| f_sec := 3; f_addr := 0; f_secoff := 0; f_ins := [xcall (-1); xcall (-1); xexit]; f_finfo := []; f_linfo := [] |}.
Definition c_a := {| f_sec := 1; f_addr := 0; f_secoff := 0; f_ins := [xmov 1; xexit]; f_finfo := []; f_linfo := [] |}.
Definition c_b := {| f_sec := 2; f_addr := 0; f_secoff := 0; f_ins := [xmov 2; xexit]; f_finfo := []; f_linfo := [] |}.
Definition c_obj := {|
  o_funs := [c_entry; c_a; c_b];
  o_relocs := fun sec off =>
    if Nat.eqb sec 3 && (off =? 0) then Some {| r_offset := 0; r_size := 32; r_sym := 0 |}
    else if Nat.eqb sec 3 && (off =? 8) then Some {| r_offset := 8; r_size := 32; r_sym := 1 |} else None;
  o_syms := fun n => match n with O => Some (xsym 1 KText 0) | 1%nat => Some (xsym 2 KText 0) | _ => None end;
  o_text := fun sec => Nat.eqb sec 1 || Nat.eqb sec 2 |}.

Theorem C09_same_address_refuted :
  exists o entry out g k x y,
    keys_unique o /\ link o entry = Ok out /\
    In g (o_funs o) /\ nth_error (f_ins entry) k = Some x /\ names o entry k x (f_sec g) (f_addr g) /\
    (forall j z sec a, nth_error (f_ins g) j = Some z -> ~ names o g j z sec a) /\
    nth_error (f_ins out) k = Some y /\
    slice (Z.to_nat (Z.of_nat k + 1 + imm y)) (length (f_ins g)) (f_ins out) <> f_ins g /\
    (forall p, slice p (length (f_ins g)) (f_ins out) <> f_ins g).
Proof.
  exists c_obj, c_entry. eexists. exists c_b, 1%nat, (xcall (-1)), (xcall 1).
  split.
  { intros g h Hg Hh. cbn in Hg, Hh. destruct Hg as [<-|[<-|[<-|[]]]], Hh as [<-|[<-|[<-|[]]]]; cbn; intros E; congruence. }
  split; [vm_compute; reflexivity|].
  split; [cbn; auto|]. split; [reflexivity|]. split; [apply target_names; vm_compute; reflexivity|].
  split.
  { intros [|[|[|j]]] z sec a Hz Hn; cbn in Hz; inversion Hz; subst; apply target_names in Hn; vm_compute in Hn; discriminate. }
  split; [reflexivity|]. split; [vm_compute; discriminate|].
  intros p. do 6 (destruct p as [|p]; [vm_compute; discriminate|]). cbn. destruct p; discriminate.
Qed.
Print Assumptions C09_same_address_refuted.

(** C09 holds where addresses of reachable callees differ: two references that
    land on the same instruction named the same function. *)
Theorem C09_distinct_addresses_partial :
  forall o entry out, addresses_distinct o entry -> Z.of_nat (length (f_ins out)) < 2 ^ 31 ->
  link o entry = Ok out ->
  exists segs, well_linked o entry (f_ins out) segs /\
    forall s f k x y g s' f' k' x' y' g',
      In (s, f) segs -> nth_error (f_ins f) k = Some x -> nth_error (f_ins out) (s + k) = Some y ->
      In (s', f') segs -> nth_error (f_ins f') k' = Some x' -> nth_error (f_ins out) (s' + k') = Some y' ->
      In g (o_funs o) -> In g' (o_funs o) -> f_ins g <> [] -> f_ins g' <> [] ->
      keys_unique o ->
      names o f k x (f_sec g) (f_addr g) -> names o f' k' x' (f_sec g') (f_addr g') ->
      Z.of_nat (s + k) + 1 + imm y = Z.of_nat (s' + k') + 1 + imm y' -> g = g'.
Proof. exact link_separate. Qed.
Print Assumptions C09_distinct_addresses_partial.

(** C10: without a line record at the function's start the offsets are wrong:
    the record about instruction 1 of the callee (position 3 of the result) is
    emitted for position 2. *)
Definition i_entry := {| f_sec := 3; f_addr := 64; f_secoff := 64; f_ins := [xcall (-1); xexit]; f_finfo := []; f_linfo := [] |}.
Definition i_f := {| f_sec := 1; f_addr := 0; f_secoff := 0; f_ins := [xmov 1; xexit]; f_finfo := []; f_linfo := [(1, 95)] |}.
Definition i_obj := {|
  o_funs := [i_entry; i_f];
  o_relocs := fun sec off => if Nat.eqb sec 3 && (off =? 64) then Some {| r_offset := 64; r_size := 32; r_sym := 0 |} else None;
  o_syms := fun n => match n with O => Some (xsym 1 KText 0) | _ => None end;
  o_text := fun sec => Nat.eqb sec 1 |}.

Theorem C10_line_info_without_first_record_refuted :
  exists o entry g out,
    link o entry = Ok out /\ In g (o_funs o) /\ f_secoff g = 0 /\ f_linfo g = [(1, 95)] /\
    f_ins out = f_ins entry ++ f_ins g /\ length (f_ins entry) = 2%nat /\
    f_linfo out = [(2, 95)] /\ nth_error (f_ins out) 3 = nth_error (f_ins g) 1.
Proof.
  exists i_obj, {| f_sec := 3; f_addr := 64; f_secoff := 64; f_ins := [xcall 1; xexit]; f_finfo := []; f_linfo := [] |}, i_f.
  eexists. split; [vm_compute; reflexivity|]. cbn. auto 10.
Qed.
Print Assumptions C10_line_info_without_first_record_refuted.

(** C07: when a program calls another program the outcome depends on the order
    in which the programs are linked. *)
Definition p_1 := {| f_sec := 3; f_addr := 128; f_secoff := 128; f_ins := [xcall (-1); xexit]; f_finfo := []; f_linfo := [] |}.
Definition p_2 := {| f_sec := 4; f_addr := 64; f_secoff := 64; f_ins := [xcall (-1); xexit]; f_finfo := []; f_linfo := [] |}.
Definition p_h := {| f_sec := 1; f_addr := 0; f_secoff := 0; f_ins := [xcall 1; xexit]; f_finfo := []; f_linfo := [] |}.
Definition p_h2 := {| f_sec := 1; f_addr := 16; f_secoff := 16; f_ins := [xexit]; f_finfo := []; f_linfo := [] |}.
Definition p_obj := {|
  o_funs := [p_1; p_2; p_h; p_h2];
  o_relocs := fun sec off =>
    if Nat.eqb sec 3 && (off =? 128) then Some {| r_offset := 128; r_size := 32; r_sym := 0 |}
    else if Nat.eqb sec 4 && (off =? 64) then Some {| r_offset := 64; r_size := 32; r_sym := 1 |} else None;
  o_syms := fun n => match n with O => Some (xsym 4 KText 64) | 1%nat => Some (xsym 1 KText 0) | _ => None end;
  o_text := fun sec => Nat.eqb sec 1 |}.

Theorem C07_program_calling_program_refuted :
  exists o p q, keys_unique o /\
    (forall h, In h (o_funs o) -> exists out, link o h = Ok out) /\
    (exists funs', relocate_calls o [p; q] = Ok funs') /\
    relocate_calls o [q; p] = Err UnknownFunction.
Proof.
  exists p_obj, (3%nat, 128), (4%nat, 64). split.
  { intros g h Hg Hh. cbn in Hg, Hh. destruct Hg as [<-|[<-|[<-|[<-|[]]]]], Hh as [<-|[<-|[<-|[<-|[]]]]]; cbn; intros E E2; congruence || discriminate. }
  split.
  { intros h Hh. cbn in Hh. destruct Hh as [<-|[<-|[<-|[<-|[]]]]]; eexists; vm_compute; reflexivity. }
  split; [eexists; vm_compute; reflexivity|vm_compute; reflexivity].
Qed.
Print Assumptions C07_program_calling_program_refuted.
