(** Property C105: the binding generator for users. *)
From Coq Require Import String.
From Verif Require Import Base Text TextSplit LogModel ToolModel ToolSpec ToolProofs.
Local Open Scope Z_scope.

Theorem C105_command M i types flags out rest pv ub ua uo : generate M i types flags = Ok out -> prefix_given flags rest pv ->
  ~ In (txt "--") types -> pv <> Some (txt "--") -> splits rest ub ua -> opts ub = Some uo ->
  exists args o before os, ran_bindgen M i args o /\ o_success o = true /\ o_stdout o = out /\
    splits args before (txt "-Wno-unknown-attributes" :: ua) /\ opts before = Some (os ++ uo) /\ (forall x, In x wanted_flags -> In x os) /\
    given (txt "--ctypes-prefix") (os ++ uo) = (match pv with Some v => v | None => the_prefix end) :: given (txt "--ctypes-prefix") uo /\
    given (txt "--allowlist-type") (os ++ uo) = types ++ given (txt "--allowlist-type") uo.
Proof. exact (command_right M i types flags out rest pv ub ua uo). Qed.
Print Assumptions C105_command.

Theorem C105_combine s1 s2 a1 b1 a2 b2 : splits s1 a1 b1 -> splits s2 a2 b2 -> splits (combine_flags s1 s2) (a1 ++ a2) (b1 ++ b2).
Proof. exact (combine_splits s1 s2 a1 b1 a2 b2). Qed.
Print Assumptions C105_combine.

Theorem C105_works M i types flags h : header_of M i h -> utf8 h = true ->
  (forall p, i = Header p -> exists d n, (p = d ++ 47 :: n \/ p = n) /\ ~ In 47 n /\ n <> [] /\ n <> txt ".." /\ utf8 n = true) ->
  (forall args f, exists o, m_run M (txt "bindgen") args f = Some o /\ o_success o = true /\ utf8 (o_stdout o) = true) -> exists out, generate M i types flags = Ok out.
Proof. exact (generate_works M i types flags h). Qed.
Print Assumptions C105_works.

Theorem C105_errors M i types flags e : generate M i types flags = Err e -> fails_as M i e.
Proof. exact (errors M i types flags e). Qed.
Print Assumptions C105_errors.

Theorem C105_input M btf header names args : tool M btf header names args =
  generate M (match header, btf with Some h, _ => Header h | None, Some b => Btf b | None, None => Btf (txt "/sys/kernel/btf/vmlinux") end) names args.
Proof. exact (tool_input M btf header names args). Qed.
Print Assumptions C105_input.

Theorem C105_equals_refuted : exists flags uo, opts flags = Some uo /\ given (txt "--ctypes-prefix") uo = [txt "::cty"] /\
  forall M i types out ua, generate M i types (flags ++ ua) = Ok out -> ua = [] -> ~ In (txt "--") types ->
  exists args o before os, ran_bindgen M i args o /\ splits args before [txt "-Wno-unknown-attributes"] /\ opts before = Some os /\ given (txt "--ctypes-prefix") os = [the_prefix; txt "::cty"].
Proof. exact equals_refuted. Qed.
Print Assumptions C105_equals_refuted.

Theorem C105_clang_refuted : exists flags before after rest pv, splits flags before after /\ before = [] /\ prefix_given flags rest pv /\ pv <> None /\ ~ splits rest before after.
Proof. exact clang_refuted. Qed.
Print Assumptions C105_clang_refuted.

Theorem C105_siblings_refuted M d name other h c args o : fresh_temp M -> ran_bindgen M (Header (d ++ 47 :: name)) args o -> ~ In 47 name -> ~ In 47 other -> other <> name ->
  m_files M (d ++ 47 :: name) = Some h -> m_files M (d ++ 47 :: other) = Some c ->
  exists f, m_run M (txt "bindgen") ((m_temp M ++ 47 :: name) :: args) f = Some o /\ f (m_temp M ++ 47 :: name) = Some h /\ f (m_temp M ++ 47 :: other) = None.
Proof. exact (siblings_refuted M d name other h c args o). Qed.
Print Assumptions C105_siblings_refuted.

(** Such machines exist, and the arguments asked for are possible. *)
Example C105_demo : fresh_temp lenient /\ (exists out, generate lenient (Header (txt "/src/a.h")) [txt "s"] [txt "--ctypes-prefix=::cty"] = Ok out) /\
  (exists out, tool lenient None None [txt "s"] [txt "--ctypes-prefix"; txt "::cty"; txt "--"; txt "-I."] = Ok out) /\
  exists args o, ran_bindgen lenient (Header (txt "/src" ++ 47 :: txt "a.h")) args o.
Proof.
  split; [|split; [|split]].
  - intros p [n [-> N]]. cbn [m_files lenient m_temp]. rewrite !(proj2 (str_eqb_neq _ _)); [reflexivity| |]; cbn [app]; discriminate.
  - eexists. vm_compute. reflexivity.
  - eexists. vm_compute. reflexivity.
  - eexists [], _. exists (txt "#include ""b.h"""), (txt "a.h"). split; [reflexivity|]. split; [vm_compute; intros I; repeat (destruct I as [I|I]; [discriminate I|]); exact I|].
    split; [right; exists (txt "/src"); reflexivity|reflexivity].
Qed.
Example C105_given : prefix_given [txt "--ctypes-prefix"; txt "::cty"; txt "--"; txt "-I."] ([] ++ [txt "--"; txt "-I."]) (Some (txt "::cty")) /\
  splits ([] ++ [txt "--"; txt "-I."]) [] [txt "-I."].
Proof. split; [constructor; [reflexivity|intros []]|]. split; [intros []|left; reflexivity]. Qed.
