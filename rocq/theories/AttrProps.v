(** C101: attribute macros emit what their arguments ask for. *)
From Coq Require Import String Permutation.
From Verif Require Import Base Text ObjModel AttrModel AttrSpec AttrProofs AttrProofs2 AttrProofs3.
Local Open Scope Z_scope.

(** A program attribute is accepted exactly when its tokens ask for a section,
    on a function; what it emits suits that. Everything else is a compile
    error. *)
Theorem C101_program : forall a t it o,
  expand a t it = Ok (OProgram o) <-> exists name s k, it = ItFn name /\ means a t s k /\ suits a name s k o.
Proof. exact program_iff. Qed.
Print Assumptions C101_program.

(** The loader takes the section for the kind of program asked for. *)
Theorem C101_loader : forall a t s k, means a t s k ->
  forall size, 0 < size -> section_kind s true size = KProgram /\ parse_psec s = Ok k.
Proof. exact means_ok. Qed.
Print Assumptions C101_loader.

(** Map attributes: the symbol is the name given or that of the static. *)
Theorem C101_map : forall a t it s n, expand a t it = Ok (OMap s n) <->
  exists ident l v, ((a = AtMap /\ s = txt "maps") \/ (a = AtBtfMap /\ s = txt ".maps")) /\ it = ItStatic ident /\ reads t l /\
    only [txt "name"] [] l /\ gives l (txt "name") v /\ n = match v with Some n => n | None => ident end.
Proof. exact map_expand. Qed.
Print Assumptions C101_map.

(** Arguments can come in any order. *)
Theorem C101_order : forall a t t' l l' it out, takes_arguments a = true -> reads t l -> reads t' l' -> Permutation l l' ->
  expand a t it = Ok out -> expand a t' it = Ok out.
Proof. exact expand_order. Qed.
Print Assumptions C101_order.

(** An argument given twice is an error. *)
Theorem C101_twice : forall a t l it, takes_arguments a = true -> reads t l -> ~ NoDup (map key l) -> exists e, expand a t it = Err e.
Proof. exact twice. Qed.
Print Assumptions C101_twice.

Definition sleepy : list token := [TIdent (txt "sleepable"); TComma; TIdent (txt "path"); TEq; TStr (txt "/bin/sh"); TComma; TIdent (txt "offset"); TEq; TStr (txt "+010");
  TComma; TIdent (txt "function"); TEq; TStr (txt "main"); TComma].
Example C101_sleepy : exists o, expand (AtUProbe false) sleepy (ItFn (txt "f")) = Ok (OProgram o) /\ o_section o = txt "uprobe.s/bin/sh:main+10".
Proof. eexists. split; vm_compute; reflexivity. Qed.
Example C101_words :
  expand AtCgroupSkb [TIdent (txt "sideways")] (ItFn (txt "f")) = Err EAttachType /\
  expand AtXdp [TIdent (txt "frags"); TComma; TIdent (txt "frags")] (ItFn (txt "f")) = Err (EInvalid [txt "frags"]) /\
  expand AtMap [TIdent (txt "name"); TEq; TStr (txt "M")] (ItStatic (txt "X")) = Ok (OMap (txt "maps") (txt "M")).
Proof. vm_compute. repeat split. Qed.

(** Not every argument accepted has an effect: the offset of a kprobe without
    a function and the function of a uprobe without a path are dropped without
    a word. *)
Theorem C101_ignored_refuted : exists a t l t' l' it out n v, takes_arguments a = true /\ reads t l /\ reads t' l' /\ l = AString n v :: l' /\
  expand a t it = Ok out /\ expand a t' it = Ok out.
Proof.
  exists (AtKProbe false), [TIdent (txt "offset"); TEq; TStr (txt "8")], [AString (txt "offset") (txt "8")], [], [], (ItFn (txt "f")).
  eexists. exists (txt "offset"), (txt "8"). split; [reflexivity|]. split; [exact (r_last (AString _ _))|]. split; [constructor|]. split; [reflexivity|].
  split; vm_compute; reflexivity.
Qed.
Print Assumptions C101_ignored_refuted.

Theorem C101_function_refuted : exists a t l t' l' it out n v, takes_arguments a = true /\ reads t l /\ reads t' l' /\ l = AString n v :: l' /\ n = txt "function" /\
  expand a t it = Ok out /\ expand a t' it = Ok out.
Proof.
  exists (AtUProbe true), [TIdent (txt "function"); TEq; TStr (txt "main")], [AString (txt "function") (txt "main")], [], [], (ItFn (txt "f")).
  eexists. exists (txt "function"), (txt "main"). split; [reflexivity|]. split; [exact (r_last (AString _ _))|]. split; [constructor|]. split; [reflexivity|].
  split; [reflexivity|]. split; vm_compute; reflexivity.
Qed.
Print Assumptions C101_function_refuted.
