(** C97: an ELF file is parsed into what it contains. *)
From Coq Require Import String Permutation.
From Verif Require Import Base Text Insn LinkModel BtfTypes BtfModel BtfExt CoreModel BtfSanitize ExternModel ExternSpec ObjModel ObjSpec ObjProofs2 ObjProofs3 ObjProps
  CoreProps PinModel UtilModel TypedModel ProgModel WholeModel WholeSpec LoaderModel LoaderSpec LoaderProps ParseModel ParseSpec ParseProofs ParseProofs2 ParseProofs3 ParseProofs4 ParseProofs5 ParseProofs6 ParseProofs7.
Local Open Scope Z_scope.

(** The license and version are those of the sections of these names; all
    symbols have names and are kept in order. *)
Theorem C97_header e q : parse e = Ok q ->
  license_is e (q_license q) /\ version_is e (q_version q) /\ symbols_named e /\ p_big (q_obj q) = el_big e /\ p_syms (q_obj q) = map es_sym (el_syms e).
Proof.
  intros H. apply parse_steps in H as (t & l & H1 & H2 & H3 & H4 & H5 & H6). rewrite H6. split; [now apply license_read|]. split; [now apply version_read|].
  split; [now apply all_named_ok|]. split; reflexivity.
Qed.
Print Assumptions C97_header.

(** A file is accepted exactly if its license, version, names and BTF can be
    read and each section is as it should be. *)
Theorem C97_accepts e : regular e -> (exists q, parse e = Ok q) <->
  (exists l, license_is e l) /\ (exists v, version_is e v) /\ symbols_named e /\
  exists t, the_types e = Ok t /\ forall sec, of_object e sec -> section_ok e (ty_btf t) sec.
Proof. exact (parse_accepts e). Qed.
Print Assumptions C97_accepts.

(** The programs are the named function symbols of program sections. *)
Theorem C97_programs e q : regular e -> parse e = Ok q ->
  NoDup (map (fun p => (pg_index p, pg_addr p)) (p_progs (q_obj q))) /\
  forall p, In p (p_progs (q_obj q)) <-> exists sec k i s n, program_symbol e sec k i s /\ s_name s = Some n /\ p = the_program sec k s n.
Proof.
  intros R H. apply parse_steps in H as (t & l & _ & _ & _ & HT & HM & Q). rewrite Q. split; [exact (programs_keys e t l R HM)|exact (programs_are e t l R HM)].
Qed.
Print Assumptions C97_programs.

(** Functions come from symbols; each program has its own.  No two have the same
    section and address. *)
Theorem C97_functions e q : regular e -> parse e = Ok q -> exists x, ext_is e x /\
  NoDup (map (fun f => (f_sec f, f_addr f)) (p_funs (q_obj q))) /\
  (forall sec k i s, program_symbol e sec k i s -> exists f, In f (p_funs (q_obj q)) /\ function_of x sec s true f) /\
  (forall f, In f (p_funs (q_obj q)) ->
     (exists sec k i s, program_symbol e sec k i s /\ function_of x sec s true f) \/ (exists sec i s, text_symbol e sec i s /\ function_of x sec s false f)).
Proof.
  intros R H. apply parse_steps in H as (t & l & _ & _ & _ & HT & HM & Q). rewrite Q. exists (ty_ext t). split; [exact (types_ext e t HT)|].
  split; [exact (funs_keys e t l R HM)|]. split; [exact (program_function e t l R HM)|]. intros f I.
  destruct (funs_origin e t l R HM f I) as [(sec & k & i & s & S & _ & F)|(sec & i & s & S & _ & F)]; [left; exists sec, k, i, s|right; exists sec, i, s]; auto.
Qed.
Print Assumptions C97_functions.

(** The functions of a text section are the whole section. *)
Theorem C97_text e q sec : regular e -> parse e = Ok q -> of_object e sec -> kind_is sec KTextS ->
  exists r, ObjSpec.tiles sec 0 r /\ forall f, (In f (p_funs (q_obj q)) /\ f_sec f = os_index sec) <-> In f (map snd r).
Proof. intros R H. apply parse_steps in H as (t & l & _ & _ & _ & HT & HM & Q). rewrite Q. exact (text_tiled e t l R HM sec). Qed.
Print Assumptions C97_text.

(** Maps are those defined by sections, each name once.  If names are not used
    twice none is lost. *)
Theorem C97_maps e q : regular e -> parse e = Ok q -> exists b, p_btf (q_obj q) = b /\
  NoDup (map fst (p_maps (q_obj q))) /\
  (forall n m, In (n, m) (p_maps (q_obj q)) -> exists sec, of_object e sec /\ defines e b sec n m) /\
  (forall sec n m, of_object e sec -> defines e b sec n m -> exists m', In (n, m') (p_maps (q_obj q))) /\
  (maps_distinct e b -> forall sec n m, of_object e sec -> defines e b sec n m -> In (n, m) (p_maps (q_obj q))).
Proof.
  intros R H. apply parse_steps in H as (t & l & _ & _ & _ & HT & HM & Q). rewrite Q. exists (ty_btf t). split; [reflexivity|]. exact (maps_are e t R l HM).
Qed.
Print Assumptions C97_maps.

(** Relocations are those of code; of several for one offset the last. *)
Theorem C97_relocs e q : regular e -> parse e = Ok q ->
  (forall sec, of_object e sec -> kind_is sec KTextS \/ kind_is sec KProgram ->
     NoDup (map r_offset (p_relocs (q_obj q) (os_index sec))) /\
     forall r, In r (p_relocs (q_obj q) (os_index sec)) <-> last_of (map (fun r => (r_offset r, r)) (os_relocs sec)) (r_offset r) r) /\
  (forall i, (forall sec, of_object e sec -> kind_is sec KTextS \/ kind_is sec KProgram -> os_index sec <> i) -> p_relocs (q_obj q) i = []).
Proof.
  intros R H. apply parse_steps in H as (t & l & _ & _ & _ & HT & HM & Q). rewrite Q. split; [exact (relocs_at e t l R HM)|exact (relocs_none e t l R HM)].
Qed.
Print Assumptions C97_relocs.

(** Sizes of sections ... *)
Theorem C97_infos e q : parse e = Ok q -> NoDup (map fst (p_infos (q_obj q))) /\
  (forall n i z, In (n, (i, z)) (p_infos (q_obj q)) -> exists s, In s (el_secs e) /\ os_name s = n /\ os_index s = i /\ os_size s = z) /\
  (NoDup (map os_name (el_secs e)) -> forall s, of_object e s -> In (os_name s, (os_index s, os_size s)) (p_infos (q_obj q))).
Proof.
  intros H. apply parse_steps in H as (t & l & _ & _ & _ & HT & HM & Q). rewrite Q. split; [exact (infos_nodup e)|]. split; [exact (infos_in e)|].
  intros N s. exact (infos_all e s N).
Qed.
Print Assumptions C97_infos.
(** ... and offsets of variables. *)
Theorem C97_offsets e q : parse e = Ok q -> NoDup (map fst (p_offsets (q_obj q))) /\
  (forall n a, In (n, a) (p_offsets (q_obj q)) -> variable_at e n a) /\
  (forall n a, variable_at e n a -> exists a', In (n, a') (p_offsets (q_obj q))) /\
  (forall n a, variable_at e n a -> (forall a', variable_at e n a' -> a' = a) -> In (n, a) (p_offsets (q_obj q))).
Proof. intros H. apply parse_steps in H as (t & l & _ & _ & _ & HT & HM & Q). rewrite Q. exact (offsets_are e). Qed.
Print Assumptions C97_offsets.

(** BTF and kernel symbols, ... *)
Theorem C97_types e q : parse e = Ok q -> types_are e (q_obj q).
Proof. intros H. apply parse_steps in H as (t & l & _ & _ & _ & HT & HM & Q). rewrite Q. exact (types_spec e t l HT). Qed.
Print Assumptions C97_types.
(** ... of which none has been looked up and none is there twice. *)
Theorem C97_fresh e q : parse e = Ok q -> NoDup (map fst (p_externs (q_obj q))) /\ Forall fresh (p_externs (q_obj q)).
Proof. intros H. exact (externs_fresh e (q_obj q) (C97_types e q H)). Qed.
Print Assumptions C97_fresh.

(** The order of the sections does not matter if names are used once. *)
Theorem C97_order e e' q : regular e -> reordered e e' -> NoDup (map os_name (el_secs e)) -> parse e = Ok q -> (forall b, p_btf (q_obj q) = b -> maps_distinct e b) ->
  exists q', parse e' = Ok q' /\ q_license q' = q_license q /\ q_version q' = q_version q /\ same_object (q_obj q) (q_obj q').
Proof. intros R O N. exact (parse_order e e' R O N q). Qed.
Print Assumptions C97_order.

(** Loading a file loads the programs of the file, each once, ... *)
Theorem C97_loaded_programs c k e tg u a tg' u' : regular e -> load_elf c k e tg u = (Ok a, tg', u') ->
  NoDup (map (fun p => (pg_index p, pg_addr p)) (map ld_prog (e_progs a))) /\
  forall p, In p (map ld_prog (e_progs a)) <-> exists sec kd i s n, program_symbol e sec kd i s /\ s_name s = Some n /\ p = the_program sec kd s n.
Proof. exact (loaded_programs c k e tg u a tg' u'). Qed.
Print Assumptions C97_loaded_programs.
(** ... with the code of the file. *)
Theorem C97_loaded c k e tg u a tg' u' : regular e -> load_elf c k e tg u = (Ok a, tg', u') ->
  exists q ms fd o1 o2 tb, parse e = Ok q /\ configured c (q_obj q) ms /\ sent k (with_maps ms (q_obj q)) fd o1 /\ suited k tb o1 o2 /\
    (forall b, tb = Some b -> tg' = TParsed b) /\ (tb = None -> uses_target o1 -> unparsed tg /\ exists n, next_answer u = Err n) /\
    maps_of c k ms a (u_kernel u) (u_kernel u') /\ programs_of c k (q_obj q) fd a /\
    Forall2 framed (p_funs (q_obj q)) (p_funs o2) /\ p_relocs o2 = p_relocs (q_obj q) /\ programs_complete k o2 a.
Proof. exact (loaded_elf c k e tg u a tg' u'). Qed.
Print Assumptions C97_loaded.
(** Loading works exactly when the file is accepted and the object loads. *)
Theorem C97_works c k e tg u w : (exists a tg' u', load_elf c k e tg u = (Ok a, tg', u') /\ u_kernel u' = w) <->
  exists q ms fd o1 tb o2 l, parse e = Ok q /\ loadable c k (q_obj q) tg u ms fd o1 tb o2 l w.
Proof. exact (elf_works c k e tg u w). Qed.
Print Assumptions C97_works.
(** A file that is not accepted changes nothing. *)
Theorem C97_refused c k e tg u x : parse e = Err x -> load_elf c k e tg u = (Err (LParse x), tg, u).
Proof. intros H. unfold load_elf. now rewrite H. Qed.
Print Assumptions C97_refused.

(** * A file *)
Definition esect (i : nat) (n : list Z) (exec : bool) (data : list Z) (rs : list reloc) : osec :=
  {| os_index := i; os_name := n; os_exec := exec; os_address := 0; os_data := data; os_size := Z.of_nat (length data); os_relocs := rs |}.
Definition gl (s : symbol) : ParseModel.esym := {| es_sym := s; es_global := true |}.
Definition nul : ParseModel.esym :=
  {| es_sym := {| s_section := None; s_name := Some []; s_address := 0; s_size := 0; s_def := false; s_kind := KOther; s_weak := false |}; es_global := false |}.
Definition call_f : insn := {| Insn.code := 133; dst := 0; src := 1; off := 0; imm := -1 |}.
Definition file_secs : list osec :=
  [ esect 1 (txt ".text") true (flat_map enc_insn [xmov 5; ret]) [];
    esect 2 (txt "xdp") true (flat_map enc_insn [call_f; ret]) [{| r_offset := 0; r_size := 64; r_sym := 1%nat |}];
    esect 3 (txt "license") false (txt "GPL" ++ [0]) [];
    esect 4 (txt "maps") false (flat_map (le_enc 4) [1; 4; 8; 16; 0]) [];
    esect 5 (txt ".data") false [1; 2; 3; 4] [] ].
Definition file_syms : list ParseModel.esym :=
  [ nul; gl (ObjProps.esym (txt "f") 1 0 16 KText); gl (ObjProps.esym (txt "p") 2 0 16 KText); gl (ObjProps.esym (txt "m") 4 0 20 KData); gl (ObjProps.esym (txt "v") 5 0 4 KData) ].
Definition file (secs : list osec) : elf := {| el_big := false; el_secs := secs; el_syms := file_syms |}.
Definition shown (r : res oerr parsed) :=
  match r with
  | Ok q => Some (q_license q, map pg_name (p_progs (q_obj q)), map (fun f => (f_sec f, f_addr f, f_ins f)) (p_funs (q_obj q)),
                  map (fun m => (fst m, om_section (snd m), om_data (snd m))) (p_maps (q_obj q)), p_relocs (q_obj q) 2%nat)
  | Err _ => None
  end.
Example C97_ex_file : shown (parse (file file_secs)) =
  Some (txt "GPL", [txt "p"], [(1%nat, 0, [xmov 5; ret]); (2%nat, 0, [call_f; ret])], [(txt "m", 4%nat, []); (txt ".data", 5%nat, [1; 2; 3; 4])], [{| r_offset := 0; r_size := 64; r_sym := 1%nat |}]).
Proof. vm_compute. reflexivity. Qed.
Example C97_ex_loaded : codes (match fst (fst (load_elf (conf []) (kern (fun _ => true) (Ok 7) true) (file file_secs) TSystem (out0 []))) with Ok a => Ok a | Err _ => Err FPanic end) =
  [[{| Insn.code := 133; dst := 0; src := 1; off := 0; imm := 1 |}; ret; xmov 5; ret]].
Proof. vm_compute. reflexivity. Qed.
Lemma file_symbols i s : symbol_is (file file_secs) i s -> In (i, s) (numbered (file file_secs)).
Proof. apply numbered_in. Qed.
Lemma file_program sec k i s : program_symbol (file file_secs) sec k i s -> i = 2%nat.
Proof.
  intros ((I & _) & K & _ & (S & IX) & P). apply file_symbols in S. cbn in S.
  destruct S as [S|[S|[S|[S|[S|[]]]]]]; apply pair_equal_spec in S as [<- <-]; try discriminate P; [|reflexivity].
  cbn in IX. injection IX as IX. cbn in I. destruct I as [<-|[<-|[<-|[<-|[<-|[]]]]]]; try discriminate IX. vm_compute in K. discriminate K.
Qed.
Example C97_ex_regular : regular (file file_secs) /\ NoDup (map os_name (el_secs (file file_secs))) /\ maps_distinct (file file_secs) None.
Proof.
  split; [|split].
  - constructor.
    + vm_compute. repeat constructor; cbn; intuition discriminate.
    + intros sec I. cbn in I. destruct I as [<-|[<-|[<-|[<-|[<-|[]]]]]]; reflexivity.
    + intros s I. cbn in I. destruct I as [<-|[<-|[<-|[<-|[<-|[]]]]]]; unfold sym_ok; cbn; lia.
    + intros sec I. cbn in I. destruct I as [<-|[<-|[<-|[<-|[<-|[]]]]]]; vm_compute; reflexivity.
    + intros sec p i s sec' p' j s' A B _. rewrite (file_program _ _ _ _ A), (file_program _ _ _ _ B). reflexivity.
    + intros sec p i s j s' A B _. rewrite (file_program _ _ _ _ A), (file_program _ _ _ _ B). reflexivity.
  - vm_compute. repeat constructor; cbn; intuition discriminate.
  - assert (forall sec n m, of_object (file file_secs) sec -> defines (file file_secs) None sec n m ->
       n = txt "m" /\ sec = esect 4 (txt "maps") false (flat_map (le_enc 4) [1; 4; 8; 16; 0]) [] /\ (exists d, parse_map_def (flat_map (le_enc 4) [1; 4; 8; 16; 0]) = Ok d /\
         m = {| om_btf := false; om_kind := KMaps; om_section := 4; om_symbol := Some 3%nat; om_def := d; om_inner := None; om_data := [] |}) \/
       n = txt ".data" /\ Ok m = data_map (esect 5 (txt ".data") false [1; 2; 3; 4] []) KDataS) as G.
    { intros sec n m [I _] D. cbn in I. destruct I as [<-|[<-|[<-|[<-|[<-|[]]]]]]; destruct D as [k K KK D Q|i s d K [S IX] SN A B D Q|t h es x i s d K Q _];
        try (vm_compute in K; discriminate K); try discriminate Q; try (vm_compute in K; subst k; destruct KK as [KK|[KK|KK]]; discriminate KK).
      - left. apply file_symbols in S. cbn in S. destruct S as [S|[S|[S|[S|[S|[]]]]]]; apply pair_equal_spec in S as [<- <-]; try discriminate IX.
        cbn in SN. injection SN as <-. split; [reflexivity|]. split; [reflexivity|]. exists d. split; [exact D|exact Q].
      - right. vm_compute in K. subst k. split; [exact Q|]. now symmetry. }
    intros sec n m sec' m' O O' D D'. apply (G _ _ _ O) in D. apply (G _ _ _ O') in D'.
    destruct D as [(-> & _ & d & E1 & ->)|(-> & E1)], D' as [(Q & _ & d' & E2 & ->)|(Q & E2)]; try discriminate Q; congruence.
Qed.
Example C97_ex_order : exists q', parse (file (rev file_secs)) = Ok q' /\ q_license q' = txt "GPL".
Proof.
  destruct C97_ex_regular as (R & N & D). destruct (parse (file file_secs)) as [q|] eqn:P; [|vm_compute in P; discriminate P].
  destruct (C97_order (file file_secs) (file (rev file_secs)) q R) as (q' & P' & L & _); auto.
  - split; [reflexivity|]. split; [reflexivity|]. apply Permutation_rev.
  - intros b <-. pose proof (f_equal (fun r => match r with Ok q => p_btf (q_obj q) | Err _ => None end) P) as X. cbv beta iota in X. rewrite <- X. vm_compute (match _ with Ok _ => _ | Err _ => _ end). exact D.
  - exists q'. split; [exact P'|]. rewrite L. pose proof (f_equal (fun r => match r with Ok q => q_license q | Err _ => [] end) P) as X. cbv beta iota in X. rewrite <- X. vm_compute. reflexivity.
Qed.

(** A BTF with kernel symbols gets a placeholder for the functions. *)
Definition KN : list (list Z) := [txt ".ksyms"; txt "kf"; txt "kv"].
Definition kno (n : list Z) : Z := name_off KN n 1.
Definition kbtf : btf :=
  mk KN [new_func_proto [] 0; new_func (kno (txt "kf")) 1 2; new_var (kno (txt "kv")) 0 2;
         new_datasec (kno (txt ".ksyms")) [{| de_type := 2; de_off := 0; de_size := 0 |}; {| de_type := 3; de_off := 0; de_size := 0 |}] 0].
Definition undefined (n : list Z) (weak : bool) : ParseModel.esym :=
  gl {| s_section := None; s_name := Some n; s_address := 0; s_size := 0; s_def := false; s_kind := KOther; s_weak := weak |}.
Example C97_ex_ksyms : exists q b, parse {| el_big := false; el_secs := [esect 1 (txt ".BTF") false (btf_to_bytes kbtf) []]; el_syms := [nul; undefined (txt "kf") false; undefined (txt "kv") true] |} = Ok q /\
  p_btf (q_obj q) = Some b /\ p_ksyms (q_obj q) = Some (4, Some 6) /\ length (b_types b) = 7%nat /\
  map (fun x => (fst x, xd_weak (snd x), xd_type (snd x))) (p_externs (q_obj q)) = [(txt "kf", false, Some 1); (txt "kv", true, None)].
Proof. eexists _, _. split; [vm_compute; reflexivity|]. split; [reflexivity|]. split; [reflexivity|]. split; reflexivity. Qed.

(** * What goes wrong *)

(** Two programs of the same name in different sections: one is lost. *)
Theorem C97_names_refuted : exists e q sec k i s n, parse e = Ok q /\ program_symbol e sec k i s /\ s_name s = Some n /\ ~ In (the_program sec k s n) (p_progs (q_obj q)).
Proof.
  set (sec := esect 2 (txt "xdp") true (flat_map enc_insn [ret]) []). set (s := ObjProps.esym (txt "p") 2 0 8 KText).
  exists {| el_big := false; el_secs := [sec; esect 3 (txt "socket") true (flat_map enc_insn [ret]) []]; el_syms := [nul; gl s; gl (ObjProps.esym (txt "p") 3 0 8 KText)] |}.
  eexists _, sec, (PXdp false 0), 1%nat, s, (txt "p"). split; [vm_compute; reflexivity|]. split; [|split; [reflexivity|]].
  - unfold program_symbol, of_object, kind_is, lies_in, symbol_is. split; [split; [now left|split; vm_compute; discriminate]|]. split; [vm_compute; reflexivity|]. split; [vm_compute; reflexivity|].
    split; [split; [eexists; split; reflexivity|reflexivity]|reflexivity].
  - vm_compute. intros [X|[]]. discriminate X.
Qed.
Print Assumptions C97_names_refuted.
(** ... and the order of the sections decides which. *)
Theorem C97_names_order_refuted : exists e e' q q', reordered e e' /\ NoDup (map os_name (el_secs e)) /\ parse e = Ok q /\ parse e' = Ok q' /\ ~ same_members (p_progs (q_obj q)) (p_progs (q_obj q')).
Proof.
  set (a := esect 2 (txt "xdp") true (flat_map enc_insn [ret]) []). set (b := esect 3 (txt "socket") true (flat_map enc_insn [ret]) []).
  set (sy := [nul; gl (ObjProps.esym (txt "p") 2 0 8 KText); gl (ObjProps.esym (txt "p") 3 0 8 KText)]).
  exists {| el_big := false; el_secs := [a; b]; el_syms := sy |}, {| el_big := false; el_secs := [b; a]; el_syms := sy |}.
  eexists _, _. split; [split; [reflexivity|split; [reflexivity|apply perm_swap]]|]. split; [vm_compute; repeat constructor; cbn; intuition discriminate|].
  split; [vm_compute; reflexivity|]. split; [vm_compute; reflexivity|]. intros X. specialize (X {| pg_name := txt "p"; pg_sec := PSocket; pg_index := 3; pg_addr := 0 |}).
  vm_compute in X. destruct (proj1 X (or_introl eq_refl)) as [Y|[]]. discriminate Y.
Qed.
Print Assumptions C97_names_order_refuted.
(** Relocations of variables, as for tables of pointers, are ignored without an
    error: the variable keeps what the file has. *)
Theorem C97_data_relocs_refuted : exists e q sec r n m, parse e = Ok q /\ of_object e sec /\ kind_is sec KDataS /\ In r (os_relocs sec) /\
  p_relocs (q_obj q) (os_index sec) = [] /\ In (n, m) (p_maps (q_obj q)) /\ om_data m = os_data sec.
Proof.
  set (sec := esect 5 (txt ".data") false [0; 0; 0; 0; 0; 0; 0; 0] [{| r_offset := 0; r_size := 64; r_sym := 1%nat |}]).
  exists {| el_big := false; el_secs := [esect 4 (txt ".rodata") false [7] []; sec]; el_syms := [nul; gl (ObjProps.esym (txt "c") 4 0 1 KData)] |}.
  eexists _, sec, _, (txt ".data"), _. split; [vm_compute; reflexivity|]. split; [split; [right; now left|split; vm_compute; discriminate]|]. split; [vm_compute; reflexivity|].
  split; [now left|]. split; [reflexivity|]. split; [right; left; reflexivity|reflexivity].
Qed.
Print Assumptions C97_data_relocs_refuted.
