(** Property theorems C55: .BTF.ext. *)
From Coq Require Import String.
From Verif Require Import Base Text BtfTypes BtfModel BtfProofs2 BtfExt BtfExtSpec BtfExtProofs.
Local Open Scope Z_scope.

(** Whatever the position of the three tables, the records found are the ones
    encoded, section by section and in order; sections without records are
    skipped. *)
Theorem C55_tables :
  forall b be d h fr fl lr ll rr rl fs ls rs,
    read_ehdr d = Ok h ->
    table_at be h d (eh_func_off h) (eh_func_len h) fr fl ->
    table_at be h d (eh_line_off h) (eh_line_len h) lr ll ->
    table_at be h d (eh_relo_off h) (eh_relo_len h) rr rl ->
    Forall2 (infos_of (parse_finfo be) b) (filter non_empty fl) fs ->
    Forall2 (infos_of (parse_linfo be) b) (filter non_empty ll) ls ->
    Forall2 relos_of (filter non_empty rl) rs ->
    ext_parse b be d =
    Ok {| x_func_rec := fr; x_line_rec := lr; x_relo_rec := rr; x_funcs := fs; x_lines := ls; x_relos := rs |}.
Proof. exact ext_parse_tables. Qed.
Print Assumptions C55_tables.

(** The header fields are read from where they are written. *)
Theorem C55_header :
  forall magic hl fo fl lo ll ro rl rest,
    32 <= hl < 2 ^ 32 -> hl <= 32 + Z.of_nat (length rest) ->
    0 <= fo < 2 ^ 32 -> 0 <= fl < 2 ^ 32 -> 0 <= lo < 2 ^ 32 -> 0 <= ll < 2 ^ 32 -> 0 <= ro < 2 ^ 32 ->
    0 <= rl < 2 ^ 32 ->
    read_ehdr (enc_ehdr magic hl fo fl lo ll ro rl ++ rest) =
    Ok {| eh_hdr_len := hl; eh_func_off := fo; eh_func_len := fl; eh_line_off := lo; eh_line_len := ll;
          eh_relo_off := ro; eh_relo_len := rl |}.
Proof. exact read_ehdr_enc. Qed.
Print Assumptions C55_header.

(** Records: byte offsets become instruction numbers, further data is ignored;
    relocation records keep byte offsets and are numbered within their section. *)
Theorem C55_records :
  (forall be off ty extra, 0 <= off < 2 ^ 32 -> 0 <= ty < 2 ^ 32 ->
     parse_finfo be (enc_finfo be off ty extra) = Ok {| fi_insn := off / 8; fi_type := ty |}) /\
  (forall be off file line col extra,
     0 <= off < 2 ^ 32 -> 0 <= file < 2 ^ 32 -> 0 <= line < 2 ^ 32 -> 0 <= col < 2 ^ 32 ->
     parse_linfo be (enc_linfo be off file line col extra) =
     Ok {| li_insn := off / 8; li_file := file; li_line := line; li_col := col |}) /\
  (forall n off ty acc kind extra,
     0 <= off < 2 ^ 32 -> 0 <= ty < 2 ^ 32 -> 0 <= acc < 2 ^ 32 -> 0 <= kind < 12 ->
     parse_relo n (enc_relo off ty acc kind extra) =
     Ok {| rl_kind := kind; rl_ins_off := off; rl_type := ty; rl_access := acc; rl_number := n |}).
Proof. exact (conj parse_finfo_enc (conj parse_linfo_enc parse_relo_enc)). Qed.
Print Assumptions C55_records.

(** The process is aborted only by records below the minimum size or a section
    name that does not resolve. *)
Theorem C55_abort_causes_partial :
  forall b be d, bytes_ok d = true -> Z.of_nat (length d) < 2 ^ 32 -> ext_parse b be d = Err BPanic ->
    exists h, read_ehdr d = Ok h /\
      ((exists rec, rec_size be h d (eh_func_off h) (eh_func_len h) = Ok rec /\ 0 < rec < 8) \/
       (exists rec, rec_size be h d (eh_line_off h) (eh_line_len h) = Ok rec /\ 0 < rec < 16) \/
       exists rec data s e,
         (info_data h d (eh_func_off h) (eh_func_len h) = Ok data \/ info_data h d (eh_line_off h) (eh_line_len h) = Ok data) /\
         In s (all_secs be rec data) /\ string_at b (sc_name s) = Err e).
Proof. exact ext_abort_causes. Qed.
Print Assumptions C55_abort_causes_partial.

(** * Witnesses *)
Definition strs : btf := build (fix_str btf_new) [AddString (txt ".text"); AddString (txt "xdp")].
(** A blob with the three tables one after the other. *)
Definition blob (f l r : list Z) : list Z :=
  let n x := le_enc 4 (Z.of_nat (length x)) in
  [159; 235; 1; 0] ++ le_enc 4 32 ++ le_enc 4 0 ++ n f ++ n f ++ n l ++ n (f ++ l) ++ n r ++ f ++ l ++ r.

Definition ex_funcs : list (Z * list (list Z)) :=
  [(1, [enc_finfo false 0 3 [9; 9; 9; 9]; enc_finfo false 24 4 [9; 9; 9; 9]]); (1, []); (7, [enc_finfo false 8 5 [0; 0; 0; 0]])].
Definition ex_lines : list (Z * list (list Z)) := [(7, [enc_linfo false 8 1 2 3 []])].
Definition ex_relos : list (Z * list (list Z)) := [(7, [enc_relo 16 2 1 0 []; enc_relo 24 2 1 5 []])].
Definition ex_blob : list Z := blob (enc_table false 12 ex_funcs) (enc_table false 16 ex_lines) (enc_table false 16 ex_relos).

Example C55_example :
  ext_parse strs false ex_blob =
  Ok {| x_func_rec := 12; x_line_rec := 16; x_relo_rec := 16;
        x_funcs := [(txt ".text", (2, [{| fi_insn := 0; fi_type := 3 |}; {| fi_insn := 3; fi_type := 4 |}]));
                    (txt "xdp", (1, [{| fi_insn := 1; fi_type := 5 |}]))];
        x_lines := [(txt "xdp", (1, [{| li_insn := 1; li_file := 1; li_line := 2; li_col := 3 |}]))];
        x_relos := [(7, [{| rl_kind := 0; rl_ins_off := 16; rl_type := 2; rl_access := 1; rl_number := 0 |};
                         {| rl_kind := 5; rl_ins_off := 24; rl_type := 2; rl_access := 1; rl_number := 1 |}])] |}.
Proof. vm_compute. reflexivity. Qed.
Example C55_example_hypotheses :
  exists h, read_ehdr ex_blob = Ok h /\ table_at false h ex_blob (eh_func_off h) (eh_func_len h) 12 ex_funcs.
Proof.
  eexists. split; [vm_compute; reflexivity|]. unfold table_at. cbn [eh_hdr_len eh_func_off eh_func_len].
  split; [lia|]. split; [vm_compute; discriminate|]. split; [lia|]. split; [lia|]. split.
  - unfold ex_funcs, sec_ok. repeat apply Forall_cons; try apply Forall_nil; cbn [fst snd]; (split; [lia|split; [cbn; lia|]]);
      repeat apply Forall_cons; try apply Forall_nil; vm_compute; reflexivity.
  - split; [vm_compute; discriminate|]. cbn [Z.eqb]. split; [lia|]. vm_compute. reflexivity.
Qed.

(** Records shorter than the loader's own structures abort the process. *)
Theorem C55_short_record_refuted :
  exists b d, bytes_ok d = true /\ ext_parse b false d = Err BPanic /\
    d = blob (enc_table false 4 [(1, [[0; 0; 0; 0]])]) [] [].
Proof. exists strs. eexists. split; [|split; [|reflexivity]]; vm_compute; reflexivity. Qed.
Print Assumptions C55_short_record_refuted.

(** So does a section name outside the string table. *)
Theorem C55_bad_name_refuted :
  exists b d, bytes_ok d = true /\ ext_parse b false d = Err BPanic /\
    d = blob (enc_table false 8 [(1000, [enc_finfo false 0 1 []])]) [] [].
Proof. exists strs. eexists. split; [|split; [|reflexivity]]; vm_compute; reflexivity. Qed.
Print Assumptions C55_bad_name_refuted.

(** Of two tables for the same section only the last one is kept. *)
Theorem C55_same_name_refuted :
  exists b d x, ext_parse b false d = Ok x /\
    d = blob (enc_table false 8 [(1, [enc_finfo false 0 1 []]); (1, [enc_finfo false 8 2 []])]) [] [] /\
    info_get (txt ".text") (x_funcs x) = (1, [{| fi_insn := 1; fi_type := 2 |}]).
Proof. exists strs. do 2 eexists. split; [|split; [reflexivity|]]; vm_compute; reflexivity. Qed.
Print Assumptions C55_same_name_refuted.

(** A section that claims more records than there are is dropped without an
    error, and everything after it too. *)
Theorem C55_truncated_refuted :
  exists b d x, ext_parse b false d = Ok x /\ x_funcs x = [] /\
    d = blob (wr32 false 8 ++ wr32 false 1 ++ wr32 false 9 ++ enc_finfo false 0 1 []) [] [].
Proof. exists strs. do 2 eexists. split; [|split; [|reflexivity]]; vm_compute; reflexivity. Qed.
Print Assumptions C55_truncated_refuted.
