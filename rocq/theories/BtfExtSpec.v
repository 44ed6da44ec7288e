(** How the tables of .BTF.ext are encoded. *)
From Verif Require Import Base Text BtfTypes BtfModel BtfExt.
Local Open Scope Z_scope.

Definition wr32 (be : bool) (x : Z) : list Z := if be then rev (le_enc 4 x) else le_enc 4 x.

(** A section: name offset and raw records. *)
Definition enc_sec (be : bool) (s : Z * list (list Z)) : list Z :=
  wr32 be (fst s) ++ wr32 be (Z.of_nat (length (snd s))) ++ concat (snd s).
Definition sec_ok (rec : Z) (s : Z * list (list Z)) : Prop :=
  0 <= fst s < 2 ^ 32 /\ Z.of_nat (length (snd s)) < 2 ^ 32 /\
  Forall (fun r => Z.of_nat (length r) = rec) (snd s).
Definition sec_of (s : Z * list (list Z)) : sec :=
  {| sc_name := fst s; sc_num := Z.of_nat (length (snd s)); sc_data := concat (snd s) |}.
Definition non_empty (s : Z * list (list Z)) : bool := match snd s with [] => false | _ => true end.
Definition enc_secs (be : bool) (l : list (Z * list (list Z))) : list Z := concat (map (enc_sec be) l).
(** A table: the record size, then the sections. *)
Definition enc_table (be : bool) (rec : Z) (l : list (Z * list (list Z))) : list Z := wr32 be rec ++ enc_secs be l.

(** Records as the compiler writes them: byte offsets, and possibly more data
    than the loader knows of. *)
Definition enc_finfo (be : bool) (byte_off type : Z) (extra : list Z) : list Z :=
  wr32 be byte_off ++ wr32 be type ++ extra.
Definition enc_linfo (be : bool) (byte_off file line col : Z) (extra : list Z) : list Z :=
  wr32 be byte_off ++ wr32 be file ++ wr32 be line ++ wr32 be col ++ extra.
Definition enc_relo (byte_off type access kind : Z) (extra : list Z) : list Z :=
  le_enc 4 byte_off ++ le_enc 4 type ++ le_enc 4 access ++ le_enc 4 kind ++ extra.

(** The table [l] lies at [off], [len] of the blob; an absent table has no
    sections. *)
Definition table_at (be : bool) (h : ehdr) (d : list Z) (off len rec : Z) (l : list (Z * list (list Z))) : Prop :=
  0 <= off /\ 0 <= len /\ 0 <= eh_hdr_len h /\ eh_hdr_len h + off < 2 ^ 32 /\ Forall (sec_ok rec) l /\
  eh_hdr_len h + off + len <= Z.of_nat (length d) /\
  if len =? 0 then rec = 0 /\ l = []
  else 0 < rec < 2 ^ 32 /\ slice (Z.to_nat (eh_hdr_len h + off)) (Z.to_nat len) d = enc_table be rec l.

(** The header as written; fields beyond [hdr_len] read as zero. *)
Definition enc_ehdr (magic hdr_len fo fl lo ll ro rl : Z) : list Z :=
  le_enc 4 magic ++ le_enc 4 hdr_len ++ le_enc 4 fo ++ le_enc 4 fl ++ le_enc 4 lo ++ le_enc 4 ll ++
  le_enc 4 ro ++ le_enc 4 rl.
