(** What netlink messages look like and what readers of them should see,
    independent of NetlinkModel's reading and writing functions.

    The layouts are those of linux/netlink.h and linux/rtnetlink.h. *)
From Coq Require Import String.
From Verif Require Import Base Text NetlinkModel.
Local Open Scope Z_scope.

(** * Attributes *)

(** Bytes needed to reach a multiple of 4. *)
Definition pad4 (n : nat) : nat := ((4 - n mod 4) mod 4)%nat.
Definition attr_bytes (ty : Z) (v pad : list Z) : list Z :=
  le_enc 2 (4 + Z.of_nat (length v)) ++ le_enc 2 ty ++ v ++ pad.
(** A type, a payload, the padding that follows it. *)
Definition pattr : Type := Z * list Z * list Z.
Definition pattr_ok (a : pattr) : Prop :=
  let '(ty, v, pad) := a in
  0 <= ty < 65536 /\ Z.of_nat (length v) < 65532 /\ length pad = pad4 (length v).
Definition attrs_bytes (l : list pattr) : list Z := concat (map (fun a => let '(ty, v, pad) := a in attr_bytes ty v pad) l).
Definition plain (l : list pattr) : list attr := map (fun a => let '(ty, v, _) := a in {| at_type := ty; at_data := v |}) l.

(** A byte string that does not start with a whole attribute. *)
Inductive malformed (b : list Z) : nerr -> Prop :=
| mal_short : (0 < length b < 4)%nat -> malformed b (NBufferLength (length b) 4)
| mal_len n : (4 <= length b)%nat -> le_dec (firstn 2 b) = Z.of_nat n -> (n < 4)%nat -> malformed b (NHeaderLength n)
| mal_data n : (4 <= length b)%nat -> le_dec (firstn 2 b) = Z.of_nat n -> (4 <= n)%nat -> (length b < n + pad4 n)%nat ->
    malformed b (NBufferLength (length b - 4) (n + pad4 n - 4)).

(** Attributes in, bytes written and buffer left. *)
Definition item : Type := Z * list Z.
Definition item_ok (a : item) : Prop := 0 <= fst a < 65536 /\ Z.of_nat (length (snd a)) < 65532.
Fixpoint write_items (buf : list Z) (l : list item) : res nerr (list Z * list Z) :=
  match l with
  | [] => Ok ([], buf)
  | (ty, v) :: l =>
      bind (write_attr buf ty v) (fun a => let '(d, buf, _) := a in
      bind (write_items buf l) (fun b => let '(e, buf) := b in Ok (d ++ e, buf)))
  end.
Fixpoint nest_items (n : nested) (l : list item) : res nerr nested :=
  match l with [] => Ok n | (ty, v) :: l => bind (nested_attr n ty v) (fun n => nest_items n l) end.
Definition write_nested (buf : list Z) (ty : Z) (l : list item) : res nerr (list Z * nat) :=
  bind (nest_items (nested_new buf ty) l) nested_finish.
Definition items_size (l : list item) : nat := fold_right (fun a n => (4 + length (snd a) + pad4 (length (snd a)) + n)%nat) 0%nat l.
Definition as_attr (a : item) : attr := {| at_type := fst a; at_data := snd a |}.

(** * Messages *)

Record amsg := { a_type : Z; a_flags : Z; a_seq : Z; a_port : Z; a_data : list Z; a_pad : list Z }.
Definition amsg_bytes (m : amsg) : list Z :=
  le_enc 4 (16 + Z.of_nat (length (a_data m))) ++ le_enc 2 (a_type m) ++ le_enc 2 (a_flags m) ++ le_enc 4 (a_seq m) ++ le_enc 4 (a_port m)
  ++ a_data m.
Definition amsg_ok (m : amsg) : Prop :=
  0 <= a_type m < 65536 /\ 0 <= a_flags m < 65536 /\ 16 + Z.of_nat (length (a_data m)) < 4294967296
  /\ bytes_ok (a_data m) = true /\ length (a_pad m) = pad4 (length (a_data m))
  /\ (a_type m = 2 -> (20 <= length (a_data m))%nat).
Definition datagram (l : list amsg) : list Z := concat (map (fun m => amsg_bytes m ++ a_pad m) l).
Definition datagram_ok (l : list amsg) : Prop := Forall amsg_ok l /\ (0 < length (datagram l) <= Z.to_nat 4096)%nat.
(** What a reader gets for a message that carries data. *)
Definition got (m : amsg) : msg :=
  {| m_len := 16 + Z.of_nat (length (a_data m)); m_type := a_type m; m_flags := a_flags m; m_data := a_data m; m_error := None |}.

(** The reader wants the data messages up to the end: a DONE message, or the end
    of a datagram whose last message is not marked as one of several.  An error
    message with code 0 is an acknowledgement; other codes fail with that error
    number. *)
Definition err_code (m : amsg) : Z := let z := le_dec (firstn 4 (a_data m)) in if z <? 2147483648 then z else z - 4294967296.
Definition multi (m : amsg) : bool := Z.testbit (a_flags m) 1.
Fixpoint deliver_one (l : list amsg) (mu : bool) (k : bool -> res nerr (list msg)) : res nerr (list msg) :=
  match l with
  | [] => k mu
  | m :: l =>
      if a_type m =? 2 then
        if err_code m =? 0 then deliver_one l (multi m) k
        else match error_texts (attrs (skipn 20 (a_data m))) with Err e => Err e | Ok ts => Err (NOs (- err_code m) ts) end
      else if a_type m =? 3 then Ok []
      else match deliver_one l (multi m) k with Err e => Err e | Ok r => Ok (got m :: r) end
  end.
Fixpoint deliver (ds : list (list amsg)) (mu : bool) : res nerr (list msg) :=
  if mu then match ds with [] => Err NRecv | d :: ds => deliver_one d mu (deliver ds) end else Ok [].

(** * Filters *)

(** A filter as the kernel reports it: [tcmsg], its attributes.  The options of a
    BPF filter are nested attributes. *)
Record filter := { f_index : Z; f_handle : Z; f_parent : Z; f_prio : Z; f_proto : Z; f_before : list item; f_opts : list item; f_after : list item }.
Definition f_info (f : filter) : Z := f_prio f * 65536 + f_proto f.
Definition item_bytes (a : item) : list Z := attr_bytes (fst a) (snd a) (repeat 0 (pad4 (length (snd a)))).
Definition items_bytes (l : list item) : list Z := concat (map item_bytes l).
Definition filter_items (nested : bool) (f : filter) : list item :=
  f_before f ++ ((if nested then 32770 else 2), items_bytes (f_opts f)) :: f_after f.
Definition filter_data (nested : bool) (f : filter) : list Z :=
  [0; 0; 0; 0] ++ le_enc 4 (f_index f) ++ le_enc 4 (f_handle f) ++ le_enc 4 (f_parent f) ++ le_enc 4 (f_info f) ++ items_bytes (filter_items nested f).
Definition low14 (z : Z) : Z := z mod 16384.
Definition filter_ok (f : filter) : Prop :=
  0 <= f_handle f < 4294967296 /\ 0 <= f_prio f < 65536 /\ 0 <= f_proto f < 65536
  /\ Forall item_ok (f_before f) /\ Forall item_ok (f_opts f) /\ Forall item_ok (f_after f)
  /\ Forall (fun a => low14 (fst a) <> 2) (f_before f ++ f_after f) /\ Z.of_nat (length (items_bytes (f_opts f))) < 65532
  /\ Forall (fun a => low14 (fst a) = 7 -> exists s, snd a = s ++ [0] /\ ~ In 0 s) (f_opts f).
Definition named (name : list Z) (f : filter) : bool :=
  existsb (fun a => (low14 (fst a) =? 7) && str_eqb (snd a) (name ++ [0])) (f_opts f).
(** A data message: a filter, or something else. *)
Definition carries (m : amsg) (o : option filter) : Prop :=
  match o with
  | Some f => filter_ok f /\ a_type m = 44 /\ exists nested, a_data m = filter_data nested f
  | None => a_type m <> 44
  end.
Fixpoint chosen (name : list Z) (l : list (option filter)) : list (Z * Z) :=
  match l with
  | [] => []
  | Some f :: l => if named name f then (f_prio f, f_handle f) :: chosen name l else chosen name l
  | None :: l => chosen name l
  end.

(** * Requests *)

Definition tcm (index handle parent info : Z) : list Z :=
  [0; 0; 0; 0] ++ le_enc 4 index ++ le_enc 4 handle ++ le_enc 4 parent ++ le_enc 4 info.
(** ffff:fff2 and ffff:fff3 are the clsact hooks. *)
Definition hook (t : tc_attach) : Z := match t with TcIngress => 4294967282 | TcEgress => 4294967283 | TcCustom p => p end.
Definition request (ty flags : Z) (data : list Z) : list Z :=
  amsg_bytes {| a_type := ty; a_flags := flags; a_seq := 1; a_port := 0; a_data := data; a_pad := [] |}.
Definition tc_options (prog_fd : Z) (name : list Z) (classid : option Z) : list item :=
  (match classid with Some c => [(3, le_enc 4 c)] | None => [] end) ++ [(6, le_enc 4 prog_fd); (7, name); (8, [1; 0; 0; 0])].
Definition xdp_mode_bits (m : xdp_mode) : Z := match m with XDefault => 0 | XSkb => 2 | XDriver => 4 | XHardware => 8 end.

(** * Texts in replies *)

(** A text is a C string that fills its attribute. *)
Definition c_string (v s : list Z) : Prop := v = s ++ [0] /\ ~ In 0 s.
(** The texts (attributes of type 1) of an error message, or the failure the
    first one that is no C string causes. *)
Inductive texts_of : list item -> res nerr (list (list Z)) -> Prop :=
| to_nil : texts_of [] (Ok [])
| to_other a l r : low14 (fst a) <> 1 -> texts_of l r -> texts_of (a :: l) r
| to_text t v s l r : low14 t = 1 -> c_string v s -> texts_of l r ->
    texts_of ((t, v) :: l) (match r with Ok ts => Ok (s :: ts) | Err e => Err e end)
| to_bad t v l : low14 t = 1 -> (forall s, ~ c_string v s) -> texts_of ((t, v) :: l) (Err NCStr).

(** An error message with these attributes. *)
Definition error_msg (m : amsg) (l : list item) : Prop :=
  a_type m = 2 /\ err_code m <> 0 /\ exists h, length h = 20%nat /\ a_data m = h ++ items_bytes l.

(** A filter whose options hold a name that is no C string. *)
Definition bad_named (m : amsg) : Prop :=
  exists f nested, a_type m = 44 /\ a_data m = filter_data nested f
    /\ Forall item_ok (f_before f) /\ Forall item_ok (f_opts f) /\ Forall item_ok (f_after f)
    /\ Forall (fun a => low14 (fst a) <> 2) (f_before f) /\ Z.of_nat (length (items_bytes (f_opts f))) < 65532
    /\ exists a, In a (f_opts f) /\ low14 (fst a) = 7 /\ forall s, ~ c_string (snd a) s.
