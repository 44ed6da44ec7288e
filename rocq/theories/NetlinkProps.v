(** Properties C35 to C37, C64 and C65: netlink requests and replies. *)
From Coq Require Import String.
From Verif Require Import Base Text NetlinkModel NetlinkSpec NetlinkProofs NetlinkProofs2 NetlinkProofs3 NetlinkProofs4.
Local Open Scope Z_scope.

(** * C35: attributes round-trip *)

(** Attributes of any types and payloads, written one after the other into a
    large enough buffer holding anything, are what the iterator then yields.
    The bytes written are a multiple of 4, so the next attribute is aligned. *)
Theorem C35_plain : forall l buf, Forall item_ok l -> (items_size l <= length buf)%nat ->
  exists d, write_items buf l = Ok (d, skipn (items_size l) buf) /\ attrs d = map (fun a => Ok (as_attr a)) l
    /\ length d = items_size l /\ (length d mod 4 = 0)%nat.
Proof.
  intros l buf F L. destruct (write_items_ok l F buf L) as (ps & FP & E & LE & W). exists (attrs_bytes ps).
  split; [exact W |]. split; [rewrite attrs_exact, E, map_map by exact FP; reflexivity |]. split; [exact LE |]. rewrite LE. apply items_size_aligned.
Qed.
(** The same for attributes nested in another one. *)
Theorem C35_nested : forall buf ty l, 0 <= ty < 32768 -> Forall item_ok l -> (4 + items_size l <= length buf)%nat -> Z.of_nat (items_size l) < 65532 ->
  exists d, write_nested buf ty l = Ok (attr_bytes (32768 + ty) d [] ++ skipn (4 + items_size l) buf, (4 + items_size l)%nat)
    /\ attrs (attr_bytes (32768 + ty) d []) = [Ok {| at_type := 32768 + ty; at_data := d |}]
    /\ attrs d = map (fun a => Ok (as_attr a)) l.
Proof.
  intros buf ty l T F L S1. destruct (write_nested_ok buf ty l T F L S1) as (ps & FP & E & LE & W). exists (attrs_bytes ps).
  split; [exact W |]. split; [| rewrite attrs_exact, E, map_map by exact FP; reflexivity].
  assert (PA : Forall pattr_ok [(32768 + ty, attrs_bytes ps, [])]).
  { constructor; [| constructor]. split; [lia |]. rewrite LE. split; [lia |]. rewrite pad4_aligned; [reflexivity | apply items_size_aligned]. }
  pose proof (attrs_exact _ PA) as X. unfold attrs_bytes at 1 in X. cbn [map concat] in X. rewrite app_nil_r in X. exact X.
Qed.
(** A buffer that is too small is an error. *)
Theorem C35_no_space : forall l buf, (length buf < items_size l)%nat -> write_items buf l = Err NNoSpace.
Proof. exact write_items_full. Qed.
Theorem C35_no_space_nested : forall buf ty l, (length buf < 4 + items_size l)%nat -> write_nested buf ty l = Err NNoSpace.
Proof. exact write_nested_full. Qed.
(** The length field has 16 bits and is not checked: a longer payload is
    accepted and cannot be read back. *)
Theorem C35_long_payload_refuted : exists ty v buf d rest n,
  write_attr buf ty v = Ok (d, rest, n) /\ length v = Z.to_nat 65532 /\ attrs d <> [Ok {| at_type := ty; at_data := v |}].
Proof.
  set (v := repeat 0 (Z.to_nat 65532)). set (buf := repeat 0 (Z.to_nat 65536)).
  exists 1, v, buf, (attr_bytes 1 v []), (skipn (4 + length v + 0) buf), (4 + length v + 0)%nat.
  assert (LV : length v = Z.to_nat 65532) by (unfold v; apply repeat_length).
  assert (LB : length buf = Z.to_nat 65536) by (unfold buf; apply repeat_length).
  assert (P : pad4 (length v) = 0%nat).
  { rewrite LV. apply pad4_aligned. replace (Z.to_nat 65532) with (Z.to_nat 16383 * 4)%nat by lia. apply Nat.mod_mul. lia. }
  split; [| split; [exact LV |]].
  - rewrite write_attr_eq, P. replace (4 + length v + 0 <=? length buf)%nat with true by (symmetry; apply Nat.leb_le; lia). reflexivity.
  - rewrite attrs_unfold. rewrite attr_next_long by (rewrite attr_bytes_length; lia). cbv zeta.
    assert (E : le_dec (slice 0 2 (attr_bytes 1 v [])) = 0).
    { unfold attr_bytes. rewrite slice0, firstn_app_exact by (rewrite le_enc_length; reflexivity). rewrite LV. reflexivity. }
    rewrite E. discriminate.
Qed.
Example C35_example : exists d rest, write_items (repeat 170 32) [(1, [1]); (2, [1; 2; 3; 4; 5])] = Ok (d, rest)
  /\ d = [5; 0; 1; 0; 1; 170; 170; 170; 9; 0; 2; 0; 1; 2; 3; 4; 5; 170; 170; 170].
Proof. eexists. eexists. split; reflexivity. Qed.
Print Assumptions C35_plain.
Print Assumptions C35_nested.
Print Assumptions C35_no_space.
Print Assumptions C35_no_space_nested.
Print Assumptions C35_long_payload_refuted.

(** * C36: safety on arbitrary bytes *)

(** Any bytes: the iterator yields the attributes they start with; if bytes
    remain, one error that says what is wrong with them; then nothing. *)
Theorem C36_attributes : forall b, bytes_ok b = true -> exists l rem,
  Forall pattr_ok l /\ b = attrs_bytes l ++ rem
  /\ ((rem = [] /\ attrs b = map Ok (plain l)) \/ (exists e, malformed rem e /\ attrs b = map Ok (plain l) ++ [Err e])).
Proof. exact attrs_cases. Qed.
Theorem C36_no_panic : forall b, ~ In (Err NPanic) (attrs b).
Proof. exact attrs_no_panic. Qed.
(** Any bytes: reading a message yields the message they start with or an error
    that is justified. *)
Theorem C36_message : forall b, bytes_ok b = true ->
  (exists m rest, 0 <= a_type m < 65536 /\ 0 <= a_flags m < 65536 /\ 16 + Z.of_nat (length (a_data m)) < 4294967296
     /\ bytes_ok (a_data m) = true /\ b = amsg_bytes m ++ rest
     /\ msg_read b =
        if a_type m =? 2 then
          if (length (a_data m) <? 20)%nat then Err NShortError
          else Ok {| m_len := 16 + Z.of_nat (length (a_data m)); m_type := 2; m_flags := a_flags m; m_data := skipn 20 (a_data m);
                     m_error := Some (err_code m) |}
        else Ok (got m))
  \/ ((length b < 16)%nat /\ msg_read b = Err NShortHeader)
  \/ ((16 <= length b)%nat /\ (le_dec (firstn 4 b) < 16 \/ Z.of_nat (length b) < le_dec (firstn 4 b)) /\ msg_read b = Err NBadLen).
Proof. exact msg_read_cases. Qed.
(** Receiving ends, however the datagrams look: more rounds change nothing.
    Nothing panics. *)
Theorem C36_receive_ends : forall n ds, (length (concat ds) + length ds < n)%nat -> rx_all n rx0 ds = recv_all ds.
Proof. exact recv_fuel. Qed.
Theorem C36_receive_no_panic : forall ds, recv_all ds <> Err NPanic.
Proof. intro ds. apply rx_all_no_panic. Qed.
(** The iterator over messages does not end after a malformed message: it
    reports the same error again, for ever.  Its users stop at the first. *)
Theorem C36_message_iterator_refuted : exists d s e,
  rx_step rx0 [d] = (RxItem (Err e), s, []) /\ forall more, rx_step s more = (RxItem (Err e), s, more).
Proof.
  exists [1; 2; 3], {| rx_buf := [1; 2; 3]; rx_off := 0; rx_multi := true |}, NShortHeader. split; [vm_compute; reflexivity |].
  intro more. unfold rx_step, rx_fuel. apply rx_error_again; [cbn; lia | reflexivity].
Qed.
(** A filter notification shorter than the 20 bytes of its fixed part is read
    past its end. *)
Theorem C36_attach_reply_refuted : exists d, attach_reply [d] = Err NOutOfBounds.
Proof. exists (request 44 0 [0; 0; 0; 0]). vm_compute. reflexivity. Qed.
Example C36_example : attrs [8; 0; 1; 0; 9; 9; 9; 9; 200; 0; 1; 0] = [Ok {| at_type := 1; at_data := [9; 9; 9; 9] |}; Err (NBufferLength 0 196)].
Proof. vm_compute. reflexivity. Qed.
Print Assumptions C36_attributes.
Print Assumptions C36_no_panic.
Print Assumptions C36_message.
Print Assumptions C36_receive_ends.
Print Assumptions C36_receive_no_panic.
Print Assumptions C36_message_iterator_refuted.
Print Assumptions C36_attach_reply_refuted.

(** * C37: requests *)

(** Names up to 255 bytes and their final 0: the request is built, its length
    field counts its bytes, its attributes fit in the 296 bytes there are and
    are the ones meant. *)
Theorem C37_tc_attach : forall if_index t fd name prio handle classid (create : bool), (length name <= 256)%nat -> 0 <= prio < 65536 ->
  exists a opts, attach_request if_index t fd name prio handle classid create
      = Ok (request 44 (if create then 1549 else 13) (tcm if_index handle (hook t) (prio * 65536 + 768) ++ a))
    /\ attrs a = [Ok {| at_type := 1; at_data := [98; 112; 102; 0] |}; Ok {| at_type := 32770; at_data := opts |}]
    /\ attrs opts = map (fun i => Ok (as_attr i)) (tc_options fd name classid)
    /\ (length a <= 296)%nat.
Proof. exact attach_request_ok. Qed.
Theorem C37_tc_long_name : forall if_index t fd name prio handle classid create, (256 < length name)%nat ->
  attach_request if_index t fd name prio handle classid create = Err NNameTooLong.
Proof. exact attach_request_long. Qed.
(** Detaching names the filter by the same interface, hook, priority, protocol
    and handle. *)
Theorem C37_tc_detach : forall if_index t prio handle, 0 <= prio < 65536 ->
  detach_request if_index t prio handle = Ok (request 45 5 (tcm if_index handle (hook t) (prio * 65536 + 768))).
Proof. exact detach_request_ok. Qed.
Theorem C37_tc_find : forall if_index t, find_request if_index t = Ok (request 46 769 (tcm if_index 0 (hook t) 0)).
Proof. exact find_request_ok. Qed.
Theorem C37_clsact : forall if_index,
  clsact_request if_index = Ok (request 36 1541 (tcm if_index 4294901760 4294967281 0 ++ attr_bytes 1 [99; 108; 115; 97; 99; 116; 0] [0])).
Proof. exact clsact_request_ok. Qed.
Theorem C37_xdp : forall if_index fd expected mode,
  exists a opts, xdp_request if_index fd expected mode
      = Ok (request 19 5 ([0; 0; 0; 0] ++ le_enc 4 if_index ++ le_enc 4 0 ++ le_enc 4 0 ++ a))
    /\ attrs a = [Ok {| at_type := 32811; at_data := opts |}]
    /\ attrs opts = map (fun i => Ok (as_attr i))
         ((1, le_enc 4 (match fd with Some f => f | None => -1 end)) ::
          match expected with
          | None => [(3, le_enc 4 (xdp_mode_bits mode + 1))]
          | Some e => [(3, le_enc 4 (xdp_mode_bits mode + 17)); (8, le_enc 4 e)]
          end)
    /\ (length a <= 64)%nat.
Proof. exact xdp_request_ok. Qed.
(** In every request the length field is the number of bytes. *)
Theorem C37_length : forall ty flags data, 16 + Z.of_nat (length data) < 4294967296 ->
  le_dec (firstn 4 (request ty flags data)) = Z.of_nat (length (request ty flags data)).
Proof.
  intros ty flags data L. rewrite request_length. unfold request, amsg_bytes. cbn [a_data].
  rewrite firstn_app_exact by (rewrite le_enc_length; reflexivity). rewrite le_dec_enc_small; [lia |]. change (256 ^ Z.of_nat 4) with 4294967296. lia.
Qed.
(** The longest name with a class id fills the 296 bytes. *)
Example C37_example : exists b, attach_request 1 TcIngress 5 (repeat 97 255 ++ [0]) 1 1 (Some 65536) true = Ok b /\ length b = 332%nat.
Proof. eexists. split; [vm_compute; reflexivity | vm_compute; reflexivity]. Qed.
Print Assumptions C37_tc_attach.
Print Assumptions C37_tc_long_name.
Print Assumptions C37_tc_detach.
Print Assumptions C37_tc_find.
Print Assumptions C37_clsact.
Print Assumptions C37_xdp.
Print Assumptions C37_length.

(** * C64: replies *)

(** Datagrams of at most 4096 bytes made of whole messages: every data message
    up to the end of the answer is delivered, in order; acknowledgements are
    skipped; an error carries its number and texts. *)
Theorem C64_delivered_partial : forall ds, Forall datagram_ok ds -> recv_all (map datagram ds) = deliver ds true.
Proof. exact recv_delivers. Qed.
(** A longer datagram loses its tail. *)
Theorem C64_long_datagram_refuted : exists d, Forall amsg_ok d /\ length (datagram d) = Z.to_nat 4104 /\ recv_all [datagram d] <> deliver [d] true.
Proof.
  set (z := repeat 0 (Z.to_nat 4068)).
  exists [ {| a_type := 44; a_flags := 2; a_seq := 1; a_port := 0; a_data := z; a_pad := [] |};
           {| a_type := 3; a_flags := 2; a_seq := 1; a_port := 0; a_data := [0; 0; 0; 0]; a_pad := [] |} ].
  assert (LZ : length z = Z.to_nat 4068) by (unfold z; apply repeat_length).
  split; [| split].
  - constructor; [| constructor; [| constructor]].
    + unfold amsg_ok. cbn [a_type a_flags a_data a_pad]. rewrite LZ. split; [lia |]. split; [lia |]. split; [lia |].
      split; [vm_compute; reflexivity |]. split; [vm_compute; reflexivity | discriminate].
    + unfold amsg_ok. cbn [a_type a_flags a_data a_pad]. split; [lia |]. split; [lia |]. split; [cbn; lia |].
      split; [reflexivity |]. split; [reflexivity | discriminate].
  - vm_compute. reflexivity.
  - vm_compute. discriminate.
Qed.
(** Looking filters up by name finds, in order, exactly the reported filters
    that have that name. *)
Theorem C64_find : forall name ds ms os, Forall datagram_ok ds -> deliver ds true = Ok (map got ms) -> Forall2 carries ms os ->
  find_filters name (map datagram ds) = Ok (chosen name os).
Proof. exact find_ok. Qed.
(** Attaching takes priority and handle from the one filter reported, and fails
    unless there is exactly one. *)
Theorem C64_attached : forall ds ms os, Forall datagram_ok ds -> deliver ds true = Ok (map got ms) -> Forall2 carries ms os ->
  attach_reply (map datagram ds)
  = match reported os with [] => Err NNoReply | [f] => Ok (f_prio f, f_handle f) | _ => Err NManyReplies end.
Proof. exact attach_reply_ok. Qed.
(** A filter called "f", another called "g", then the end of the dump. *)
Definition ex_filter (n h : Z) : filter :=
  {| f_index := 2; f_handle := h; f_parent := 4294967282; f_prio := 49152; f_proto := 768; f_before := [(1, txt "bpf" ++ [0])];
     f_opts := [(7, [n; 0])]; f_after := [] |}.
Definition ex_msg (t : Z) (d : list Z) : amsg := {| a_type := t; a_flags := 2; a_seq := 1; a_port := 0; a_data := d; a_pad := [] |}.
Definition ex_dump : list (list amsg) :=
  [[ex_msg 44 (filter_data true (ex_filter 102 1)); ex_msg 44 (filter_data false (ex_filter 103 2))]; [ex_msg 3 [0; 0; 0; 0]]].
Example C64_example : Forall datagram_ok ex_dump /\ find_filters (txt "g") (map datagram ex_dump) = Ok [(49152, 2)].
Proof.
  split; [| vm_compute; reflexivity].
  unfold ex_dump. constructor; [| constructor; [| constructor]]; split.
  - constructor; [| constructor; [| constructor]]; (split; [cbn; lia |]; split; [cbn; lia |]; split; [vm_compute; reflexivity |];
      split; [vm_compute; reflexivity |]; split; [vm_compute; reflexivity | discriminate]).
  - split; [apply Nat.ltb_lt; vm_compute; reflexivity | apply Nat.leb_le; vm_compute; reflexivity].
  - constructor; [| constructor]. split; [cbn; lia |]; split; [cbn; lia |]; split; [vm_compute; reflexivity |];
      split; [vm_compute; reflexivity |]; split; [vm_compute; reflexivity | discriminate].
  - split; [apply Nat.ltb_lt; vm_compute; reflexivity | apply Nat.leb_le; vm_compute; reflexivity].
Qed.
Example C64_error : recv_all [request 2 0 (le_enc 4 (-16) ++ repeat 0 16 ++ attr_bytes 1 (txt "busy" ++ [0]) [0; 0; 0])] = Err (NOs 16 [txt "busy"]).
Proof. vm_compute. reflexivity. Qed.
Print Assumptions C64_delivered_partial.
Print Assumptions C64_long_datagram_refuted.
Print Assumptions C64_find.
Print Assumptions C64_attached.

(** * C65: replacing an XDP program over netlink *)

(** The flags of a request that names the program to replace also say "only if
    there is none".  Under the kernel's rule such a request never replaces. *)
Theorem C65_replace_refuted : exists if_index new old mode opts flags,
  (exists a, xdp_request if_index (Some new) (Some old) mode
      = Ok (request 19 5 ([0; 0; 0; 0] ++ le_enc 4 if_index ++ le_enc 4 0 ++ le_enc 4 0 ++ a)) /\ attrs a = [Ok {| at_type := 32811; at_data := opts |}])
  /\ In (Ok {| at_type := 3; at_data := le_enc 4 flags |}) (attrs opts)
  /\ dev_xdp_attach flags (Some old) (Some new) (Some old) = None.
Proof.
  destruct (xdp_request_ok 1 (Some 7) (Some 6) XDefault) as (a & opts & R & A & O & _).
  exists 1, 7, 6, XDefault, opts, 17. split; [exists a; split; assumption |]. split; [| vm_compute; reflexivity].
  rewrite O. right. left. reflexivity.
Qed.
(** Attaching where nothing is attached works, and never displaces a program. *)
Theorem C65_attach : forall mode new, dev_xdp_attach (xdp_mode_bits mode + 1) None (Some new) None = Some (Some new).
Proof. intros []; reflexivity. Qed.
Theorem C65_attach_occupied : forall mode cur new, dev_xdp_attach (xdp_mode_bits mode + 1) (Some cur) (Some new) None = None.
Proof. intros []; reflexivity. Qed.
(** Detaching with the expected program removes that program only. *)
Theorem C65_detach : forall mode cur old,
  dev_xdp_attach (xdp_mode_bits mode + 17) (Some cur) None (Some old) = if cur =? old then Some None else None.
Proof. intros mode cur old. unfold dev_xdp_attach. destruct mode; cbn -[Z.eqb]; destruct (cur =? old); reflexivity. Qed.
Print Assumptions C65_replace_refuted.
Print Assumptions C65_attach.
Print Assumptions C65_attach_occupied.
Print Assumptions C65_detach.

(** An error message fails with its number and its texts, or with what is wrong
    with the first text that is no C string. *)
Theorem C64_texts : forall m l r rest, datagram_ok (m :: rest) -> Forall item_ok l -> error_msg m l -> texts_of l r ->
  recv_all [datagram (m :: rest)] = Err (match r with Ok ts => NOs (- err_code m) ts | Err e => e end).
Proof. exact error_delivered. Qed.
(** Looking filters up fails at a filter whose name is no C string. *)
Theorem C64_bad_name : forall name ds ms m ms' os,
  Forall datagram_ok ds -> deliver ds true = Ok (map got (ms ++ m :: ms')) -> Forall2 carries ms os -> bad_named m ->
  find_filters name (map datagram ds) = Err NCStr.
Proof. exact find_bad. Qed.
(** A text with a zero inside. *)
Example C64_bad_text : texts_of [(1, [97; 0; 98; 0])] (Err NCStr).
Proof.
  apply to_bad; [reflexivity |]. intros s [E N]. apply N. change [97; 0; 98; 0] with ([97; 0; 98] ++ [0]) in E.
  apply app_inj_tail in E as [<- _]. right. now left.
Qed.
Example C64_bad_filter : bad_named (ex_msg 44 (filter_data false
  {| f_index := 2; f_handle := 1; f_parent := 4294967282; f_prio := 49152; f_proto := 768; f_before := [];
     f_opts := [(7, [97])]; f_after := [] |})).
Proof.
  eexists _, false. split; [reflexivity |]. split; [reflexivity |]. split; [constructor |].
  split; [constructor; [split; cbn; lia | constructor] |]. split; [constructor |]. split; [constructor |]. split; [cbn; lia |].
  exists (7, [97]). split; [now left |]. split; [reflexivity |]. intros s [E _]. change [97] with ([] ++ [97]) in E.
  cbn [snd] in E. apply app_inj_tail in E as [_ E]. discriminate E.
Qed.
Print Assumptions C64_texts.
Print Assumptions C64_bad_name.
