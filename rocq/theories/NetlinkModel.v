(** Model of netlink requests and replies, aya/src/sys/netlink.rs.

    Simplifications.  Little-endian host.  A request structure is the list of
    its bytes; its address is 4-byte aligned, as the type demands, so the
    alignment offset of [request_attributes] is 0.  System calls are inputs:
    what [recv] returns is a list of datagrams. *)
From Coq Require Import String.
From Verif Require Import Base Text.
Local Open Scope Z_scope.

Inductive nerr :=
| NNoSpace | NNameTooLong
| NBufferLength (size expected : nat) | NHeaderLength (len : nat) | NCStr
| NShortHeader | NBadLen | NNeedData | NShortError
| NOs (errno : Z) (msgs : list (list Z))
| NShortTc | NNoReply | NManyReplies | NRecv
| NPanic | NOutOfBounds.

(** [nla_align!], netlink.rs:31-38. *)
Definition align4 (n : nat) : nat := (n + 3) / 4 * 4.
Definition u16b (v : Z) : list Z := le_enc 2 v.
Definition u32b (v : Z) : list Z := le_enc 4 v.

(** * Writing attributes *)

(** [write_bytes], 764-772: the part of the buffer written (padding bytes keep
    what was there), the remaining part, the length. *)
Definition write_bytes (buf v : list Z) : res nerr (list Z * list Z * nat) :=
  let n := align4 (length v) in
  if (n <=? length buf)%nat then Ok (v ++ slice (length v) (n - length v) buf, skipn n buf, n)
  else Err NNoSpace.
(** [write_attr_header], 757-762, and [write_attr_bytes], 739-753.  The length
    is cast to u16. *)
Definition attr_header (ty len : Z) : list Z := u16b len ++ u16b ty.
Definition write_attr (buf : list Z) (ty : Z) (v : list Z) : res nerr (list Z * list Z * nat) :=
  bind (write_bytes buf (attr_header ty (4 + Z.of_nat (length v)))) (fun a => let '(h, buf, hl) := a in
  bind (write_bytes buf v) (fun b => let '(d, buf, dl) := b in
  Ok (h ++ d, buf, (hl + dl)%nat))).

(** [NestedAttrs], 658-732. *)
Record nested := { ne_hdr : list Z; ne_done : list Z; ne_rest : list Z; ne_type : Z; ne_len : nat }.
Definition nested_new (buf : list Z) (ty : Z) : nested :=
  if (4 <=? length buf)%nat
  then {| ne_hdr := firstn 4 buf; ne_done := []; ne_rest := skipn 4 buf; ne_type := ty; ne_len := 4 |}
  else {| ne_hdr := []; ne_done := []; ne_rest := []; ne_type := ty; ne_len := 4 |}.
Definition nested_attr (n : nested) (ty : Z) (v : list Z) : res nerr nested :=
  bind (write_attr (ne_rest n) ty v) (fun a => let '(d, rest, len) := a in
  Ok {| ne_hdr := ne_hdr n; ne_done := ne_done n ++ d; ne_rest := rest; ne_type := ne_type n; ne_len := (ne_len n + len)%nat |}).
Definition NLA_F_NESTED : Z := 32768.
(** The buffer it leaves, and the length. *)
Definition nested_finish (n : nested) : res nerr (list Z * nat) :=
  bind (write_bytes (ne_hdr n) (attr_header (Z.lor NLA_F_NESTED (ne_type n)) (Z.of_nat (ne_len n)))) (fun a => let '(h, hrest, _) := a in
  Ok ((h ++ hrest) ++ ne_done n ++ ne_rest n, ne_len n)).

(** * Reading attributes *)

Record attr := { at_type : Z; at_data : list Z }.
(** [NlAttrsIterator::next], 787-819: the item, if any, and the new buffer. *)
Definition attr_next (buf : list Z) : option (res nerr attr * list Z) :=
  match buf with
  | [] => None
  | _ =>
      if (length buf <? 4)%nat then Some (Err (NBufferLength (length buf) 4), [])
      else
        let len := Z.to_nat (le_dec (slice 0 2 buf)) in
        let ty := le_dec (slice 2 2 buf) in
        let rest := skipn 4 buf in
        if (len <? 4)%nat then Some (Err (NHeaderLength len), [])
        else
          let payload := (len - 4)%nat in
          let apayload := (align4 len - 4)%nat in
          if (length rest <? apayload)%nat then Some (Err (NBufferLength (length rest) apayload), [])
          else
            let data := firstn apayload rest in
            if (length data <? payload)%nat then Some (Err NPanic, [])
            else Some (Ok {| at_type := ty; at_data := firstn payload data |}, skipn apayload rest)
  end.
(** A [for] loop over the iterator; the items in order. *)
Fixpoint attrs_go (fuel : nat) (buf : list Z) : list (res nerr attr) :=
  match fuel with
  | O => []
  | S fuel =>
      match attr_next buf with
      | None => []
      | Some (r, buf) => r :: attrs_go fuel buf
      end
  end.
Definition attrs (buf : list Z) : list (res nerr attr) := attrs_go (S (length buf)) buf.

(** * Messages *)

Record msg := { m_len : Z; m_type : Z; m_flags : Z; m_data : list Z; m_error : option Z }.
Definition NLMSG_ERROR : Z := 2.
Definition NLMSG_DONE : Z := 3.
Definition NLM_F_MULTI : Z := 2.
(** [NetlinkMessage::read], 621-656.  [nlmsgerr] is a 4-byte error and a
    16-byte message header; the error is signed. *)
Definition msg_read (buf : list Z) : res nerr msg :=
  if (length buf <? 16)%nat then Err NShortHeader
  else
    let len := le_dec (slice 0 4 buf) in
    let ty := le_dec (slice 4 2 buf) in
    let fl := le_dec (slice 6 2 buf) in
    if len <? 16 then Err NBadLen
    else if Z.of_nat (length buf) <? len then Err NBadLen
    else
      let data := skipn 16 (firstn (Z.to_nat len) buf) in
      if ty =? NLMSG_ERROR then
        if (length data <? 20)%nat then Err NShortError
        else Ok {| m_len := len; m_type := ty; m_flags := fl; m_data := skipn 20 data; m_error := Some (i32 (le_dec (slice 0 4 data))) |}
      else Ok {| m_len := len; m_type := ty; m_flags := fl; m_data := data; m_error := None |}.

(** [CStr::from_bytes_with_nul]: the string without the final 0, which is the
    only one. *)
Definition cstr (b : list Z) : option (list Z) :=
  match rev b with
  | 0 :: r => if existsb (Z.eqb 0) r then None else Some (rev r)
  | _ => None
  end.
Definition NLA_TYPE_MASK : Z := 16383.
(** The texts of an error message, 573-584. *)
Fixpoint error_texts (l : list (res nerr attr)) : res nerr (list (list Z)) :=
  match l with
  | [] => Ok []
  | Err e :: _ => Err e
  | Ok a :: l =>
      if Z.land (at_type a) NLA_TYPE_MASK =? 1 then
        match cstr (at_data a) with
        | None => Err NCStr
        | Some s => bind (error_texts l) (fun r => Ok (s :: r))
        end
      else error_texts l
  end.

(** The iterator returned by [recv], 548-611.  Its state: bytes received, the
    position in them, whether more messages are expected.  [datagrams] is what
    the kernel still has to say; nothing left reads as a failing system call.
    [rx_buf] stands for the first [len] bytes of the scratch buffer, which holds
    4096: longer datagrams are cut off by the kernel. *)
Record rx := { rx_buf : list Z; rx_off : nat; rx_multi : bool }.
Definition rx0 : rx := {| rx_buf := []; rx_off := 0; rx_multi := true |}.
Inductive rx_item := RxEnd | RxItem (r : res nerr msg).
Fixpoint rx_next (fuel : nat) (s : rx) (datagrams : list (list Z)) : rx_item * rx * list (list Z) :=
  match fuel with
  | O => (RxEnd, s, datagrams)
  | S fuel =>
      if (rx_off s <? length (rx_buf s))%nat then
        match msg_read (skipn (rx_off s) (rx_buf s)) with
        | Err e => (RxItem (Err e), s, datagrams)
        | Ok m =>
            let s := {| rx_buf := rx_buf s; rx_off := (rx_off s + align4 (Z.to_nat (m_len m)))%nat;
                        rx_multi := negb (Z.land (m_flags m) NLM_F_MULTI =? 0) |} in
            if m_type m =? NLMSG_ERROR then
              match m_error m with
              | None => (RxItem (Err NPanic), s, datagrams)
              | Some e =>
                  if e =? 0 then rx_next fuel s datagrams
                  else match error_texts (attrs (m_data m)) with
                       | Err x => (RxItem (Err x), s, datagrams)
                       | Ok ts => (RxItem (Err (NOs (- e) ts)), s, datagrams)
                       end
              end
            else if m_type m =? NLMSG_DONE then (RxEnd, s, datagrams)
            else (RxItem (Ok m), s, datagrams)
        end
      else if negb (rx_multi s) then (RxEnd, s, datagrams)
      else
        match datagrams with
        | [] => (RxItem (Err NRecv), s, [])
        | [] :: rest => (RxEnd, s, rest)
        | d :: rest => rx_next fuel {| rx_buf := firstn (Z.to_nat 4096) d; rx_off := 0; rx_multi := rx_multi s |} rest
        end
  end.
(** Enough for every state: each round consumes a datagram or, per message, 16
    bytes. *)
Definition rx_fuel (s : rx) (datagrams : list (list Z)) : nat :=
  S (length (rx_buf s) - rx_off s + length (concat datagrams) + length datagrams).
Definition rx_step (s : rx) (datagrams : list (list Z)) := rx_next (rx_fuel s datagrams) s datagrams.

(** The loop [for msg in sock.recv() { msg?; ... }]: all messages up to the end
    or the first error. *)
Fixpoint rx_all (fuel : nat) (s : rx) (datagrams : list (list Z)) : res nerr (list msg) :=
  match fuel with
  | O => Ok []
  | S fuel =>
      match rx_step s datagrams with
      | (RxEnd, _, _) => Ok []
      | (RxItem (Err e), _, _) => Err e
      | (RxItem (Ok m), s, datagrams) => bind (rx_all fuel s datagrams) (fun r => Ok (m :: r))
      end
  end.
Definition recv_all (datagrams : list (list Z)) : res nerr (list msg) :=
  rx_all (S (length (concat datagrams) + length datagrams)) rx0 datagrams.

(** * Requests *)

Definition NLM_F_REQUEST : Z := 1.
Definition NLM_F_ACK : Z := 4.
Definition NLM_F_ECHO : Z := 8.
Definition NLM_F_EXCL : Z := 512.
Definition NLM_F_CREATE : Z := 1024.
Definition NLM_F_DUMP : Z := 768.
Definition RTM_SETLINK : Z := 19.
Definition RTM_NEWQDISC : Z := 36.
Definition RTM_NEWTFILTER : Z := 44.
Definition RTM_DELTFILTER : Z := 45.
Definition RTM_GETTFILTER : Z := 46.
Definition lor (l : list Z) : Z := fold_right Z.lor 0 l.
(** [nlmsghdr]: sequence number 1, port 0. *)
Definition msg_header (len ty flags : Z) : list Z := u32b len ++ u16b ty ++ u16b flags ++ u32b 1 ++ u32b 0.
(** [ifinfomsg] and [tcmsg] with family AF_UNSPEC = 0. *)
Definition if_info (index flags change : Z) : list Z := [0; 0; 0; 0] ++ u32b index ++ u32b flags ++ u32b change.
Definition tc_info (index handle parent info : Z) : list Z := [0; 0; 0; 0] ++ u32b index ++ u32b handle ++ u32b parent ++ u32b info.

(** What is sent: the first [nlmsg_len] bytes of the request; slicing past its
    end panics. *)
Definition sent (hdr body attrs : list Z) (len : Z) : res nerr (list Z) :=
  let all := hdr ++ body ++ attrs in
  if Z.of_nat (length all) <? len then Err NPanic else Ok (firstn (Z.to_nat len) all).

(** [tc_handler_make], aya/src/util.rs:372-374; [htons(ETH_P_ALL)] = 0x0300 on
    a little-endian host. *)
Definition tc_make (major minor : Z) : Z := Z.lor (Z.land major 4294901760) (Z.land minor 65535).
Definition TC_H_CLSACT : Z := 4294967281.
Definition ETH_P_ALL_BE : Z := 768.

(** [XdpMode::flags], aya/src/programs/xdp.rs:56-63. *)
Inductive xdp_mode := XDefault | XSkb | XDriver | XHardware.
Definition xdp_flags (m : xdp_mode) : Z := match m with XDefault => 0 | XSkb => 2 | XDriver => 4 | XHardware => 8 end.
Definition XDP_UPDATE_IF_NOEXIST : Z := 1.
Definition XDP_REPLACE : Z := 16.

(** [netlink_set_xdp_fd], 110-167: the bytes sent.  File descriptors are
    non-negative; [None] is written as -1. *)
Definition xdp_request (if_index : Z) (fd expected : option Z) (mode : xdp_mode) : res nerr (list Z) :=
  let n := nested_new (repeat 0 64) 43 in
  bind (nested_attr n 1 (u32b (match fd with Some f => f | None => -1 end))) (fun n =>
  let flags := Z.lor (xdp_flags mode) XDP_UPDATE_IF_NOEXIST in
  let flags := match expected with None => flags | Some _ => Z.lor flags XDP_REPLACE end in
  bind (if flags =? 0 then Ok n else nested_attr n 3 (u32b flags)) (fun n =>
  bind (match expected with None => Ok n | Some e => nested_attr n 8 (u32b e) end) (fun n =>
  bind (nested_finish n) (fun a => let '(buf, nla_len) := a in
  let len := 32 + Z.of_nat (align4 nla_len) in
  sent (msg_header len RTM_SETLINK (lor [NLM_F_REQUEST; NLM_F_ACK])) (if_info if_index 0 0) buf len)))).

(** [netlink_qdisc_add_clsact], 169-200. *)
Definition TC_ATTRS : nat := 296.
Definition clsact_request (if_index : Z) : res nerr (list Z) :=
  bind (write_attr (repeat 0 TC_ATTRS) 1 (txt "clsact" ++ [0])) (fun a => let '(d, rest, alen) := a in
  let len := 36 + Z.of_nat (align4 alen) in
  sent (msg_header len RTM_NEWQDISC (lor [NLM_F_REQUEST; NLM_F_ACK; NLM_F_EXCL; NLM_F_CREATE]))
    (tc_info if_index (tc_make TC_H_CLSACT 0) (tc_make TC_H_CLSACT TC_H_CLSACT) 0) (d ++ rest) len).

(** [write_tc_attach_attrs], 202-231: the attribute buffer and its used length.
    [name] includes the final 0. *)
Definition tc_attach_attrs (prog_fd : Z) (name : list Z) (classid : option Z) : res nerr (list Z * nat) :=
  if (256 <? length name)%nat then Err NNameTooLong
  else
    bind (write_attr (repeat 0 TC_ATTRS) 1 (txt "bpf" ++ [0])) (fun a => let '(d, rest, kind_len) := a in
    let n := nested_new rest 2 in
    bind (match classid with None => Ok n | Some c => nested_attr n 3 (u32b c) end) (fun n =>
    bind (nested_attr n 6 (u32b prog_fd)) (fun n =>
    bind (nested_attr n 7 name) (fun n =>
    bind (nested_attr n 8 (u32b 1)) (fun n =>
    bind (nested_finish n) (fun b => let '(buf, opt_len) := b in
    Ok (d ++ buf, align4 (kind_len + opt_len)%nat))))))).

(** [TcAttachType::tc_parent], aya/src/programs/tc.rs:111-117. *)
Inductive tc_attach := TcIngress | TcEgress | TcCustom (parent : Z).
Definition tc_parent (t : tc_attach) : Z :=
  match t with TcCustom p => p | TcIngress => tc_make TC_H_CLSACT 65522 | TcEgress => tc_make TC_H_CLSACT 65523 end.
Definition tc_prio_info (priority : Z) : Z := tc_make (Z.shiftl priority 16) ETH_P_ALL_BE.

(** The request of [netlink_qdisc_attach], 234-290. *)
Definition attach_request (if_index : Z) (t : tc_attach) (prog_fd : Z) (name : list Z) (priority handle : Z) (classid : option Z) (create : bool)
  : res nerr (list Z) :=
  bind (tc_attach_attrs prog_fd name classid) (fun a => let '(buf, used) := a in
  let len := 36 + Z.of_nat used in
  sent (msg_header len RTM_NEWTFILTER (lor ([NLM_F_REQUEST; NLM_F_ACK; NLM_F_ECHO] ++ if create then [NLM_F_CREATE; NLM_F_EXCL] else [])))
    (tc_info if_index handle (tc_parent t) (tc_prio_info priority)) buf len).
(** [netlink_qdisc_detach], 315-349. *)
Definition detach_request (if_index : Z) (t : tc_attach) (priority handle : Z) : res nerr (list Z) :=
  sent (msg_header 36 RTM_DELTFILTER (lor [NLM_F_REQUEST; NLM_F_ACK])) (tc_info if_index handle (tc_parent t) (tc_prio_info priority))
    (repeat 0 TC_ATTRS) 36.
(** The request of [netlink_find_filter_with_name], 357-372. *)
Definition find_request (if_index : Z) (t : tc_attach) : res nerr (list Z) :=
  sent (msg_header 36 RTM_GETTFILTER (lor [NLM_F_REQUEST; NLM_F_DUMP])) (tc_info if_index 0 (tc_parent t) 0) (repeat 0 TC_ATTRS) 36.

(** * Replies *)

(** The reply of [netlink_qdisc_attach], 292-312.  Reading a [tcmsg] from less
    than 20 bytes is out of bounds. *)
Fixpoint new_filters (ms : list msg) : res nerr (list (list Z)) :=
  match ms with
  | [] => Ok []
  | m :: ms =>
      if m_type m =? RTM_NEWTFILTER then
        if (length (m_data m) <? 20)%nat then Err NOutOfBounds
        else bind (new_filters ms) (fun r => Ok (firstn 20 (m_data m) :: r))
      else new_filters ms
  end.
Definition tc_handle_of (t : list Z) : Z := le_dec (slice 8 4 t).
Definition tc_info_of (t : list Z) : Z := le_dec (slice 16 4 t).
Definition attach_reply (datagrams : list (list Z)) : res nerr (Z * Z) :=
  bind (recv_all datagrams) (fun ms =>
  bind (new_filters ms) (fun ts =>
  match ts with
  | [] => Err NNoReply
  | [t] => Ok (u16 (Z.shiftr (Z.land (tc_info_of t) 4294901760) 16), tc_handle_of t)
  | _ => Err NManyReplies
  end)).

(** One message of [netlink_find_filter_with_name], 374-423. *)
Fixpoint named_opts (name : list Z) (l : list (res nerr attr)) (found : bool) : res nerr bool :=
  match l with
  | [] => Ok found
  | Err e :: _ => Err e
  | Ok a :: l =>
      if Z.land (at_type a) NLA_TYPE_MASK =? 7 then
        match cstr (at_data a) with
        | None => Err NCStr
        | Some s => named_opts name l (found || str_eqb s name)
        end
      else named_opts name l found
  end.
Fixpoint named_filter (name : list Z) (l : list (res nerr attr)) (found : bool) : res nerr bool :=
  match l with
  | [] => Ok found
  | Err e :: _ => Err e
  | Ok a :: l =>
      if Z.land (at_type a) NLA_TYPE_MASK =? 2
      then bind (named_opts name (attrs (at_data a)) found) (fun f => named_filter name l f)
      else named_filter name l found
  end.
Definition filter_of (name : list Z) (m : msg) : res nerr (option (Z * Z)) :=
  if negb (m_type m =? RTM_NEWTFILTER) then Ok None
  else if (length (m_data m) <? 20)%nat then Err NShortTc
  else
    let t := firstn 20 (m_data m) in
    bind (named_filter name (attrs (skipn 20 (m_data m))) false) (fun f =>
    Ok (if f then Some (u16 (Z.shiftr (tc_info_of t) 16), tc_handle_of t) else None)).
Fixpoint filters (name : list Z) (ms : list msg) : res nerr (list (Z * Z)) :=
  match ms with
  | [] => Ok []
  | m :: ms => bind (filter_of name m) (fun o => bind (filters name ms) (fun r => Ok (match o with Some x => x :: r | None => r end)))
  end.
Definition find_filters (name : list Z) (datagrams : list (list Z)) : res nerr (list (Z * Z)) :=
  bind (recv_all datagrams) (filters name).

(** * The kernel's rule for XDP over netlink

    [dev_xdp_attach] of Linux 5.7 to 6.x, reduced to one mode and programs known
    by number: [cur] is attached, [new] requested, [old] the program behind the
    expected fd. *)
Definition dev_xdp_attach (flags : Z) (cur new old : option Z) : option (option Z) :=
  let same a b := match a, b with Some x, Some y => x =? y | None, None => true | _, _ => false end in
  if negb (Z.land flags XDP_REPLACE =? 0) && negb (same cur old) then None
  else match new, cur with
       | Some _, Some _ => if negb (Z.land flags XDP_UPDATE_IF_NOEXIST =? 0) then None else Some new
       | _, _ => Some new
       end.
