(** The bit fields of the kernel structures, as the generated bindings read
    and write them: [__BindgenBitfieldUnit] and the accessors built on it.

    Source: /repo/aya-obj/src/generated/linux_bindings_x86_64.rs:1-139 (the
    unit; the other eight files of that directory and the files
    /repo/ebpf/aya-ebpf-bindings/src/*/bindings.rs carry the same text), and
    the accessors of [bpf_insn] (lines 338-428), [bpf_prog_info] (1475-1560),
    [perf_event_attr] (2278-3820) and the [caps] of [perf_event_mmap_page]
    (3824-4100).

    Simplifications.  The storage of a unit is a list of bytes.  The byte
    order of the target ([cfg!(target_endian = "big")]) is the argument [be].
    [None] is a panic.  [dbg] says whether the debug assertions are compiled
    in; without them a shift by 64 or more uses the amount modulo 64. *)
From Coq Require Import String.
From Verif Require Import Base Text.
Open Scope Z_scope.

(** [bit_index] of [extract_bit] and [change_bit]
    (linux_bindings_x86_64.rs:20-24 and 48-52). *)
Definition bit_pos (be : bool) (index : nat) : nat :=
  if be then (7 - index mod 8)%nat else (index mod 8)%nat.

(** [extract_bit] (linux_bindings_x86_64.rs:19-27). *)
Definition extract_bit (be : bool) (byte : Z) (index : nat) : bool :=
  let mask := Z.shiftl 1 (Z.of_nat (bit_pos be index)) in
  Z.land byte mask =? mask.

(** [get_bit] (linux_bindings_x86_64.rs:29-34); the assertion and the
    indexing fail together. *)
Definition get_bit (be : bool) (s : list Z) (index : nat) : option bool :=
  match nth_error s (index / 8) with
  | None => None
  | Some byte => Some (extract_bit be byte index)
  end.

(** [change_bit] (linux_bindings_x86_64.rs:45-54); [!mask] of a [u8]. *)
Definition change_bit (be : bool) (byte : Z) (index : nat) (val : bool) : Z :=
  let mask := Z.shiftl 1 (Z.of_nat (bit_pos be index)) in
  if val then Z.lor byte mask else Z.land byte (255 - mask).

(** [set_bit] (linux_bindings_x86_64.rs:56-61). *)
Definition set_bit (be : bool) (s : list Z) (index : nat) (val : bool)
  : option (list Z) :=
  match nth_error s (index / 8) with
  | None => None
  | Some byte =>
      Some (upd (index / 8) (change_bit be byte index val) s)
  end.

(** The debug assertions of [get] and [set]
    (linux_bindings_x86_64.rs:73-75 and 109-111). *)
Definition asserts (len o w : nat) : bool :=
  (w <=? 64)%nat && (o / 8 <? len)%nat && ((o + w) / 8 <=? len)%nat.

(** [index] of the loops of [get] and [set]
    (linux_bindings_x86_64.rs:79-83 and 115-119). *)
Definition turn (be : bool) (w i : nat) : nat :=
  if be then (w - 1 - i)%nat else i.

(** [1 << k] for a [u64]. *)
Definition one_shl (k : nat) : Z := Z.shiftl 1 (Z.of_nat (k mod 64)).

(** The loop of [get] (linux_bindings_x86_64.rs:77-86). *)
Fixpoint get_loop (be : bool) (s : list Z) (o w : nat) (is : list nat)
    (val : Z) : option Z :=
  match is with
  | [] => Some val
  | i :: rest =>
      match get_bit be s (i + o) with
      | None => None
      | Some b =>
          get_loop be s o w rest
            (if b then Z.lor val (one_shl (turn be w i)) else val)
      end
  end.

(** [get] (linux_bindings_x86_64.rs:72-88). *)
Definition get (dbg be : bool) (s : list Z) (o w : nat) : option Z :=
  if dbg && negb (asserts (length s) o w) then None
  else get_loop be s o w (seq 0 w) 0.

(** The loop of [set] (linux_bindings_x86_64.rs:112-121). *)
Fixpoint set_loop (be : bool) (s : list Z) (o w : nat) (v : Z)
    (is : list nat) : option (list Z) :=
  match is with
  | [] => Some s
  | i :: rest =>
      let mask := one_shl i in
      match set_bit be s (turn be w i + o) (Z.land v mask =? mask) with
      | None => None
      | Some s' => set_loop be s' o w v rest
      end
  end.

(** [set] (linux_bindings_x86_64.rs:108-122). *)
Definition set (dbg be : bool) (s : list Z) (o w : nat) (v : Z)
  : option (list Z) :=
  if dbg && negb (asserts (length s) o w) then None
  else set_loop be s o w v (seq 0 w).

(** Memory, for the variants that work through a raw pointer. *)
Definition memory := Z -> Z.

(** [raw_get_bit] (linux_bindings_x86_64.rs:36-43); the pointer is not
    checked. *)
Definition raw_get_bit (be : bool) (m : memory) (p : Z) (index : nat) : bool :=
  extract_bit be (m (p + Z.of_nat (index / 8))) index.

(** [raw_set_bit] (linux_bindings_x86_64.rs:63-70). *)
Definition raw_set_bit (be : bool) (m : memory) (p : Z) (index : nat)
    (val : bool) : memory :=
  let a := p + Z.of_nat (index / 8) in
  fun x => if x =? a then change_bit be (m a) index val else m x.

(** [raw_get] (linux_bindings_x86_64.rs:90-106), without the assertions. *)
Definition raw_get (be : bool) (m : memory) (p : Z) (o w : nat) : Z :=
  fold_left
    (fun val i => if raw_get_bit be m p (i + o)
                  then Z.lor val (one_shl (turn be w i)) else val)
    (seq 0 w) 0.

(** [raw_set] (linux_bindings_x86_64.rs:124-138), without the assertions. *)
Definition raw_set (be : bool) (m : memory) (p : Z) (o w : nat) (v : Z)
  : memory :=
  fold_left
    (fun m i => let mask := one_shl i in
                raw_set_bit be m p (turn be w i + o) (Z.land v mask =? mask))
    (seq 0 w) m.

(** A field of a unit: its name, the offset and width its accessors pass, and
    the bits of the Rust type they use. *)
Record field := { f_name : list Z; f_off : nat; f_width : nat; f_type : Z }.
Definition fld (n : list Z) (o w : nat) (t : Z) : field :=
  {| f_name := n; f_off := o; f_width := w; f_type := t |}.

(** A getter, [transmute(self._bitfield_1.get(o, w) as T)]
    (for instance linux_bindings_x86_64.rs:344-346). *)
Definition read_field (dbg be : bool) (s : list Z) (f : field) : option Z :=
  match get dbg be s (f_off f) (f_width f) with
  | None => None
  | Some v => Some (wrap (f_type f) v)
  end.

(** A setter; the argument is a [T]
    (for instance linux_bindings_x86_64.rs:348-353). *)
Definition write_field (dbg be : bool) (s : list Z) (f : field) (v : Z)
  : option (list Z) :=
  set dbg be s (f_off f) (f_width f) (wrap (f_type f) v).

(** [new_bitfield_1]: the setters in order, on a unit of zeros
    (for instance linux_bindings_x86_64.rs:413-424 and 3588-3818). *)
Fixpoint write_all (dbg be : bool) (s : list Z) (l : list (field * Z))
  : option (list Z) :=
  match l with
  | [] => Some s
  | (f, v) :: r =>
      match write_field dbg be s f v with
      | None => None
      | Some s' => write_all dbg be s' r
      end
  end.
Definition new_unit (dbg be : bool) (size : nat) (fs : list field)
    (vs : list Z) : option (list Z) :=
  write_all dbg be (repeat 0 size) (combine fs vs).

(** The unit of [bpf_insn] (linux_bindings_x86_64.rs:338-428). *)
Definition insn_size : nat := 1.
Definition insn_fields : list field :=
  [ fld (txt "dst_reg") 0 4 8; fld (txt "src_reg") 4 4 8 ].

(** The unit of [bpf_prog_info] (linux_bindings_x86_64.rs:1515-1559). *)
Definition info_size : nat := 4.
Definition info_fields : list field := [ fld (txt "gpl_compatible") 0 1 32 ].

(** The unit of [perf_event_attr] (linux_bindings_x86_64.rs:2332-3819). *)
Definition attr_size : nat := 8.
Definition attr_fields : list field :=
  [ fld (txt "disabled") 0 1 64; fld (txt "inherit") 1 1 64;
    fld (txt "pinned") 2 1 64; fld (txt "exclusive") 3 1 64;
    fld (txt "exclude_user") 4 1 64; fld (txt "exclude_kernel") 5 1 64;
    fld (txt "exclude_hv") 6 1 64; fld (txt "exclude_idle") 7 1 64;
    fld (txt "mmap") 8 1 64; fld (txt "comm") 9 1 64;
    fld (txt "freq") 10 1 64; fld (txt "inherit_stat") 11 1 64;
    fld (txt "enable_on_exec") 12 1 64; fld (txt "task") 13 1 64;
    fld (txt "watermark") 14 1 64; fld (txt "precise_ip") 15 2 64;
    fld (txt "mmap_data") 17 1 64; fld (txt "sample_id_all") 18 1 64;
    fld (txt "exclude_host") 19 1 64; fld (txt "exclude_guest") 20 1 64;
    fld (txt "exclude_callchain_kernel") 21 1 64;
    fld (txt "exclude_callchain_user") 22 1 64;
    fld (txt "mmap2") 23 1 64; fld (txt "comm_exec") 24 1 64;
    fld (txt "use_clockid") 25 1 64; fld (txt "context_switch") 26 1 64;
    fld (txt "write_backward") 27 1 64; fld (txt "namespaces") 28 1 64;
    fld (txt "ksymbol") 29 1 64; fld (txt "bpf_event") 30 1 64;
    fld (txt "aux_output") 31 1 64; fld (txt "cgroup") 32 1 64;
    fld (txt "text_poke") 33 1 64; fld (txt "build_id") 34 1 64;
    fld (txt "inherit_thread") 35 1 64; fld (txt "remove_on_exec") 36 1 64;
    fld (txt "sigtrap") 37 1 64; fld (txt "__reserved_1") 38 26 64 ].

(** The unit of the [caps] of [perf_event_mmap_page]
    (linux_bindings_x86_64.rs:3824-4110). *)
Definition caps_size : nat := 8.
Definition caps_fields : list field :=
  [ fld (txt "cap_bit0") 0 1 64; fld (txt "cap_bit0_is_deprecated") 1 1 64;
    fld (txt "cap_user_rdpmc") 2 1 64; fld (txt "cap_user_time") 3 1 64;
    fld (txt "cap_user_time_zero") 4 1 64;
    fld (txt "cap_user_time_short") 5 1 64;
    fld (txt "cap_____res") 6 58 64 ].

(** The four units. *)
Definition units : list (nat * list field) :=
  [ (insn_size, insn_fields); (info_size, info_fields);
    (attr_size, attr_fields); (caps_size, caps_fields) ].
