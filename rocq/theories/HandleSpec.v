(** What a handle should refer to. *)
From Coq Require Import String.
From Verif Require Import Base ProgModel HandleModel InfoSpec.
Import ListNotations.
Local Open Scope Z_scope.

(** The kernel's structures end between fields. *)
Definition ends (b : list Z) (o s : nat) : Prop := (o + s <= length b \/ length b <= o)%nat.
Definition whole_prog (b : list Z) : Prop := whole b /\ ends b 220 4 /\ ends b 224 4.
Definition whole_map2 (b : list Z) : Prop := whole_map b /\ ends b 68 4 /\ ends b 72 4 /\ ends b 80 8.
Definition whole_link (b : list Z) : Prop := (12 <= length b)%nat.
(** A pinned object. *)
Definition pinned (path : list Z) (o : object) (k : kernel) : Prop := NoDup (map fst (k_pins k)) /\ In (path, o) (k_pins k) /\ ~ In 0 path.
Definition nothing_pinned (path : list Z) (k : kernel) : Prop := ~ In path (map fst (k_pins k)) /\ ~ In 0 path.
(** The kernel's structures for maps and links are far shorter than the one
    for programs. *)
Definition is_prog (o : object) : Prop := match o with Prog _ => True | _ => False end.
Definition is_map (o : object) : Prop := match o with Map_ _ => True | _ => False end.
Definition is_link (o : object) : Prop := match o with Link_ _ => True | _ => False end.
Definition short_info (o : object) : Prop := (length (bytes_of o) <= 220)%nat.

(** The same kind of program, whatever it is attached with. *)
Definition same_kind (a b : kind) : Prop :=
  match a, b with
  | KKProbe _, KKProbe _ | KUProbe _ _, KUProbe _ _ | KTracePoint, KTracePoint | KSocketFilter, KSocketFilter | KXdp _, KXdp _ | KSkMsg, KSkMsg | KSkSkb _, KSkSkb _
  | KSockOps, KSockOps | KSchedClassifier, KSchedClassifier | KCgroupSkb _, KCgroupSkb _ | KCgroupSysctl, KCgroupSysctl | KCgroupSockopt _, KCgroupSockopt _
  | KLircMode2, KLircMode2 | KPerfEvent, KPerfEvent | KRawTracePoint, KRawTracePoint | KLsm, KLsm | KLsmCgroup, KLsmCgroup | KBtfTracePoint, KBtfTracePoint | KFEntry, KFEntry
  | KFExit, KFExit | KFlowDissector, KFlowDissector | KExtension, KExtension | KCgroupSockAddr _, KCgroupSockAddr _ | KSkLookup, KSkLookup | KSkReuseport _, KSkReuseport _
  | KCgroupSock _, KCgroupSock _ | KCgroupDevice, KCgroupDevice | KIter, KIter => True
  | _, _ => False
  end.
(** A program of type [t] was loaded as kind [a]. *)
Definition loaded_as (a : kind) (b : list Z) : Prop := k_field b 0 4 = Some (fst (kind_type a)).
(** The number the program had when it was looked at still is its number. *)
Definition still (b : list Z) (k : kernel) : Prop := exists n, k_field b 4 4 = Some n /\ k_progs k n = Some b.
(** The BTF object a program refers to, if any, can be had. *)
Definition btf_there (b : list Z) (k : kernel) : Prop :=
  match k_field b 220 4 with None | Some 0 => True | Some n => exists fd, k_btfs k n = Some fd end.
Definition btf_of (b : list Z) (k : kernel) : option Z := match k_field b 220 4 with None | Some 0 => None | Some n => k_btfs k n end.

(** Types of links in the kernel's uapi/linux/bpf.h that the structures are
    for. *)
Definition made_for (l : lkind) (t : Z) : Prop :=
  match l with
  | LXdp => t = 6
  | LSched => t = 11
  | LTracePoint | LKProbe | LPerfEvent => t = 7
  | LUProbe => t = 7 \/ t = 12
  | LIter => t = 4
  end.
(** A map's handle refers to the object and carries the definition the kernel
    reported: type, sizes, entries, flags, and the BTF types when the kernel
    reported a type for the values. *)
Definition map_said (b : list Z) (o : object) (h : mhandle) : Prop :=
  m_obj h = o /\ m_type h = or_zero (k_field b 0 4) /\ m_key h = or_zero (k_field b 8 4) /\ m_value h = or_zero (k_field b 12 4) /\ m_entries h = or_zero (k_field b 16 4) /\ m_flags h = or_zero (k_field b 20 4) /\
  m_extra h = match k_field b 72 4 with None | Some 0 => None | Some v => Some (or_zero (k_field b 80 8), or_zero (k_field b 68 4), v) end.
