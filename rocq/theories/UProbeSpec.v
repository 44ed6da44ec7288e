(** What C43, C45, C51, C52, C53, C69 and C70 mean, for [UProbeModel]. *)
From Coq Require Import String.
From Verif Require Import Base Text TextParse TextSplit LogModel UProbeModel.
Local Open Scope Z_scope.

(** * Symbols *)

(** A symbol's offset by the rules of the ELF format: in a linked file the
    file offset of its section plus its distance from the section's start;
    otherwise its value. *)
Definition linked (o : uobj) : Prop := uo_kind o = KDynamic \/ uo_kind o = KExecutable.
Definition file_offset (o : uobj) (s : usym) (off : Z) : Prop :=
  exists i c start, us_section s = Some i /\ nth_error (uo_sections o) i = Some c /\ uc_offset c = Some start /\
    uc_addr c <= us_addr s /\ off = start + (us_addr s - uc_addr c) /\ off < 2 ^ 64.

(** The first symbol of a name. *)
Definition first_named (name : list Z) (l : list usym) (s : usym) : Prop :=
  exists pre post, l = pre ++ s :: post /\ us_name s = Some name /\ Forall (fun x => us_name x <> Some name) pre.
Definition none_named (name : list Z) (l : list usym) : Prop := Forall (fun x => us_name x <> Some name) l.

(** The symbol of an object: in the dynamic table, else in the static one. *)
Definition object_symbol (o : uobj) (name : list Z) (s : usym) : Prop :=
  first_named name (uo_dynamic o) s \/ (none_named name (uo_dynamic o) /\ first_named name (uo_static o) s).
Definition object_lacks (o : uobj) (name : list Z) : Prop := none_named name (uo_dynamic o) /\ none_named name (uo_static o).

(** One location on its own. *)
Definition alone (dbg : list Z -> list Z -> list Z) (fs : files) (path : list Z) (p : pending) : res (list Z * rerr) Z :=
  match p with
  | PAbs off => Ok off
  | PSym s a => match resolve_symbol dbg fs path s with Ok off => add_offset s off a | Err e => Err (s, e) end
  end.

(** * Scope *)

(** Whose hits fire: as perf_event_open(2) and the kernel's uprobe_multi link
    define it. *)
Inductive fires := FiresAll | FiresCaller | FiresOne (pid : Z) | FiresInvalid.
Definition perf_fires (pc : Z * Z) : fires :=
  let (pid, cpu) := pc in
  if pid =? -1 then (if 0 <=? cpu then FiresAll else FiresInvalid)
  else if pid =? 0 then FiresCaller
  else if 0 <? pid then FiresOne pid else FiresInvalid.
Definition multi_fires (me pid : Z) : fires := if pid =? 0 then FiresAll else if pid =? me then FiresCaller else FiresOne pid.

(** * /proc/pid/maps *)

(** [n] hexadecimal digits, at least [w]. *)
Definition hex_text (w : nat) (x : Z) (s : list Z) : Prop := exists n, (w <= S n <= 16)%nat /\ 0 <= x < 16 ^ Z.of_nat (S n) /\ s = hex_fixed (S n) x.

Definition blank (c : Z) : Prop := c = 32 \/ c = 9 \/ c = 10 \/ c = 12 \/ c = 13.
Definition word (w : list Z) : Prop := w <> [] /\ Forall (fun c => ~ blank c) w.
(** A path as the kernel prints it: no newline (printed as \012), and here
    neither starting nor ending with white space. *)
Definition path_text (p : list Z) : Prop := ~ In 10 p /\ exists a b m, ~ blank a /\ ~ blank b /\ (p = [a] \/ p = a :: m ++ [b]).

(** A line as fs/proc/task_mmu.c [show_map_vma] prints it: a name follows at
    least one blank, lines without one end in a blank. *)
Definition map_line (e : map_entry) (line : list Z) : Prop :=
  exists a b o pad, hex_text 8 (me_start e) a /\ hex_text 8 (me_end e) b /\ hex_text 8 (me_offset e) o /\
    word (me_perms e) /\ word (me_dev e) /\ 0 <= me_inode e < 2 ^ 32 /\ Forall (fun c => c = 32) pad /\
    match me_path e with
    | None => line = a ++ 45 :: b ++ 32 :: me_perms e ++ 32 :: o ++ 32 :: me_dev e ++ 32 :: dec (me_inode e) ++ 32 :: pad
    | Some p => path_text p /\ line = a ++ 45 :: b ++ 32 :: me_perms e ++ 32 :: o ++ 32 :: me_dev e ++ 32 :: dec (me_inode e) ++ 32 :: pad ++ p
    end.

(** The name of a library [lib], given with or without [.so]. *)
Definition stem_of (lib s : list Z) : Prop := lib = s ++ txt ".so" \/ (lib = s /\ ~ exists r, lib = r ++ txt ".so").
(** Whether a path's last component names it: the bare name, a shared object of
    that name, or a name continued by a dash. *)
Definition names_lib (s path : list Z) : Prop :=
  exists f, file_name path = Some f /\ (f = s \/ (exists r, f = s ++ txt ".so" ++ r) \/ (exists r, f = s ++ txt "-" ++ r)).

(** * ld.so.cache *)

(** A zero terminated text at a position of the file. *)
Definition string_at (data : list Z) (pos : Z) (s : list Z) : Prop :=
  0 <= pos /\ Forall (fun c => c <> 0) s /\ exists before rest, data = before ++ s ++ 0 :: rest /\ Z.of_nat (length before) = pos.

(** An entry: flags, position of the key, position of the value, and in the new
    format twelve more bytes. *)
Definition entry_row (data : list Z) (base : Z) (extra : nat) (row : list Z) (e : centry) : Prop :=
  exists k v ext, 0 <= k < 2 ^ 32 /\ 0 <= v < 2 ^ 32 /\ - 2 ^ 31 <= ce_flags e < 2 ^ 31 /\ length ext = extra /\
    row = le_enc 4 (ce_flags e) ++ le_enc 4 k ++ le_enc 4 v ++ ext /\
    string_at data (base + k) (ce_key e) /\ string_at data (base + v) (ce_value e).

(** The new format: glibc's [struct cache_file_new]; positions count from the
    start of the file. *)
Definition new_cache (data : list Z) (l : list centry) : Prop :=
  exists header rows rest, length header = 24%nat /\ Z.of_nat (length l) < 2 ^ 32 /\ bytes_ok data = true /\
    data = txt "glibc-ld.so.cache1.1" ++ le_enc 4 (Z.of_nat (length l)) ++ header ++ concat rows ++ rest /\
    Forall2 (entry_row data 0 12) rows l.
(** The old format: [struct cache_file]; positions count from the end of the
    table. *)
Definition old_cache (data : list Z) (l : list centry) : Prop :=
  exists rows rest, Z.of_nat (length l) < 2 ^ 32 /\ bytes_ok data = true /\
    data = txt "ld.so-1.7.0" ++ 0 :: le_enc 4 (Z.of_nat (length l)) ++ concat rows ++ rest /\
    Forall2 (entry_row data (16 + 12 * Z.of_nat (length l)) 0) rows l.

(** The library's name in the cache: its stem, [.so], and maybe a version. *)
Definition key_names (s key : list Z) : Prop := exists r, key = s ++ txt ".so" ++ r.
