(** Model of the small numeric and text helpers of aya/src: kernel versions
    and CPU lists (aya/src/util.rs), ring buffer sizes (aya/src/bpf.rs), TC
    handles (aya/src/programs/tc.rs) and multi-program link order
    (aya/src/programs/links.rs).

    Text is a list of byte values. *)
From Coq Require Import String.
From Verif Require Import Base Text TextParse TextSplit.
Local Open Scope Z_scope.

(** * Kernel versions *)

(** aya/src/util.rs:31-35 [KernelVersion]: major and minor are u8, patch is
    u16. *)
Record kver := { k_major : Z; k_minor : Z; k_patch : Z }.

(** aya/src/util.rs:30 the derived [PartialOrd]: fields compared in order. *)
Definition kver_cmp (a b : kver) : comparison :=
  match k_major a ?= k_major b with
  | Eq => match k_minor a ?= k_minor b with
          | Eq => k_patch a ?= k_patch b
          | o => o
          end
  | o => o
  end.
Definition kver_ge (a b : kver) : bool := match kver_cmp a b with Lt => false | _ => true end.

(** aya/src/util.rs:101-117 [max_patch]. *)
Definition max_patch (major minor : Z) : Z :=
  if (major =? 4) && ((minor =? 4) || (minor =? 9)) then 257
  else if (major =? 4) && (minor =? 14) then 252
  else if (major =? 4) && (minor =? 19) then 222
  else 255.

(** aya/src/util.rs:93-126 [KernelVersion::code].  The u32 sums cannot
    overflow: at most [255 * 2^16 + 255 * 2^8 + 256]. *)
Definition code (v : kver) : Z :=
  let patch := if max_patch (k_major v) (k_minor v) <=? k_patch v then 255 else k_patch v in
  Z.shiftl (k_major v) 16 + Z.shiftl (k_minor v) 8 + patch.

(** aya/src/util.rs:206-217 [parse_kernel_version_string]: the text is split
    at every character that is not a digit; the first three pieces are parsed
    as u8, u8 and u16.  ([c == '.'] is implied by not being a digit.) *)
Definition parse_version (s : list Z) : option kver :=
  match split_by (fun c => (c =? 46) || negb (is_digit c)) s with
  | a :: b :: c :: _ =>
      match parse_uint 10 256 a with
      | None => None
      | Some major =>
          match parse_uint 10 256 b with
          | None => None
          | Some minor =>
              match parse_uint 10 65536 c with
              | None => None
              | Some patch => Some {| k_major := major; k_minor := minor; k_patch := patch |}
              end
          end
      end
  | _ => None
  end.

(** aya/src/util.rs:151-162 [parse_ubuntu_kernel_version]: the third piece of
    the text split at white space. *)
Definition parse_ubuntu (s : list Z) : option kver :=
  match split_term is_ws s with
  | _ :: _ :: v :: _ => parse_version v
  | _ => None
  end.

(** aya/src/util.rs:181-204 [get_kernel_version].  [signature]: the content of
    /proc/version_signature, [None] if the file is missing or cannot be read
    (both fall through, line 182).  [version] and [release]: the fields of
    [uname], which is assumed to succeed and to return ASCII text.  Every
    error is [None]. *)
Definition get_kernel_version (signature : option (list Z)) (version release : list Z) : option kver :=
  match match signature with Some s => parse_ubuntu s | None => None end with
  | Some v => Some v
  | None =>
      match after_first (txt "Debian ") version with
      | Some s => parse_version s
      | None => parse_version release
      end
  end.

(** aya/src/util.rs:82-90 [at_least]. *)
Definition at_least (current : option kver) (major minor patch : Z) : bool :=
  match current with
  | Some v => kver_ge v {| k_major := major; k_minor := minor; k_patch := patch |}
  | None => false
  end.

(** aya/src/util.rs:220-224 [Display]. *)
Definition kver_text (v : kver) : list Z := dec (k_major v) ++ 46 :: dec (k_minor v) ++ 46 :: dec (k_patch v).

(** * CPU lists *)

(** The elements of [start..=end]: none when [end < start]. *)
Definition zrange (a b : Z) : list Z := map (fun i => a + Z.of_nat i) (seq 0 (Z.to_nat (b - a + 1))).

(** aya/src/util.rs:264-279: one range.  Pieces are parsed lazily, but every
    failure is the same error. *)
Definition parse_range (s : list Z) : option (Z * Z) :=
  match split_at 45 s with
  | [a] => match dec_u32 a with Some a => Some (a, a) | None => None end
  | [a; b] =>
      match dec_u32 a, dec_u32 b with
      | Some a, Some b => Some (a, b)
      | _, _ => None
      end
  | _ => None
  end.

(** aya/src/util.rs:262-285 [parse_cpu_ranges]. *)
Fixpoint parse_parts (l : list (list Z)) : option (list Z) :=
  match l with
  | [] => Some []
  | s :: l =>
      match parse_range s with
      | Some (a, b) => match parse_parts l with Some r => Some (zrange a b ++ r) | None => None end
      | None => None
      end
  end.
Definition parse_cpu_ranges (s : list Z) : option (list Z) := parse_parts (split_at 44 s).

(** aya/src/util.rs:254-260 [read_cpu_ranges]: the file content is trimmed. *)
Definition read_cpu_ranges (s : list Z) : option (list Z) := parse_cpu_ranges (trim s).

(** aya/src/util.rs:233-252 [nr_cpus]. *)
Definition nr_cpus (s : list Z) : option Z :=
  match read_cpu_ranges s with Some l => Some (Z.of_nat (length l)) | None => None end.

(** * Kernel symbols *)

(** [str::splitn(4, ' ')]: only the first three pieces are looked at, and each
    of them ends at a space. *)
(** aya/src/util.rs:298-315: one line of /proc/kallsyms. *)
Definition ksym_line (s : list Z) : option (Z * list Z) :=
  match split_at 32 s with
  | a :: _ :: n :: _ => match hex_u64 a with Some a => Some (a, n) | None => None end
  | _ => None
  end.

(** aya/src/util.rs:295-317 [parse_kernel_symbols], as the sequence of
    insertions into the ordered map; the map is [ksym_at]. *)
Fixpoint ksym_lines (l : list (list Z)) : option (list (Z * list Z)) :=
  match l with
  | [] => Some []
  | s :: l =>
      match ksym_line s with
      | Some e => match ksym_lines l with Some r => Some (e :: r) | None => None end
      | None => None
      end
  end.
Definition parse_kernel_symbols (s : list Z) : option (list (Z * list Z)) := ksym_lines (lines s).

(** [BTreeMap::get] after inserting in order: the last entry wins. *)
Definition ksym_at (addr : Z) (l : list (Z * list Z)) : option (list Z) :=
  fold_left (fun acc e => if fst e =? addr then Some (snd e) else acc) l None.

(** * Map sizes *)

(** Map type numbers (aya-obj/src/generated/linux_bindings_x86_64.rs,
    [bpf_map_type]). *)
Definition PERF_EVENT_ARRAY : Z := 4.
Definition DEVMAP : Z := 14.
Definition CPUMAP : Z := 16.
Definition DEVMAP_HASH : Z := 25.
Definition RINGBUF : Z := 27.

(** u32 arithmetic that overflows panics in debug builds; release builds wrap.
    The model stops with [Err tt]. *)
Definition u32_checked (x : Z) : res unit Z := if (0 <=? x) && (x <? 2 ^ 32) then Ok x else Err tt.

(** [u32::next_power_of_two]: one more than all ones below the leading one of
    [n - 1]. *)
Definition next_power_of_two (n : Z) : res unit Z :=
  if n <=? 1 then Ok 1 else u32_checked (2 ^ (Z.log2 (n - 1) + 1)).

(** aya/src/bpf.rs:996-1000 [div_ceil]; division by a zero page size panics
    and is not modelled. *)
Definition div_ceil (n rhs : Z) : Z := if (0 <? n mod rhs) && (0 <? rhs) then n / rhs + 1 else n / rhs.

(** aya/src/bpf.rs:988-1003 [adjust_to_page_size]. *)
Definition adjust_to_page_size (byte_size page_size : Z) : res unit Z :=
  if byte_size =? 0 then Ok 0
  else bind (next_power_of_two (div_ceil byte_size page_size)) (fun p => u32_checked (page_size * p)).

(** aya/src/bpf.rs:944-959 [max_entries_override]; the closures are their
    values, [num_cpus] being [None] when the CPU count cannot be read. *)
Inductive size_err := EOverflow | ECpus.
Definition max_entries_override (map_type : Z) (user : option Z) (current : Z) (num_cpus : option Z) (page_size : Z)
    : res size_err (option Z) :=
  let max_entries := match user with Some v => v | None => current end in
  if (map_type =? PERF_EVENT_ARRAY) && (max_entries =? 0) then
    match num_cpus with Some n => Ok (Some n) | None => Err ECpus end
  else if map_type =? RINGBUF then
    match adjust_to_page_size max_entries page_size with
    | Ok adjusted => Ok (if adjusted =? max_entries then user else Some adjusted)
    | Err _ => Err EOverflow
    end
  else Ok user.

(** aya/src/bpf.rs:961-982 [value_size_override]; the feature answers are
    arguments. *)
Definition value_size_override (map_type : Z) (cpumap_prog devmap_prog : bool) : option Z :=
  if map_type =? CPUMAP then Some (if cpumap_prog then 8 else 4)
  else if (map_type =? DEVMAP) || (map_type =? DEVMAP_HASH) then Some (if devmap_prog then 8 else 4)
  else if map_type =? RINGBUF then Some 0
  else None.

(** aya/src/bpf.rs:616-629: the overrides are stored in the map definition
    the map is created from. *)
Definition map_sizes (map_type : Z) (user : option Z) (max_entries value_size : Z) (num_cpus : option Z) (page_size : Z)
    (cpumap_prog devmap_prog : bool) : res size_err (Z * Z) :=
  bind (max_entries_override map_type user max_entries num_cpus page_size) (fun o =>
    Ok (match o with Some v => v | None => max_entries end,
        match value_size_override map_type cpumap_prog devmap_prog with Some v => v | None => value_size end)).

(** * TC handles *)

(** aya/src/programs/tc.rs:148-153 [TcHandle]: two u16. *)
Record handle := { h_major : Z; h_minor : Z }.

(** aya/src/programs/tc.rs:168-172. *)
Definition handle_u32 (h : handle) : Z := Z.lor (Z.shiftl (h_major h) 16) (h_minor h).

(** aya/src/programs/tc.rs:174-181; the casts to u16 truncate. *)
Definition handle_of (v : Z) : handle := {| h_major := u16 (Z.shiftr v 16); h_minor := u16 v |}.

(** aya/src/programs/tc.rs:160 [AUTO_ASSIGN]. *)
Definition auto_assign : handle := {| h_major := 0; h_minor := 0 |}.

(** * Link order *)

(** aya/src/programs/links.rs:631-635 [LinkRef]. *)
Inductive link_ref := RefId (id : Z) | RefFd (fd : Z).

(** aya/src/programs/links.rs:637-647 [MprogFlags], with the values of
    aya-obj/src/generated/linux_bindings_x86_64.rs:233-236, 690. *)
Definition F_REPLACE : Z := 4.
Definition F_BEFORE : Z := 8.
Definition F_AFTER : Z := 16.
Definition F_ID : Z := 32.
Definition F_LINK : Z := 8192.

(** aya/src/programs/links.rs:669-672 [LinkOrder]. *)
Record order := { o_ref : link_ref; o_flags : Z }.

(** aya/src/programs/links.rs:675-748. *)
Definition order_default : order := {| o_ref := RefFd 0; o_flags := F_AFTER |}.
Definition order_first : order := {| o_ref := RefId 0; o_flags := F_BEFORE |}.
Definition order_last : order := {| o_ref := RefId 0; o_flags := F_AFTER |}.
Definition order_before_link (fd : Z) : order := {| o_ref := RefFd fd; o_flags := Z.lor F_BEFORE F_LINK |}.
Definition order_after_link (fd : Z) : order := {| o_ref := RefFd fd; o_flags := Z.lor F_AFTER F_LINK |}.
Definition order_before_program (fd : Z) : order := {| o_ref := RefFd fd; o_flags := F_BEFORE |}.
Definition order_after_program (fd : Z) : order := {| o_ref := RefFd fd; o_flags := F_AFTER |}.
Definition order_before_program_id (id : Z) : order := {| o_ref := RefId id; o_flags := Z.lor F_BEFORE F_ID |}.
Definition order_after_program_id (id : Z) : order := {| o_ref := RefId id; o_flags := Z.lor F_AFTER F_ID |}.

(** aya/src/sys/bpf.rs:473, 483-500 [bpf_link_create]: the flags and the
    [relative_fd] / [relative_id] union of the request. *)
Definition order_request (o : order) : Z * Z :=
  (u32 (o_flags o), u32 (match o_ref o with RefId id => id | RefFd fd => fd end)).
