(** What should be reported about a program. *)
From Coq Require Import String.
From Verif Require Import Base Text TextParse.
Import ListNotations.
Local Open Scope Z_scope.

(** A field of the kernel's structure, if the kernel has it: kernels only
    ever append fields, so an older kernel's structure is shorter.  It does
    not end within a field. *)
Definition k_bytes (kernel : list Z) (o s : nat) : option (list Z) :=
  if (o + s <=? length kernel)%nat then Some (firstn s (skipn o kernel)) else None.
Definition k_field (kernel : list Z) (o s : nat) : option Z := option_map le_dec (k_bytes kernel o s).
Definition whole (kernel : list Z) : Prop := Forall (fun '(o, s) => (o + s <= length kernel \/ length kernel <= o)%nat)
  [(0, 4); (4, 4); (8, 8); (16, 4); (20, 4); (40, 8); (48, 4); (52, 4); (64, 16); (84, 4); (128, 4); (192, 8); (200, 8); (216, 4)]%nat.
Definition whole_map (kernel : list Z) : Prop := Forall (fun '(o, s) => (o + s <= length kernel \/ length kernel <= o)%nat)
  [(0, 4); (4, 4); (8, 4); (12, 4); (16, 4); (20, 4); (24, 16)]%nat.

(** A value that is reported only if there is one. *)
Definition some_positive (v : option Z) : option Z := match v with Some x => if 0 <? x then Some x else None | None => None end.
Definition or_zero (v : option Z) : Z := match v with Some x => x | None => 0 end.

(** How the kernel writes the tag: fs/proc, [bin2hex]. *)
Definition tag_text (tag : list Z) : list Z := flat_map (hex_fixed 2) tag.

(** How the kernel stores a name: [bpf_obj_name_cpy]: up to 15 characters,
    filled with zeroes. *)
Definition stored_name (n : list Z) : list Z := n ++ repeat 0 (16 - length n).
Definition good_name (n : list Z) : Prop := (length n <= 15)%nat /\ Forall (fun c => 0 < c < 128) n.

(** /proc/self/fdinfo/N for a program: fs/proc/fd.c [seq_show],
    kernel/bpf/syscall.c [bpf_prog_show_fdinfo]. *)
Record fd_state := { fs_pos : Z; fs_flags : Z; fs_mnt : Z; fs_ino : Z; fs_type : Z; fs_jited : Z; fs_tag : Z; fs_memlock : Z; fs_id : Z;
                     fs_time : Z; fs_cnt : Z; fs_misses : Z; fs_insns : Z }.
Definition row (k : string) (v : list Z) : list Z := txt k ++ [9] ++ v.
Definition fdinfo_file (f : fd_state) : list Z :=
  unlines [row "pos:" (dec (fs_pos f)); row "flags:" (dec (fs_flags f)); row "mnt_id:" (dec (fs_mnt f)); row "ino:" (dec (fs_ino f));
    row "prog_type:" (dec (fs_type f)); row "prog_jited:" (dec (fs_jited f)); row "prog_tag:" (hex_fixed 16 (fs_tag f)); row "memlock:" (dec (fs_memlock f));
    row "prog_id:" (dec (fs_id f)); row "run_time_ns:" (dec (fs_time f)); row "run_cnt:" (dec (fs_cnt f)); row "recursion_misses:" (dec (fs_misses f));
    row "verified_insns:" (dec (fs_insns f))].
Definition fd_numbers (f : fd_state) : Prop :=
  Forall (fun n => 0 <= n < 2 ^ 64) [fs_pos f; fs_flags f; fs_mnt f; fs_ino f; fs_type f; fs_jited f; fs_memlock f; fs_id f; fs_time f; fs_cnt f; fs_misses f; fs_insns f].
(** A program has at most 65535 pages of at most 64 KiB. *)
Definition program_pages (f : fd_state) : Prop := exists pages size, fs_memlock f = pages * size /\ 0 <= pages < 2 ^ 16 /\ 0 <= size <= 2 ^ 16.
