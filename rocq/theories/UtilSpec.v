(** What the helpers of [UtilModel] are expected to compute. *)
From Coq Require Import String.
From Verif Require Import Base Text TextParse TextSplit UtilModel.
Local Open Scope Z_scope.

(** * Kernel versions *)

Definition kver_ok (v : kver) : Prop := 0 <= k_major v < 256 /\ 0 <= k_minor v < 256 /\ 0 <= k_patch v < 65536.

(** The version as one number, every field in its own digits. *)
Definition kval (v : kver) : Z := k_major v * 2 ^ 24 + k_minor v * 2 ^ 16 + k_patch v.

(** The release lines on which the kernel stopped counting patches early, and
    the first patch it stopped at; every other line stops at 255
    (KERNEL_VERSION in the kernel's Makefile). *)
Definition stopped_at (v : kver) (limit : Z) : Prop :=
  (k_major v = 4 /\ k_minor v = 4 /\ limit = 257) \/ (k_major v = 4 /\ k_minor v = 9 /\ limit = 257) \/
  (k_major v = 4 /\ k_minor v = 14 /\ limit = 252) \/ (k_major v = 4 /\ k_minor v = 19 /\ limit = 222) \/
  (~ (k_major v = 4 /\ (k_minor v = 4 \/ k_minor v = 9 \/ k_minor v = 14 \/ k_minor v = 19)) /\ limit = 255).

(** The two versions whose patch spilled into the minor field, in the kernel
    as well: 4.4.256 and 4.9.256. *)
Definition spilled (v : kver) : Prop := k_major v = 4 /\ (k_minor v = 4 \/ k_minor v = 9) /\ k_patch v = 256.

(** A version text: three decimal numbers between dots, then nothing or
    anything that does not start with a digit. *)
Definition version_text (major minor patch : Z) (rest : list Z) : list Z :=
  dec major ++ 46 :: dec minor ++ 46 :: dec patch ++ rest.
Definition no_digit_first (s : list Z) : Prop := match s with [] => True | c :: _ => is_digit c = false end.

(** * CPU lists *)

(** A number as the library reads it: decimal digits, after an optional plus
    sign, below [2^32]. *)
Definition number (s : list Z) (n : Z) : Prop :=
  exists d, (s = d \/ s = 43 :: d) /\ d <> [] /\ Forall (fun c => is_digit c = true) d /\ dec_val d = n /\ n < 2 ^ 32.

Definition range_text (s : list Z) (ab : Z * Z) : Prop :=
  (number s (fst ab) /\ snd ab = fst ab) \/
  (exists x y, s = x ++ 45 :: y /\ number x (fst ab) /\ number y (snd ab)).

(** The CPUs of a range, ascending. *)
Fixpoint cpus_from (a : Z) (n : nat) : list Z :=
  match n with
  | O => []
  | S n => a :: cpus_from (a + 1) n
  end.
Definition cpus (ab : Z * Z) : list Z := cpus_from (fst ab) (Z.to_nat (snd ab - fst ab + 1)).

(** How the kernel prints a set of CPUs ([%*pbl], lib/vsprintf.c
    [bitmap_list_string]): ranges [a-b], single CPUs [a]. *)
Definition print_range (ab : Z * Z) : list Z := if fst ab =? snd ab then dec (fst ab) else dec (fst ab) ++ 45 :: dec (snd ab).
Definition print_cpus (l : list (Z * Z)) : list Z := join 44 (map print_range l).

(** Increasing, non-adjacent ranges. *)
Fixpoint ranges_ok (from : Z) (l : list (Z * Z)) : Prop :=
  match l with
  | [] => True
  | (a, b) :: l => from <= a /\ a <= b /\ b < 2 ^ 32 /\ ranges_ok (b + 2) l
  end.

(** * Ring buffer sizes *)

(** What the kernel accepts ([ringbuf_map_alloc]): a power-of-two multiple of
    the page size. *)
Definition legal (page n : Z) : Prop := exists k, 0 <= k /\ n = page * 2 ^ k.
Definition smallest_legal (page n r : Z) : Prop := legal page r /\ n <= r /\ forall r', legal page r' -> n <= r' -> r <= r'.

(** * Link order *)

(** How the kernel reads the flags and the reference of a multi-program attach
    request (kernel/bpf/mprog.c [bpf_mprog_tuple_relative],
    [bpf_mprog_attach]): the link flag selects a link; otherwise, without the
    id flag, a zero reference is no reference. *)
Inductive target := TLinkFd (fd : Z) | TLinkId (id : Z) | TProgFd (fd : Z) | TProgId (id : Z).
Inductive place := First | Last | Before (t : target) | After (t : target).
Definition kernel_target (flags ref : Z) : option target :=
  if Z.testbit flags 13 then Some (if Z.testbit flags 5 then TLinkId ref else TLinkFd ref)
  else if Z.testbit flags 5 then Some (TProgId ref)
  else if ref =? 0 then None
  else Some (TProgFd ref).
Definition kernel_place (req : Z * Z) : option place :=
  let (flags, ref) := req in
  if negb (Z.land flags (Z.lnot 8248) =? 0) then None
  else match Z.testbit flags 3, Z.testbit flags 4 with
       | true, false => Some (match kernel_target flags ref with None => First | Some t => Before t end)
       | false, true => Some (match kernel_target flags ref with None => Last | Some t => After t end)
       | _, _ => None
       end.

(** * Kernel symbols *)

(** A line of /proc/kallsyms as the kernel prints it (kernel/kallsyms.c
    [s_show]): address, kind and name between spaces, and for symbols of
    modules a tab and the module in brackets. *)
Record ksym := { s_addr : Z; s_kind : Z; s_name : list Z; s_module : option (list Z) }.
Definition print_module (m : option (list Z)) : list Z := match m with None => [] | Some m => 9 :: 91 :: m ++ [93] end.
Definition print_ksym (s : ksym) : list Z := hex_fixed 16 (s_addr s) ++ 32 :: [s_kind s] ++ 32 :: s_name s ++ print_module (s_module s).
Definition ksym_ok (s : ksym) : Prop :=
  0 <= s_addr s < 2 ^ 64 /\ s_kind s <> 32 /\ s_kind s <> 10 /\ Forall (fun c => c <> 32 /\ c <> 10) (s_name s) /\
  Forall (fun c => c <> 32 /\ c <> 10) (match s_module s with None => [] | Some m => m end).
