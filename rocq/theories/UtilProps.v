(** Properties C38, C39, C40, C49, C66 and C67: kernel versions, CPU lists,
    ring buffer sizes, TC handles and link order, version detection, kernel
    symbols. *)
From Coq Require Import String.
From Verif Require Import Base Text TextParse TextSplit UtilModel UtilSpec UtilProofs.
Local Open Scope Z_scope.

Definition mk (a b c : Z) : kver := {| k_major := a; k_minor := b; k_patch := c |}.

(** * C38 *)

(** Comparing versions is comparing (major, minor, patch), a total order. *)
Theorem C38_order : forall a b, kver_ok a -> kver_ok b ->
  kver_cmp a b = (kval a ?= kval b) /\ (kver_ge a b = true <-> kval b <= kval a) /\ (kver_cmp a b = Eq <-> a = b).
Proof. exact kver_order. Qed.

(** The code of a version, with the patch stopped at 255 from the line's limit
    on. *)
Theorem C38_code : forall v limit, stopped_at v limit ->
  (k_patch v < limit -> code v = k_major v * 65536 + k_minor v * 256 + k_patch v) /\
  (limit <= k_patch v -> code v = k_major v * 65536 + k_minor v * 256 + 255).
Proof. exact code_spec. Qed.

(** Later versions never get a smaller code, the two spilled ones aside. *)
Theorem C38_monotone_partial : forall a b, kver_ok a -> kver_ok b -> ~ spilled a -> kver_cmp a b <> Gt -> code a <= code b.
Proof. exact code_monotone. Qed.

(** And a larger one, unless the earlier patch is stopped already. *)
Theorem C38_strict : forall a b, kver_ok a -> kver_ok b -> (forall limit, stopped_at a limit -> k_patch a < Z.min 255 limit) ->
  kver_cmp a b = Lt -> code a < code b.
Proof. exact code_strict. Qed.

(** The code of 4.4.256 is that of 4.5.0 and above that of 4.4.257, which is a
    later version (the kernel has the same defect). *)
Theorem C38_code_refuted : exists a b c, kver_ok a /\ kver_ok b /\ kver_ok c /\
  kver_cmp a b = Lt /\ kver_cmp a c = Lt /\ code a = code b /\ code c < code a.
Proof. exists (mk 4 4 256), (mk 4 5 0), (mk 4 4 257). unfold kver_ok. cbn [mk k_major k_minor k_patch]. vm_compute. intuition discriminate. Qed.

Print Assumptions C38_order. Print Assumptions C38_code. Print Assumptions C38_monotone_partial. Print Assumptions C38_strict. Print Assumptions C38_code_refuted.

Example C38_example : stopped_at (mk 4 19 300) 222 /\ code (mk 4 19 221) = 267229 /\ code (mk 4 19 222) = 267263 /\
  code (mk 4 14 251) = 265979 /\ code (mk 4 14 252) = 265983 /\ code (mk 4 4 256) = 263424 /\ code (mk 4 4 257) = 263423 /\
  code (mk 4 9 255) = 264703 /\ code (mk 6 1 300) = 393727 /\ code (mk 5 10 254) = 330494 /\
  (forall limit, stopped_at (mk 5 10 254) limit -> 254 < Z.min 255 limit).
Proof. split; [unfold stopped_at; cbn; lia|]. do 9 (split; [vm_compute; reflexivity|]). unfold stopped_at. cbn. lia. Qed.

(** * C39 *)

(** What the kernel prints for a set of CPUs parses to exactly its members, in
    order and without repetition; the file may end in white space. *)
Theorem C39_round_trip : forall l w, l <> [] -> ranges_ok 0 l -> Forall (fun c => is_ws c = true) w ->
  read_cpu_ranges (print_cpus l ++ w) = Some (concat (map cpus l)) /\
  (forall x, In x (concat (map cpus l)) <-> Exists (fun ab => fst ab <= x <= snd ab) l) /\
  NoDup (concat (map cpus l)).
Proof. exact cpus_round_trip. Qed.

(** The number of CPUs is how many CPUs the set has. *)
Theorem C39_count : forall l w, l <> [] -> ranges_ok 0 l -> Forall (fun c => is_ws c = true) w ->
  nr_cpus (print_cpus l ++ w) = Some (fold_right (fun ab n => snd ab - fst ab + 1 + n) 0 l).
Proof. exact cpus_count. Qed.
Print Assumptions C39_count.

(** Exactly the comma separated lists of numbers and pairs of numbers are
    accepted, and the CPUs are those the ranges denote, in order. *)
Theorem C39_accepted : forall s r, parse_cpu_ranges s = Some r <->
  exists parts rs, parts <> [] /\ s = join 44 parts /\ Forall2 range_text parts rs /\ r = concat (map cpus rs).
Proof. exact parse_cpu_ranges_iff. Qed.

(** Ranges that end before they start are accepted as empty, and numbers may
    carry a plus sign: malformed lists that are no error. *)
Theorem C39_malformed_refuted : parse_cpu_ranges (txt "3-1") = Some [] /\ parse_cpu_ranges (txt "0,+2-+3") = Some [0; 2; 3].
Proof. vm_compute. auto. Qed.

Print Assumptions C39_round_trip. Print Assumptions C39_accepted. Print Assumptions C39_malformed_refuted.

Example C39_example : print_cpus [(0, 3); (5, 5); (8, 9)] = txt "0-3,5,8-9" /\ ranges_ok 0 [(0, 3); (5, 5); (8, 9)] /\
  read_cpu_ranges (txt "0-3,5,8-9
") = Some [0; 1; 2; 3; 5; 8; 9] /\ nr_cpus (txt "0-3") = Some 4 /\
  read_cpu_ranges (txt "") = None /\ read_cpu_ranges (txt "0-3,") = None /\ read_cpu_ranges (txt "0-1-2") = None /\
  read_cpu_ranges (txt "a") = None /\ read_cpu_ranges (txt "4294967296") = None /\ read_cpu_ranges (txt "0 - 3") = None.
Proof. vm_compute. intuition discriminate. Qed.

(** * C40 *)

(** The size chosen for a ring buffer is the smallest legal one that fits the
    requested size (the user's if given); 0 stays 0, and the value size is 0. *)
Theorem C40_size : forall user cur vs cpus page cp dp n v, 0 < page ->
  map_sizes RINGBUF user cur vs cpus page cp dp = Ok (n, v) ->
  let wanted := match user with Some u => u | None => cur end in
  v = 0 /\ (wanted = 0 -> n = 0) /\ (0 < wanted -> smallest_legal page wanted n).
Proof. exact sizes_ringbuf. Qed.

(** Every size up to half of the 32-bit range gets one. *)
Theorem C40_total : forall user cur vs cpus j cp dp, 0 <= j <= 31 ->
  (0 <= match user with Some u => u | None => cur end <= 2 ^ 31) -> exists r, map_sizes RINGBUF user cur vs cpus (2 ^ j) cp dp = Ok r.
Proof. exact sizes_ringbuf_total. Qed.

(** Every larger request overflows: a panic in debug builds (release builds
    wrap to size 0). *)
Theorem C40_overflow_refuted : forall n j, 0 <= j <= 31 -> 2 ^ 31 < n < 2 ^ 32 -> adjust_to_page_size n (2 ^ j) = Err tt.
Proof. exact adjust_overflow. Qed.

(** Other maps keep their sizes; a perf event array without size gets one
    entry per CPU. *)
Theorem C40_others :
  (forall user cur vs n page cp dp, map_sizes PERF_EVENT_ARRAY user cur vs (Some n) page cp dp =
     Ok (let w := match user with Some u => u | None => cur end in if w =? 0 then n else w, vs)) /\
  (forall t user cur vs cpus page cp dp, t <> PERF_EVENT_ARRAY -> t <> RINGBUF -> t <> CPUMAP -> t <> DEVMAP -> t <> DEVMAP_HASH ->
     map_sizes t user cur vs cpus page cp dp = Ok (match user with Some u => u | None => cur end, vs)).
Proof. exact (conj sizes_perf sizes_other). Qed.

Print Assumptions C40_size. Print Assumptions C40_total. Print Assumptions C40_overflow_refuted. Print Assumptions C40_others.

Example C40_example : adjust_to_page_size 0 4096 = Ok 0 /\ adjust_to_page_size 1 4096 = Ok 4096 /\ adjust_to_page_size 4097 4096 = Ok 8192 /\
  adjust_to_page_size 12289 4096 = Ok 16384 /\ adjust_to_page_size 8192 4096 = Ok 8192 /\ adjust_to_page_size (2 ^ 31) 65536 = Ok (2 ^ 31) /\
  map_sizes RINGBUF (Some 5000) 4096 8 None 4096 true true = Ok (8192, 0) /\ map_sizes RINGBUF None 4096 8 None 4096 true true = Ok (4096, 0) /\
  map_sizes RINGBUF (Some 8192) 4096 8 None 4096 true true = Ok (8192, 0) /\
  map_sizes 4 None 0 4 (Some 6) 4096 true true = Ok (6, 4) /\ map_sizes 16 None 7 4 None 4096 true false = Ok (7, 8) /\
  map_sizes 25 None 7 8 None 4096 true false = Ok (7, 4) /\ map_sizes 1 (Some 3) 7 8 None 4096 true false = Ok (3, 8).
Proof. vm_compute. repeat split. Qed.

(** * C49 *)

(** Handles and 32-bit values convert both ways without loss. *)
Theorem C49_handle :
  (forall h, 0 <= h_major h < 2 ^ 16 -> 0 <= h_minor h < 2 ^ 16 -> handle_of (handle_u32 h) = h /\ 0 <= handle_u32 h < 2 ^ 32) /\
  (forall v, 0 <= v < 2 ^ 32 -> handle_u32 (handle_of v) = v /\ 0 <= h_major (handle_of v) < 2 ^ 16 /\ 0 <= h_minor (handle_of v) < 2 ^ 16) /\
  (forall h, 0 <= h_minor h < 2 ^ 16 -> 0 <= h_major h -> handle_u32 h = h_major h * 2 ^ 16 + h_minor h).
Proof. exact (conj handle_round (conj handle_back handle_u32_eq)). Qed.

(** Every order reaches the kernel as the place it names; descriptors are not
    0. *)
Theorem C49_order_partial : forall fd id, 0 < fd < 2 ^ 31 -> 0 <= id < 2 ^ 32 ->
  kernel_place (order_request order_default) = Some Last /\
  kernel_place (order_request order_first) = Some First /\
  kernel_place (order_request order_last) = Some Last /\
  kernel_place (order_request (order_before_link fd)) = Some (Before (TLinkFd fd)) /\
  kernel_place (order_request (order_after_link fd)) = Some (After (TLinkFd fd)) /\
  kernel_place (order_request (order_before_program fd)) = Some (Before (TProgFd fd)) /\
  kernel_place (order_request (order_after_program fd)) = Some (After (TProgFd fd)) /\
  kernel_place (order_request (order_before_program_id id)) = Some (Before (TProgId id)) /\
  kernel_place (order_request (order_after_program_id id)) = Some (After (TProgId id)).
Proof. exact order_places. Qed.

(** A program whose descriptor is 0 is not a reference for the kernel: before
    it means before all. *)
Theorem C49_fd_zero_refuted : kernel_place (order_request (order_before_program 0)) = Some First /\
  kernel_place (order_request (order_after_program 0)) = Some Last.
Proof. vm_compute. auto. Qed.

Print Assumptions C49_handle. Print Assumptions C49_order_partial. Print Assumptions C49_fd_zero_refuted.

Example C49_example : handle_u32 {| h_major := 1; h_minor := 2 |} = 65538 /\ handle_of 4294901760 = {| h_major := 65535; h_minor := 0 |} /\
  handle_u32 auto_assign = 0 /\ order_request (order_after_link 7) = (8208, 7).
Proof. vm_compute. auto. Qed.

(** * C66 *)

(** A version followed by anything but a digit is read exactly; numbers out of
    range are errors; and whatever is accepted is three numbers in range. *)
Theorem C66_parse :
  (forall v rest, kver_ok v -> no_digit_first rest -> parse_version (version_text (k_major v) (k_minor v) (k_patch v) rest) = Some v) /\
  (forall major minor patch rest, 0 <= major < 10 ^ 20 -> 0 <= minor < 10 ^ 20 -> 0 <= patch < 10 ^ 20 -> no_digit_first rest ->
     ~ (major < 256 /\ minor < 256 /\ patch < 65536) -> parse_version (version_text major minor patch rest) = None) /\
  (forall s v, parse_version s = Some v ->
     exists a b c x y rest, s = a ++ x :: b ++ y :: c ++ rest /\ is_digit x = false /\ is_digit y = false /\ no_digit_first rest /\
       Forall (fun c => is_digit c = true) (a ++ b ++ c) /\ a <> [] /\ b <> [] /\ c <> [] /\
       dec_val a = k_major v /\ dec_val b = k_minor v /\ dec_val c = k_patch v /\ kver_ok v).
Proof. exact (conj parse_version_ok (conj parse_version_big parse_version_inv)). Qed.

(** The Ubuntu signature wins, then the Debian part of the version, then the
    release. *)
Theorem C66_sources :
  (forall a b v w rest version release, Forall (fun c => is_ws c = false) a -> Forall (fun c => is_ws c = false) b -> kver_ok v -> is_ws w = true ->
     get_kernel_version (Some (a ++ 32 :: b ++ 32 :: kver_text v ++ w :: rest)) version release = Some v) /\
  (forall a v rest release, kver_ok v -> no_digit_first rest ->
     (forall pre r, a ++ txt "Debian " ++ version_text (k_major v) (k_minor v) (k_patch v) rest = pre ++ txt "Debian " ++ r -> (length a <= length pre)%nat) ->
     get_kernel_version None (a ++ txt "Debian " ++ version_text (k_major v) (k_minor v) (k_patch v) rest) release = Some v) /\
  (forall version release, (~ exists pre r, version = pre ++ txt "Debian " ++ r) ->
     get_kernel_version None version release = parse_version release).
Proof. exact kver_sources. Qed.

(** The test used for version dependent choices. *)
Theorem C66_at_least : forall v major minor patch, kver_ok v -> kver_ok (mk major minor patch) ->
  (at_least (Some v) major minor patch = true <-> kval (mk major minor patch) <= kval v) /\ at_least None major minor patch = false.
Proof.
  exact (fun v major minor patch Hv Hm => conj (proj1 (proj2 (C38_order v (mk major minor patch) Hv Hm))) eq_refl).
Qed.

Print Assumptions C66_parse. Print Assumptions C66_sources. Print Assumptions C66_at_least.

Example C66_example :
  get_kernel_version (Some (txt "Ubuntu 4.15.0-55.60-generic 4.15.18
")) (txt "#1 SMP Debian 4.9.2-1") (txt "5.1.2") = Some (mk 4 15 18) /\
  get_kernel_version (Some (txt "Ubuntu 4.15.0")) (txt "#1 SMP Debian 4.9.2-1") (txt "5.1.2") = Some (mk 4 9 2) /\
  get_kernel_version None (txt "#1 SMP") (txt "5.10.0-8-amd64") = Some (mk 5 10 0) /\
  get_kernel_version None (txt "#1 SMP") (txt "5.10") = None /\ get_kernel_version None (txt "#1 SMP") (txt "6.1-rc3") = None /\
  at_least None 0 0 0 = false /\ at_least (Some (mk 5 10 0)) 5 9 300 = true /\ kver_text (mk 5 10 7) = txt "5.10.7".
Proof. vm_compute. repeat split. Qed.

(** * C67 *)

(** The lines of /proc/kallsyms give one entry each, in order; of several
    symbols at an address the last is kept. *)
Theorem C67_symbols_partial :
  (forall l, Forall ksym_ok l ->
     parse_kernel_symbols (unlines (map print_ksym l)) = Some (map (fun s => (s_addr s, s_name s ++ print_module (s_module s))) l)) /\
  (forall addr l, ksym_at addr l = match find (fun e => fst e =? addr) (rev l) with Some e => Some (snd e) | None => None end).
Proof. exact (conj kernel_symbols_ok ksym_at_last). Qed.

(** One malformed line makes the whole file an error. *)
Theorem C67_malformed :
  (forall s line, In line (lines s) -> ksym_line line = None -> parse_kernel_symbols s = None) /\
  (forall line, ksym_line line = None <->
     ~ exists a k n rest v, line = a ++ 32 :: k ++ 32 :: n ++ rest /\ hex_u64 a = Some v /\
         Forall (fun c => c <> 32) (a ++ k ++ n) /\ match rest with [] => True | c :: _ => c = 32 end).
Proof. exact (conj kernel_symbols_bad ksym_line_bad). Qed.

(** Symbols of modules keep the tab and the module as part of the name. *)
Theorem C67_module_refuted : exists s, ksym_ok s /\ s_module s <> None /\
  match parse_kernel_symbols (unlines [print_ksym s]) with
  | Some l => ksym_at (s_addr s) l <> Some (s_name s)
  | None => False
  end.
Proof.
  exists {| s_addr := 4096; s_kind := 116; s_name := txt "probe"; s_module := Some (txt "nvme") |}.
  unfold ksym_ok. cbn [s_addr s_kind s_name s_module]. split; [|vm_compute; split; discriminate].
  split; [lia|]. split; [lia|]. split; [lia|].
  split; (let l := eval vm_compute in (txt "probe") in change (txt "probe") with l); (let l := eval vm_compute in (txt "nvme") in change (txt "nvme") with l); repeat constructor; discriminate.
Qed.

Print Assumptions C67_symbols_partial. Print Assumptions C67_malformed. Print Assumptions C67_module_refuted.

Example C67_example :
  parse_kernel_symbols (txt "ffffffff81000000 T _text
0000000000001000 t probe	[nvme]
") = Some [(18446744071578845184, txt "_text"); (4096, txt "probe	[nvme]")] /\ parse_kernel_symbols (txt "zz T x") = None /\ parse_kernel_symbols (txt "10 T") = None.
Proof. vm_compute. repeat split. Qed.
