(** C43, C45, C51, C52, C53, C69, C70. *)
From Coq Require Import String.
From Verif Require Import Base Text TextParse TextSplit LogModel UProbeModel UProbeSpec UProbeProofs UProbeProofs2.
Local Open Scope Z_scope.

(** * C43: cookies stay with their locations *)

(** Resolving succeeds exactly if every point resolves; the offsets come in the
    order of the points. *)
Theorem C43_offsets dbg fs path first rest : 
  (forall r, resolve_points dbg fs path first rest = Ok r -> Forall2 (point_at dbg fs path) (first :: rest) (r_offsets r)) /\
  (forall offs, Forall2 (point_at dbg fs path) (first :: rest) offs -> exists r, resolve_points dbg fs path first rest = Ok r).
Proof. exact (conj (fun r H => proj1 (points_spec dbg fs path first rest r H)) (points_exists dbg fs path first rest)). Qed.

(** A kernel multi link gets the offsets, their number, and one cookie each in
    the same order, or no cookies if no point has one. *)
Theorem C43_multi dbg fs path first rest r pid ret : resolve_points dbg fs path first rest = Ok r ->
  let q := multi_link r pid ret in
  Forall2 (point_at dbg fs path) (first :: rest) (mr_offsets q) /\
  (Z.of_nat (length (first :: rest)) < 2 ^ 32 -> mr_cnt q = Z.of_nat (length (first :: rest)) /\ mr_cnt q = Z.of_nat (length (mr_offsets q))) /\
  match mr_cookies q with
  | None => forall p, In p (first :: rest) -> pt_cookie p = None
  | Some cs => Forall2 (fun p c => c = match pt_cookie p with Some c => c | None => 0 end) (first :: rest) cs
  end /\ mr_pid q = pid /\ mr_return q = ret.
Proof. exact (multi_spec dbg fs path first rest r pid ret). Qed.

(** Attaching one by one makes one request per point, in order, each with its
    own offset and cookie. *)
Theorem C43_single dbg fs path first rest r : resolve_points dbg fs path first rest = Ok r ->
  Forall2 (fun p q => point_at dbg fs path p (fst q) /\ snd q = cookie_for (first :: rest) p) (first :: rest) (single_points r).
Proof. exact (singles_spec dbg fs path first rest r). Qed.

(** No array is passed when no point has a cookie, one for all when some has. *)
Theorem C43_array dbg fs path first rest r : resolve_points dbg fs path first rest = Ok r ->
  ((forall p, In p (first :: rest) -> pt_cookie p = None) -> r_cookies r = None) /\
  (forall p c, In p (first :: rest) -> pt_cookie p = Some c -> exists cs, r_cookies r = Some cs /\ length cs = length (first :: rest)).
Proof. exact (points_array dbg fs path first rest r). Qed.

Example C43_witness :
  let pt o c := {| pt_loc := LAbsolute o; pt_cookie := c |} in
  resolve_points (fun f p => f) (fun _ => None) [] (pt 8 None) [pt 16 (Some 7); pt 24 None] = Ok (Many [8; 16; 24] (Some [0; 7; 0])).
Proof. reflexivity. Qed.

(** * C45: many symbols at once *)

(** The batch succeeds exactly if each location resolves alone, with the same
    offsets. *)
Theorem C45_batch dbg fs path l offs : resolve_pending dbg fs path l = Ok offs <-> Forall2 (fun p off => alone dbg fs path p = Ok off) l offs.
Proof. exact (batch_forall dbg fs path l offs). Qed.

(** When it fails, one of the symbols fails alone in the same way. *)
Theorem C45_failure dbg fs path l b e : resolve_pending dbg fs path l = Err (b, e) ->
  exists s a b', In (PSym s a) l /\ alone dbg fs path (PSym s a) = Err (b', e).
Proof. exact (batch_fails dbg fs path l b e). Qed.

(** Where a symbol is looked for: the object's dynamic table, its static table,
    then the debug companion if the build identifiers do not differ. *)
Theorem C45_order dbg fs path name off : resolve_symbol dbg fs path name = Ok off <->
  exists o, fs path = Some (Some o) /\
    ((exists s, object_symbol o name s /\ translated o s name = Ok off) \/
     (object_lacks o name /\ exists f d s, uo_debuglink o = Ok (Some f) /\ fs (dbg f path) = Some (Some d) /\
        (forall x y, uo_build_id o = Some x -> uo_build_id d = Some y -> x = y) /\ object_symbol d name s /\ translated d s name = Ok off)).
Proof. exact (resolve_symbol_ok dbg fs path name off). Qed.

(** The symbol an error is reported for need not be the one that fails: here
    [a] resolves, [b] has a section index out of range, and the error names
    [a]. *)
Definition blame_object : uobj :=
  {| uo_kind := KDynamic; uo_dynamic := [{| us_name := Some [97]; us_addr := 16; us_section := Some 0%nat |}; {| us_name := Some [98]; us_addr := 16; us_section := Some 9%nat |}];
     uo_static := []; uo_sections := [{| uc_addr := 0; uc_offset := Some 64 |}]; uo_debuglink := Ok None; uo_build_id := None |}.
Theorem C45_blame_refuted : exists dbg fs path,
  resolve_symbol dbg fs path [97] = Ok 80 /\ resolve_symbol dbg fs path [98] = Err RObject /\
  resolve_pending dbg fs path [PSym [97] 0; PSym [98] 0] = Err ([97], RObject).
Proof. exists (fun f p => f), (fun _ => Some (Some blame_object)), []. vm_compute. auto. Qed.

(** * C51: addresses *)

Theorem C51_convert a sa so r : from_virtual_address a sa so = Ok r <-> sa <= a /\ r = a - sa + so /\ r < 2 ^ 64.
Proof. exact (from_virtual_address_ok a sa so r). Qed.
Theorem C51_reject a sa so : (from_virtual_address a sa so = Err AddressNotInSection <-> a < sa) /\
  (from_virtual_address a sa so = Err FileOffsetOverflow <-> sa <= a /\ 2 ^ 64 <= a - sa + so).
Proof. exact (from_virtual_address_err a sa so). Qed.
Theorem C51_symbol o s name off : 
  (linked o -> (translated o s name = Ok off <-> file_offset o s off)) /\ (~ linked o -> translated o s name = Ok (us_addr s)).
Proof. exact (conj (translated_linked o s name off) (translated_unlinked o s name)). Qed.

(** Addresses past the end of the section are converted: the size is not
    looked at. *)
Theorem C51_range_refuted : exists sec_addr sec_size sec_offset addr, sec_addr + sec_size <= addr /\ from_virtual_address addr sec_addr sec_offset = Ok 12288.
Proof. exists 4096, 4096, 4096, 12288. split; [lia|reflexivity]. Qed.
(** A symbol below its section, or an offset past the end of the address
    space, is an overflow. *)
Definition low_object : uobj :=
  {| uo_kind := KDynamic; uo_dynamic := [{| us_name := Some [97]; us_addr := 16; us_section := Some 0%nat |}]; uo_static := [];
     uo_sections := [{| uc_addr := 32; uc_offset := Some 64 |}]; uo_debuglink := Ok None; uo_build_id := None |}.
Theorem C51_symbol_refuted : 
  resolve_symbol (fun f p => f) (fun _ => Some (Some low_object)) [] [97] = Err RPanic /\
  exists o fs, fs [] = Some (Some o) /\ resolve_symbol (fun f p => f) fs [] [97] = Ok 80 /\ resolve_pending (fun f p => f) fs [] [PSym [97] (2 ^ 64 - 1)] = Err ([97], RPanic).
Proof. split; [reflexivity|]. exists blame_object, (fun _ => Some (Some blame_object)). vm_compute. auto. Qed.

(** * C52: the library cache *)

Theorem C52_new data l : new_cache data l -> parse_cache data = Ok l.
Proof. exact (parse_new data l). Qed.
Theorem C52_old data l : old_cache data l -> (20 <= length data)%nat -> utf8 (firstn 20 data) = true -> parse_cache data = Ok l.
Proof. exact (parse_old data l). Qed.
Theorem C52_first l lib s : stem_of lib s ->
  (forall v, cache_resolve l lib = Some v <-> exists pre e post, l = pre ++ e :: post /\ ce_value e = v /\ key_names s (ce_key e) /\ Forall (fun x => ~ key_names s (ce_key x)) pre) /\
  (cache_resolve l lib = None <-> Forall (fun x => ~ key_names s (ce_key x)) l).
Proof. exact (resolve_spec l lib s). Qed.
(** A cache whose positions lie inside it and whose last byte is zero is
    parsed or rejected. *)
Theorem C52_safe_partial data : bytes_ok data = true -> (exists d, data = d ++ [0]) -> cache_inside data ->
  (exists l, parse_cache data = Ok l) \/ parse_cache data = Err CEof \/ parse_cache data = Err CInvalid.
Proof. exact (parse_safe data). Qed.

(** A position past the end is a panic. *)
Theorem C52_panic_refuted : exists data, bytes_ok data = true /\ parse_cache data = Err CPanic.
Proof. exists (txt "glibc-ld.so.cache1.1" ++ le_enc 4 1 ++ repeat 0 24 ++ repeat 0 4 ++ le_enc 4 1000 ++ repeat 0 16). split; vm_compute; reflexivity. Qed.
(** A text without an end is read past the end of the buffer. *)
Theorem C52_oob_refuted : exists data, bytes_ok data = true /\ parse_cache data = Err COob.
Proof. exists (txt "glibc-ld.so.cache1.1" ++ le_enc 4 1 ++ repeat 0 24 ++ repeat 0 4 ++ le_enc 4 72 ++ repeat 0 16 ++ [97]). split; vm_compute; reflexivity. Qed.
(** A well-formed cache of the old format with 200 entries is rejected: the
    bytes after the magic must be text. *)
Definition cache200 : list Z := txt "ld.so-1.7.0" ++ 0 :: le_enc 4 200 ++ concat (repeat (repeat 0 12) 200) ++ [0].
Theorem C52_old_refuted : exists data l, old_cache data l /\ parse_cache data = Err CInvalid.
Proof. exact old_200. Qed.
(** The exact name of a library is not found, nor is a bare stem that has no
    [.so] after it. *)
Theorem C52_name_refuted : exists l, 
  cache_resolve l (txt "libc.so.6") = None /\ cache_resolve l (txt "libc.so") = Some (txt "/lib/libc.so.6") /\ exists e, In e l /\ ce_key e = txt "libc.so.6".
Proof. exists [{| ce_key := txt "libc.so.6"; ce_value := txt "/lib/libc.so.6"; ce_flags := 3 |}]. split; [reflexivity|]. split; [reflexivity|]. eexists. split; [now left|reflexivity]. Qed.

Example C52_witness : exists data l, new_cache data l /\ length l = 1%nat.
Proof. exact new_one. Qed.

(** * C53: process maps *)

Theorem C53_line e line : map_line e line -> parse_entry line = Some e.
Proof. exact (parse_line e line). Qed.
Theorem C53_file es ls : es <> [] -> Forall2 map_line es ls -> libs (unlines ls) = map Some es.
Proof. exact (libs_spec es ls). Qed.
Theorem C53_library es ls lib s : es <> [] -> Forall2 map_line es ls -> stem_of lib s ->
  (forall p, find_library (unlines ls) lib = Some (Some p) <-> first_path s es p) /\
  (find_library (unlines ls) lib = Some None <-> no_path s es).
Proof. exact (find_library_spec es ls lib s). Qed.
Theorem C53_file_name dir f : ~ In 47 f -> f <> [] -> f <> [46] -> f <> [46; 46] -> file_name (dir ++ 47 :: f) = Some f /\ file_name f = Some f.
Proof. exact (file_name_last dir f). Qed.

Definition line_libc : list Z := txt "7f0000000000-7f0000001000 r-xp 00000000 08:01 77 /lib/libc.so.6".
(** One line with an inode number of 33 bits makes every lookup fail. *)
Theorem C53_inode_refuted : exists line, line = txt "00400000-00401000 r-xp 00000000 08:01 4294967296 /bin/app" /\
  find_library (unlines [line_libc]) (txt "libc") = Some (Some (txt "/lib/libc.so.6")) /\ find_library (unlines [line; line_libc]) (txt "libc") = None.
Proof. eexists. split; [reflexivity|]. split; vm_compute; reflexivity. Qed.
(** A path that ends in a blank is cut short. *)
Theorem C53_blank_refuted : exists e, 
  parse_entry (txt "00400000-00401000 r-xp 00000000 08:01 7 /bin/app ") = Some e /\ me_path e = Some (txt "/bin/app").
Proof. eexists. split; [vm_compute; reflexivity|reflexivity]. Qed.
(** A process without mappings is an error, not a miss. *)
Theorem C53_empty_refuted : forall lib, find_library (unlines []) lib = None.
Proof. reflexivity. Qed.
(** Another library whose name continues with a dash is taken. *)
Theorem C53_dash_refuted : 
  find_library (unlines [txt "7f0000100000-7f0000101000 r-xp 00000000 08:01 78 /lib/libc-client.so.2007"; line_libc]) (txt "libc.so") = Some (Some (txt "/lib/libc-client.so.2007")).
Proof. vm_compute. reflexivity. Qed.

Example C53_witness : exists e, map_line e line_libc /\ me_path e = Some (txt "/lib/libc.so.6") /\ me_inode e = 77.
Proof. exact libc_line. Qed.

(** * C69: the process asked for *)

(** Both ways of attaching fire for the processes asked for.  A perf event may
    name the caller itself; the multi link treats the caller's own number as
    the caller. *)
Theorem C69_perf me s : 0 < me < 2 ^ 31 -> (forall pid, s = OneProcess pid -> 0 < pid < 2 ^ 31) ->
  match snd (fst (scope_pids me s)) with p => perf_fires (perf_scope p) end =
  match s with AllProcesses => FiresAll | CallingProcess => FiresCaller | OneProcess pid => FiresOne pid end.
Proof. exact (scope_perf me s). Qed.
Theorem C69_multi me s : 0 < me < 2 ^ 31 -> (forall pid, s = OneProcess pid -> 0 < pid < 2 ^ 31 /\ pid <> me) ->
  multi_fires me (snd (scope_pids me s)) =
  match s with AllProcesses => FiresAll | CallingProcess => FiresCaller | OneProcess pid => FiresOne pid end.
Proof. exact (scope_multi me s). Qed.
(** The maps read are those of the process asked for; none for all
    processes. *)
Theorem C69_maps me s : fst (fst (scope_pids me s)) = match s with AllProcesses => None | CallingProcess => Some me | OneProcess pid => Some pid end.
Proof. exact (scope_maps me s). Qed.

(** * C70: attach targets *)

Theorem C70_path t maps cache : In 47 t -> resolve_target t maps cache = Ok t.
Proof. exact (target_path t maps cache). Qed.
Theorem C70_mapped t maps cache p : ~ In 47 t -> t <> [] -> t <> [46] -> t <> [46; 46] -> find_library maps t = Some (Some p) -> resolve_target t (Some maps) cache = Ok p.
Proof. exact (fun a b c d => target_maps t maps cache p (basename_names t a b c d)). Qed.
Theorem C70_cached t maps l : ~ In 47 t -> t <> [] -> t <> [46] -> t <> [46; 46] -> match maps with Some m => find_library m t = Some None | None => True end ->
  resolve_target t maps (Ok l) = match cache_resolve l t with Some p => Ok p | None => Err TInvalid end.
Proof. exact (fun a b c d => target_cache t maps l (basename_names t a b c d)). Qed.
(** A maps file that cannot be parsed fails the lookup though the cache has the
    library. *)
Theorem C70_maps_refuted : exists maps l, resolve_target (txt "libc") None (Ok l) = Ok (txt "/lib/libc.so.6") /\ resolve_target (txt "libc") (Some maps) (Ok l) = Err TProcMap.
Proof. exists [], [{| ce_key := txt "libc.so.6"; ce_value := txt "/lib/libc.so.6"; ce_flags := 3 |}]. split; vm_compute; reflexivity. Qed.

Print Assumptions C43_single.
Print Assumptions C45_batch.
Print Assumptions C51_symbol.
Print Assumptions C52_new.
Print Assumptions C52_safe_partial.
Print Assumptions C53_library.
Print Assumptions C70_cached.
Print Assumptions C43_offsets.
Print Assumptions C43_multi.
Print Assumptions C43_array.
Print Assumptions C45_failure.
Print Assumptions C45_order.
Print Assumptions C45_blame_refuted.
Print Assumptions C51_convert.
Print Assumptions C51_reject.
Print Assumptions C51_range_refuted.
Print Assumptions C51_symbol_refuted.
Print Assumptions C52_old.
Print Assumptions C52_first.
Print Assumptions C52_panic_refuted.
Print Assumptions C52_oob_refuted.
Print Assumptions C52_old_refuted.
Print Assumptions C52_name_refuted.
Print Assumptions C53_line.
Print Assumptions C53_file.
Print Assumptions C53_file_name.
Print Assumptions C53_inode_refuted.
Print Assumptions C53_blank_refuted.
Print Assumptions C53_empty_refuted.
Print Assumptions C53_dash_refuted.
Print Assumptions C69_perf.
Print Assumptions C69_multi.
Print Assumptions C69_maps.
Print Assumptions C70_path.
Print Assumptions C70_mapped.
Print Assumptions C70_maps_refuted.
