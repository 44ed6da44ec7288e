(** Unpacking the packages of a kernel: /repo/xtask/src/ubuntu_mainline.rs 338-759.

    Simplifications: archives are the entries their readers give, where an entry may
    be unreadable; unpacking an entry works unless its path leads outside, as [tar]
    checks; files can be read and written; [unzstd] is a function. *)
From Coq Require Import String.
From Verif Require Import Base Text TextParse LogModel TextSplit KmodModel.
Local Open Scope Z_scope.

(** * Paths *)

Inductive comp := Root | Cur | Parent | Normal (n : str).
(** [Path::components]: parts that are empty or a dot do not count, except for a dot
    at the beginning. *)
Definition part (s : str) : list comp :=
  match s with
  | [] => []
  | [46] => []
  | [46; 46] => [Parent]
  | _ => [Normal s]
  end.
Definition components (p : str) : list comp :=
  let parts := split_at 47 p in
  (if starts_with [47] p then [Root] else match parts with [46] :: _ => [Cur] | _ => [] end) ++ flat_map part parts.
Definition comp_eq (a b : comp) : {a = b} + {a <> b}.
Proof. decide equality. apply (list_eq_dec Z.eq_dec). Defined.
Fixpoint strip_comps (prefix l : list comp) : option (list comp) :=
  match prefix, l with
  | [], l => Some l
  | a :: prefix, b :: l => if comp_eq a b then strip_comps prefix l else None
  | _, [] => None
  end.
(** ubuntu_mainline.rs 428-434. *)
Definition first_component_after (path prefix : str) : option str :=
  match strip_comps (components prefix) (components path) with Some (Normal n :: _) => Some n | _ => None end.

(** * Packages *)

(** An entry of a tar file: its path and whether it is a regular file. *)
Record tar_entry := { t_path : str; t_file : bool }.
(** A package: the names of its members if they are text, and what their content
    gives as a tar file. *)
Definition deb := list (option str * list (option tar_entry)).
Inductive kind := KImage | KConfig | KModules | KMap.
Inductive disposition := DSkip | DUnpack (k : option kind).
Inductive perr := EEntry | EOutside (p : str) | EData (n : nat) | ENotOne (k : kind) (l : list str) | EZboot.
(** [Entry::unpack_in]. *)
Definition unpackable (p : str) : bool := forallb (fun c => if comp_eq c Parent then false else true) (components p).
(** ubuntu_mainline.rs 377-404. *)
Fixpoint unpack_entries (select : tar_entry -> disposition) (l : list (option tar_entry)) : res perr (list (kind * str) * list str) :=
  match l with
  | [] => Ok ([], [])
  | None :: _ => Err EEntry
  | Some e :: l =>
      match select e with
      | DSkip => unpack_entries select l
      | DUnpack k =>
          if unpackable (t_path e) then
            bind (unpack_entries select l) (fun '(found, done) => Ok (match k with Some k => (k, t_path e) :: found | None => found end, t_path e :: done))
          else Err (EOutside (t_path e))
      end
  end.
Definition is_data (n : option str) : bool :=
  match n with Some n => str_eqb n (txt "data.tar") || str_eqb n (txt "data.tar.xz") || str_eqb n (txt "data.tar.zst") | None => false end.
(** ubuntu_mainline.rs 343-416: what was found, what was unpacked. *)
Fixpoint unpack_members (select : tar_entry -> disposition) (l : deb) : res perr (list (kind * str) * list str * nat) :=
  match l with
  | [] => Ok ([], [], 0%nat)
  | (n, entries) :: l =>
      if is_data n then
        bind (unpack_entries select entries) (fun '(found, done) =>
        bind (unpack_members select l) (fun '(found', done', k) => Ok (found ++ found', done ++ done', S k)))
      else unpack_members select l
  end.
Definition with_deb (select : tar_entry -> disposition) (d : deb) : res perr (list (kind * str) * list str) :=
  bind (unpack_members select d) (fun '(found, done, k) => if Nat.eqb k 1 then Ok (found, done) else Err (EData k)).

(** ubuntu_mainline.rs 651-674. *)
Definition select_image (e : tar_entry) : disposition :=
  if negb (t_file e) then DSkip
  else match first_component_after (t_path e) (txt "./boot/") with
       | Some n => if starts_with (txt "vmlinuz-") n then DUnpack (Some KImage) else DSkip
       | None => DSkip
       end.
(** ubuntu_mainline.rs 677-716. *)
Definition one_component (l : list comp) : bool := match l with [_] => true | _ => false end.
Definition select_modules (e : tar_entry) : disposition :=
  match strip_comps (components (txt "./lib/modules/")) (components (t_path e)), strip_comps (components (txt "./usr/lib/modules/")) (components (t_path e)) with
  | Some l, _ | None, Some l => DUnpack (if one_component l then Some KModules else None)
  | None, None =>
      if negb (t_file e) then DSkip
      else match first_component_after (t_path e) (txt "./boot/") with
           | Some n => if starts_with (txt "config-") n then DUnpack (Some KConfig) else if starts_with (txt "System.map-") n then DUnpack (Some KMap) else DSkip
           | None => DSkip
           end
  end.

(** ubuntu_mainline.rs 418-426. *)
Definition of_kind (k : kind) (l : list (kind * str)) : list str := flat_map (fun '(k', p) => match k, k' with KImage, KImage | KConfig, KConfig | KModules, KModules | KMap, KMap => [p] | _, _ => [] end) l.
Definition one (k : kind) (l : list (kind * str)) : res perr str := match of_kind k l with [p] => Ok p | l => Err (ENotOne k l) end.

(** * Images *)

(** Reading from a file: nothing if it ends before. *)
Definition slice (s : str) (off len : nat) : option str := if (off + len <=? length s)%nat then Some (firstn len (skipn off s)) else None.
Definition le (s : str) : Z := fold_right (fun b acc => b + 256 * acc) 0 s.
Definition slice_is (s : str) (off : nat) (b : str) : bool := match slice s off (length b) with Some x => str_eqb x b | None => false end.
(** ubuntu_mainline.rs 470-496; offsets are below 2^32. *)
Definition is_aarch64_pe (s : str) : bool :=
  slice_is s 0 (txt "MZ") &&
  match slice s 60 4 with
  | None => false
  | Some o =>
      match slice s (Z.to_nat (le o)) 6 with
      | None => false
      | Some h => str_eqb (firstn 4 h) (txt "PE" ++ [0; 0]) && (le (skipn 4 h) =? 43620)
      end
  end.
(** ubuntu_mainline.rs 510-557. *)
Definition until_zero (s : str) : str := match once 0 s with Some (a, _) => a | None => s end.
Definition parse_zboot (s : str) : res perr (option (str * str)) :=
  if negb (slice_is s 4 (txt "zimg")) then Ok None
  else
    match slice s 8 4, slice s 12 4 with
    | Some o, Some n =>
        match slice s (Z.to_nat (le o)) (Z.to_nat (le n)), slice s 24 32 with
        | Some payload, Some c => if utf8 (until_zero c) then Ok (Some (until_zero c, payload)) else Err EZboot
        | _, _ => Err EZboot
        end
    | _, _ => Err EZboot
    end.
(** ubuntu_mainline.rs 559-641: another name and content, or the file as it is. *)
Inductive image := Same | Extracted (name data : str).
Definition image_name_of (n : str) : str := txt "Image-" ++ match strip_prefix (txt "vmlinuz-") n with Some v => v | None => n end.
Definition maybe_extract (unzstd : str -> option str) (name s : str) : res perr image :=
  if negb (is_aarch64_pe s) then Ok Same
  else
    bind (parse_zboot s) (fun z =>
      match z with
      | None => Ok Same
      | Some (c, payload) =>
          if negb (str_eqb c (txt "zstd")) then Err EZboot
          else match unzstd payload with
               | None => Err EZboot
               | Some d => if slice_is d 56 (txt "ARMd") then Ok (Extracted (image_name_of name) d) else Err EZboot
               end
      end).

(** [Path::file_name]; every path an image is found at has one. *)
Definition name_of (p : str) : str := match last (components p) Root with Normal n => n | _ => [] end.
(** ubuntu_mainline.rs 718-759: the paths of the parts, and the image to start.
    [read]: the content of the image unpacked. *)
Record kpackage := { p_image : str; p_start : image; p_config : str; p_modules : str; p_map : str }.
Definition unpack_kernel (unzstd : str -> option str) (read : str -> str) (image_deb modules_deb : deb) : res perr kpackage :=
  bind (with_deb select_image image_deb) (fun '(f1, _) =>
  bind (with_deb select_modules modules_deb) (fun '(f2, _) =>
  let f := f1 ++ f2 in
  bind (one KImage f) (fun i =>
  bind (maybe_extract unzstd (name_of i) (read i)) (fun start =>
  bind (one KConfig f) (fun c =>
  bind (one KModules f) (fun m =>
  bind (one KMap f) (fun s =>
  Ok {| p_image := i; p_start := start; p_config := c; p_modules := m; p_map := s |}))))))).
