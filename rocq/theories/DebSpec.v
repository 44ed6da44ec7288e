(** What unpacking the packages of a kernel should do. *)
From Coq Require Import String.
From Verif Require Import Base Text TextParse LogModel TextSplit KmodModel DebModel.
Local Open Scope Z_scope.

(** Paths as packages have them: from the current directory, with a slash behind
    directories. *)
Definition plain_name (n : str) : Prop := n <> [] /\ n <> txt "." /\ n <> txt ".." /\ ~ In 47 n.
Definition path_of (names : list str) (slash : bool) : str := txt "./" ++ join 47 names ++ (if slash then [47] else []).
(** An entry: the names of its path, whether there is a slash behind, and whether it
    is a regular file. *)
Definition entry := (list str * bool * bool)%type.
Definition entry_path (e : entry) : str := let '(names, slash, _) := e in path_of names slash.
Definition tar_of (e : entry) : tar_entry := {| t_path := entry_path e; t_file := snd e |}.
Definition fine_entry (e : entry) : Prop := let '(names, _, _) := e in names <> [] /\ Forall plain_name names.
(** The entries of a package that has one member with data. *)
Definition data_of (d : deb) (l : list entry) : Prop :=
  exists a n b, d = a ++ (Some n, map (fun e => Some (tar_of e)) l) :: b /\ In n [txt "data.tar"; txt "data.tar.xz"; txt "data.tar.zst"] /\
    Forall (fun m => forall n, fst m = Some n -> ~ In n [txt "data.tar"; txt "data.tar.xz"; txt "data.tar.zst"]) (a ++ b).

Definition below_boot (prefix : str) (e : entry) : Prop := exists v rest slash, e = (txt "boot" :: (prefix ++ v) :: rest, slash, true).
Definition modules_entry (e : entry) : Prop := exists v slash file, e = ([txt "lib"; txt "modules"; v], slash, file) \/ e = ([txt "usr"; txt "lib"; txt "modules"; v], slash, file).
Definition only_one {A} (P : A -> Prop) (l : list A) (x : A) : Prop := exists a b, l = a ++ x :: b /\ P x /\ Forall (fun y => ~ P y) a /\ Forall (fun y => ~ P y) b.

(** What to unpack. *)
Definition wanted_image (e : entry) : Prop := below_boot (txt "vmlinuz-") e.
Definition wanted_modules (e : entry) : Prop :=
  (exists rest slash file, e = (txt "lib" :: txt "modules" :: rest, slash, file) \/ e = (txt "usr" :: txt "lib" :: txt "modules" :: rest, slash, file)) \/
  below_boot (txt "config-") e \/ below_boot (txt "System.map-") e.

(** * Images *)

(** Bytes at a place. *)
Definition at_ (s : str) (off : nat) (b : str) : Prop := exists x y, s = x ++ b ++ y /\ length x = off.
Definition word_at (s : str) (off : nat) (v : Z) : Prop := exists b0 b1 b2 b3, at_ s off [b0; b1; b2; b3] /\ v = b0 + 256 * b1 + 65536 * b2 + 16777216 * b3.
(** An EFI program for 64-bit ARM. *)
Definition arm_program (s : str) : Prop := at_ s 0 (txt "MZ") /\ exists o, word_at s 60 o /\ at_ s (Z.to_nat o) (txt "PE" ++ [0; 0; 100; 170]).
(** A compressed kernel: the place and length of the payload, and the name of the
    compression, ended by zero if it is shorter than 32 bytes. *)
Definition zboot (s compression payload : str) : Prop :=
  at_ s 4 (txt "zimg") /\ exists o n c, word_at s 8 o /\ word_at s 12 n /\ at_ s (Z.to_nat o) payload /\ length payload = Z.to_nat n /\
    at_ s 24 c /\ length c = 32%nat /\ ~ In 0 compression /\ (c = compression \/ exists r, c = compression ++ 0 :: r).

(** A member with data. *)
Definition data_member (m : option str * list (option tar_entry)) : Prop := exists n, fst m = Some n /\ In n [txt "data.tar"; txt "data.tar.xz"; txt "data.tar.zst"].
(** The paths of the entries that satisfy a predicate, in order. *)
Definition paths_where (P : entry -> Prop) (l : list entry) (paths : list str) : Prop := exists sel, (forall e, In e l -> (sel e = true <-> P e)) /\ paths = map entry_path (filter sel l).
