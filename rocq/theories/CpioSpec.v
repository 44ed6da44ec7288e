(** What the kernel reads from an initial file system (Linux, init/initramfs.c and
    Documentation/driver-api/early-userspace/buffer-format.rst), and what the test
    machine should contain. *)
From Coq Require Import String.
From Verif Require Import Base Text TextParse TextSplit CpioModel.
Local Open Scope Z_scope.

(** * The format *)

Record item := { it_ino : Z; it_name : str; it_mode : Z; it_uid : Z; it_gid : Z; it_nlink : Z; it_mtime : Z; it_data : str }.
(** Fields of eight hexadecimal digits. *)
Fixpoint fields (n : nat) (s : str) : option (list Z) :=
  match n with
  | O => Some []
  | S n =>
      if Nat.eqb (length (firstn 8 s)) 8 then
        match digits_val 16 (2 ^ 32) 0 (firstn 8 s), fields n (skipn 8 s) with Some v, Some r => Some (v :: r) | _, _ => None end
      else None
  end.
Definition round4 (x : Z) : Z := (x + 3) / 4 * 4.
Definition from (k : Z) (s : str) : str := skipn (Z.to_nat k) s.
Definition take (k : Z) (s : str) : str := firstn (Z.to_nat k) s.
(** The entries up to the trailer; [pos]: where [s] begins in the archive, as
    alignment counts from there; names longer than PATH_MAX are skipped. *)
Fixpoint read_newc (fuel : nat) (pos : Z) (s : str) : option (list item) :=
  match fuel with
  | O => None
  | S fuel =>
      if negb (str_eqb (firstn 6 s) (txt "070701")) then None
      else
        match fields 13 (skipn 6 s) with
        | Some [ino; mode; uid; gid; nlink; mtime; size; _; _; _; _; name_len; _] =>
            let at_name := pos + 110 in
            let at_data := round4 (at_name + name_len) in
            let next := round4 (at_data + size) in
            let name := take (name_len - 1) (from (at_name - pos) s) in
            let data := take size (from (at_data - pos) s) in
            if negb (1 <=? name_len) || negb (at_data + size - pos <=? Z.of_nat (length s)) then None
            else if negb (str_eqb (take 1 (from (at_name + name_len - 1 - pos) s)) [0]) then None
            else if str_eqb name (txt "TRAILER!!!") then Some []
            else
              match read_newc fuel next (from (next - pos) s) with
              | None => None
              | Some l =>
                  if 4096 <? name_len then Some l
                  else Some ({| it_ino := ino; it_name := name; it_mode := mode; it_uid := uid; it_gid := gid; it_nlink := nlink; it_mtime := mtime; it_data := data |} :: l)
              end
        | _ => None
        end
  end.
Definition read_archive (s : str) : option (list item) := read_newc (length s) 0 s.

(** * The tree *)

Inductive node := NDir (mode : Z) | NFile (mode : Z) (data : str).
Definition path := list str.
Definition tree := path -> option node.
Definition path_dec : forall p q : path, {p = q} + {p <> q} := list_eq_dec (list_eq_dec Z.eq_dec).
Definition bare : tree := fun p => if path_dec p [] then Some (NDir 493) else None.
Definition put (t : tree) (p : path) (n : node) : tree := fun q => if path_dec q p then Some n else t q.
Definition path_of (name : str) : path := filter (fun c => match c with [] => false | _ => true end) (split_at 47 name).
(** Parents must be there; an entry over one of another kind is left out (the kernel
    removes the other one if it can). *)
Definition same_kind (a : option node) (b : node) : bool :=
  match a, b with None, _ | Some (NDir _), NDir _ | Some (NFile _ _), NFile _ _ => true | _, _ => false end.
Definition place (t : tree) (p : path) (n : node) : tree :=
  match t (removelast p) with
  | Some (NDir _) => if same_kind (t p) n then put t p n else t
  | _ => t
  end.
Definition unpack_one (t : tree) (i : item) : tree :=
  if Z.land (it_mode i) 61440 =? 32768 then place t (path_of (it_name i)) (NFile (Z.land (it_mode i) 4095) (it_data i))
  else if Z.land (it_mode i) 61440 =? 16384 then place t (path_of (it_name i)) (NDir (Z.land (it_mode i) 4095))
  else t.
Definition boot (archive : str) : option tree :=
  match read_archive archive with Some l => Some (fold_left unpack_one l bare) | None => None end.

(** * What is asked for *)

(** A source that can be read and does not change. *)
Definition source_is (s : source) (d : str) : Prop := s_meta s = Some (Z.of_nat (length d)) /\ s_data s = Some d /\ Z.of_nat (length d) < 2 ^ 32.
Inductive wanted (i : input) : path -> node -> Prop :=
| w_top x : In x [txt "bin"; txt "boot"; txt "lib"; txt "sbin"] -> wanted i [x] (NDir 493)
| w_config d : source_is (i_config i) d -> wanted i [txt "boot"; txt "config"] (NFile 420 d)
| w_map d : source_is (i_map i) d -> wanted i [txt "boot"; txt "System.map"] (NFile 420 d)
| w_config_name n d : i_config_name i = Some n -> source_is (i_config i) d -> wanted i [txt "boot"; n] (NFile 420 d)
| w_map_name n d : i_map_name i = Some n -> source_is (i_map i) d -> wanted i [txt "boot"; n] (NFile 420 d)
| w_init s d : In (txt "init", s) (i_distro i) -> source_is s d -> wanted i [txt "init"] (NFile 493 d)
| w_sbin n s d : In (n, s) (i_distro i) -> n <> txt "init" -> source_is s d -> wanted i [txt "sbin"; n] (NFile 493 d)
| w_folder w : In w (i_modules i) -> w_kind w = KDir -> wanted i (txt "lib" :: txt "modules" :: w_rel w) (NDir 493)
| w_module w d : In w (i_modules i) -> w_kind w = KFile -> source_is (w_source w) d -> wanted i (txt "lib" :: txt "modules" :: w_rel w) (NFile 420 d)
| w_binary profile l n s d : In (profile, l) (i_binaries i) -> In (n, s) l -> s_data s = Some d -> wanted i [txt "bin"; profile ++ txt "-" ++ n] (NFile 493 d).

(** * Inputs *)

Definition component (n : str) : Prop := n <> [] /\ ~ In 47 n /\ ~ In 0 n.
(** A walk: the directory itself, then each entry after its parent. *)
Definition walked (l : list wentry) : Prop :=
  NoDup (map w_rel l) /\
  forall a w b, l = a ++ w :: b -> Forall component (w_rel w) /\
    match w_rel w with [] => w_kind w = KDir | _ => exists v, In v a /\ w_kind v = KDir /\ w_rel v = removelast (w_rel w) end.
Definition names_of (i : input) : list str := flat_map (fun '(p, l) => map (fun '(n, _) => p ++ txt "-" ++ n) l) (i_binaries i).
Definition boot_names (i : input) : list str :=
  [txt "config"; txt "System.map"] ++ match i_config_name i with Some n => [n] | None => [] end ++ match i_map_name i with Some n => [n] | None => [] end.
(** No name is given twice; paths are short. *)
Record good (i : input) : Prop := {
  g_boot : NoDup (boot_names i) /\ Forall component (boot_names i);
  g_distro : NoDup (map fst (i_distro i)) /\ Forall component (map fst (i_distro i));
  g_modules : walked (i_modules i);
  g_binaries : NoDup (names_of i) /\ Forall component (names_of i);
  g_short : Forall (fun n => Z.of_nat (length n) < 4000) (boot_names i ++ map fst (i_distro i) ++ names_of i ++ map (fun w => join 47 (w_rel w)) (i_modules i))
}.

(** * When the archive can be built *)

Definition readable (i : input) : Prop :=
  (exists d, source_is (i_config i) d) /\ (exists d, source_is (i_map i) d) /\
  (forall n s, In (n, s) (i_distro i) -> exists d, source_is s d) /\
  (forall w, In w (i_modules i) -> w_kind w = KFile -> exists d, source_is (w_source w) d) /\
  (forall p l n s, In (p, l) (i_binaries i) -> In (n, s) l -> exists d, s_data s = Some d /\ Z.of_nat (length d) < 2 ^ 32).
Definition entries (i : input) : nat :=
  4 + length (boot_names i) + length (i_distro i) + length (filter (fun w => match w_kind w with KOther => false | _ => true end) (i_modules i)) + length (names_of i).

(** An entry read stands for a call of [append] at time [t]. *)
Definition stands_for (t : Z) (c : call) (it : item) : Prop :=
  it_name it = c_name c /\ it_mode it = Z.lor (c_type c) (c_mode c) /\ it_uid it = 0 /\ it_gid it = 0 /\ it_nlink it = c_nlink c /\ it_mtime it = t /\
  match c_source c with None => it_data it = [] | Some s => source_is s (it_data it) end.
Definition fits (c : call) : Prop :=
  (0 <= Z.lor (c_type c) (c_mode c) < 2 ^ 32 /\ 0 <= c_nlink c < 2 ^ 32) /\ c_name c <> txt "TRAILER!!!" /\ Z.of_nat (length (c_name c)) + 1 <= 4096.
