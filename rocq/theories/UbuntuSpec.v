(** What choosing the kernel to test should do. *)
From Coq Require Import String.
From Verif Require Import Base Text TextParse LogModel TextSplit KmodModel UbuntuModel.
Local Open Scope Z_scope.

(** * Pages *)

Definition blanks (s : str) : Prop := Forall (fun c => is_ws c = true) s.
(** An attribute: blanks, a name, an equals sign between blanks, and a quoted value. *)
Record attr := { a_before : str; a_name : str; a_left : str; a_right : str; a_quote : Z; a_value : str }.
Definition attr_text (a : attr) : str := a_before a ++ a_name a ++ a_left a ++ [61] ++ a_right a ++ [a_quote a] ++ a_value a ++ [a_quote a].
Definition fine_attr (a : attr) : Prop :=
  blanks (a_before a) /\ blanks (a_left a) /\ blanks (a_right a) /\ (a_quote a = 34 \/ a_quote a = 39) /\
  ~ In (a_quote a) (a_value a) /\ ~ In 60 (a_value a) /\
  a_name a <> [] /\ Forall (fun c => is_ws c = false /\ c <> 61 /\ c <> 62 /\ c <> 47 /\ c <> 60) (a_name a).
Definition upper_or_lower (c l : Z) : Prop := c = l \/ c = l - 32.
Definition is_href (n : str) : Prop := exists h r e f, n = [h; r; e; f] /\ upper_or_lower h 104 /\ upper_or_lower r 114 /\ upper_or_lower e 101 /\ upper_or_lower f 102.

(** Tags: links with attributes, what follows up to the next tag, and tags of other
    names. *)
Inductive piece := Link (a : Z) (l : list attr) (rest : str) | Other (s : str).
Definition piece_text (p : piece) : str := match p with Link a l rest => a :: flat_map attr_text l ++ rest | Other s => s end.
Definition page_text (start : str) (l : list piece) : str := start ++ flat_map (fun p => 60 :: piece_text p) l.
Definition no_link (s : str) : Prop :=
  ~ In 60 s /\ forall w c r, blanks w -> is_ws c = false -> s = w ++ c :: r -> (c <> 97 /\ c <> 65) \/ exists d r', r = d :: r' /\ ~ In d [9; 10; 12; 13; 32; 62; 47].
Definition fine_piece (p : piece) : Prop :=
  match p with
  | Link a l rest =>
      upper_or_lower a 97 /\ Forall fine_attr l /\ ~ In 60 rest /\ (exists w c r, rest = w ++ c :: r /\ blanks w /\ (c = 62 \/ c = 47)) /\
      exists d r, flat_map attr_text l ++ rest = d :: r /\ In d [9; 10; 12; 13; 32; 62; 47]
  | Other s => no_link s
  end.
(** The target of a tag is the value of its first href. *)
Inductive target : piece -> option str -> Prop :=
  | target_href a l1 x l2 rest : Forall (fun y => ~ is_href (a_name y)) l1 -> is_href (a_name x) -> target (Link a (l1 ++ x :: l2) rest) (Some (a_value x))
  | target_none a l rest : Forall (fun y => ~ is_href (a_name y)) l -> target (Link a l rest) None
  | target_other s : target (Other s) None.

(** * Addresses *)

(** Addresses of directories: scheme, host and path. *)
Definition directory (scheme host path : str) : str := scheme ++ txt "://" ++ host ++ [47] ++ path ++ [47].
Definition has_scheme (s : str) : Prop := exists a b, s = a ++ txt "://" ++ b.
(** The last part of an address, slashes behind it not counted. *)
Definition named (url name : str) : Prop :=
  name <> [] /\ ~ In 47 name /\ exists k, url = name ++ repeat 47 k \/ exists pre, url = pre ++ [47] ++ name ++ repeat 47 k.

(** * Builds *)

Definition listed_build (page version : str) (n : Z) (name : str) : Prop :=
  exists url d, In url (listing page (txt "https://kernel.ubuntu.com/mainline/")) /\ named url name /\
    name = txt "v" ++ version ++ txt "." ++ d /\ d <> [] /\ Forall (fun c => 48 <= c <= 57) d /\ dec_val d = n /\ n < 2 ^ 64.

(** A package: its kind, and the name of the kernel. *)
Definition package_file (kind build arch url base : str) : Prop :=
  exists file r v x y z k, named url file /\ file = kind ++ base ++ txt "_" ++ r /\ ~ In 95 (kind ++ base) /\
    build = repeat 118 k ++ v /\ (forall s, v <> 118 :: s) /\ base = v ++ txt "-" ++ x /\ kind ++ base = y ++ txt "-generic" /\ file = z ++ txt "_" ++ arch ++ txt ".deb".
(** Exactly one, or none, of a list. *)
Definition only (P : str -> Prop) (l : list str) (u : str) : Prop := exists a b, l = a ++ u :: b /\ P u /\ Forall (fun x => ~ P x) a /\ Forall (fun x => ~ P x) b.
Definition none (P : str -> Prop) (l : list str) : Prop := Forall (fun x => ~ P x) l.
Definition an_image (build arch url : str) : Prop := exists base, package_file (txt "linux-image-unsigned-") build arch url base.
Definition a_modules (build arch url : str) : Prop := exists base, package_file (txt "linux-modules-") build arch url base.

Definition release_url (build : str) : str := txt "https://kernel.ubuntu.com/mainline/" ++ build ++ txt "/".
Definition packages_url (build arch : str) : str := release_url build ++ arch ++ txt "/".
(** The packages of a build that has some for the architecture. *)
Definition offers (get : str -> option str) (arch build : str) (l : list str) : Prop :=
  exists page packages, get (release_url build) = Some page /\ In (packages_url build arch) (listing page (release_url build)) /\
    get (packages_url build arch) = Some packages /\ l = listing packages (packages_url build arch).
Definition complete (get : str -> option str) (arch build : str) (u : urls) : Prop :=
  exists l, offers get arch build l /\ only (an_image build arch) l (u_image u) /\ only (a_modules build arch) l (u_modules u) /\
    package_file (txt "linux-image-unsigned-") build arch (u_image u) (u_base u).
Definition incomplete (get : str -> option str) (arch build : str) : Prop :=
  (exists page, get (release_url build) = Some page /\ ~ In (packages_url build arch) (listing page (release_url build))) \/
  exists l, offers get arch build l /\ (none (an_image build arch) l \/ (exists u, only (an_image build arch) l u) /\ none (a_modules build arch) l).
