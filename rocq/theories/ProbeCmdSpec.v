(** The kernel's reading of a line written to [kprobe_events] or
    [uprobe_events]: kernel/trace/trace_probe.c, trace_kprobe.c and
    trace_uprobe.c of the kernels without probe PMUs (before 4.17). *)
From Coq Require Import String.
From Verif Require Import Base Text TextParse.
Local Open Scope Z_scope.

Definition letter (c : Z) : bool := ((65 <=? c) && (c <=? 90)) || ((97 <=? c) && (c <=? 122)) || (c =? 95).
Definition number (c : Z) : bool := (48 <=? c) && (c <=? 57).
(** [is_good_name]: an identifier. *)
Definition good_name (s : list Z) : bool :=
  match s with
  | [] => false
  | c :: r => letter c && forallb (fun c => letter c || number c) r
  end.
(** The text up to a byte, and the text around its first and last
    occurrence. *)
Fixpoint upto (x : Z) (s : list Z) : list Z := match s with [] => [] | c :: s => if c =? x then [] else c :: upto x s end.
Fixpoint cut (x : Z) (s : list Z) : option (list Z * list Z) :=
  match s with
  | [] => None
  | c :: s => if c =? x then Some ([], s) else match cut x s with Some (a, b) => Some (c :: a, b) | None => None end
  end.
Definition cut_last (x : Z) (s : list Z) : option (list Z * list Z) :=
  match cut x (rev s) with Some (a, b) => Some (rev b, rev a) | None => None end.
(** [kstrtoul(.., 0, ..)]; octal numbers are left out. *)
Definition k_number (s : list Z) : option Z :=
  match s with
  | 48 :: 120 :: hex => parse_uint 16 (2 ^ 64) hex
  | 48 :: _ :: _ => None
  | _ => parse_uint 10 (2 ^ 64) s
  end.
(** A probe: return probe, group, name, symbol or path, offset. *)
Record kprobe_def := { kd_return : bool; kd_group : list Z; kd_event : list Z; kd_target : list Z; kd_offset : Z }.
Definition k_head (s : list Z) : option (bool * list Z * list Z) :=
  match s with
  | k :: 58 :: name =>
      match cut 47 name with
      | Some (group, event) =>
          if ((k =? 112) || (k =? 114)) && good_name group && good_name event then Some (k =? 114, group, event) else None
      | None => None
      end
  | _ => None
  end.
Definition k_point (kprobe : bool) (s : list Z) : option (list Z * Z) :=
  if kprobe then
    match cut 43 s with
    | Some (symbol, offset) => option_map (fun o => (symbol, o)) (k_number offset)
    | None => Some (s, 0)
    end
  else
    match cut_last 58 s with
    | Some (path, offset) => option_map (fun o => (path, o)) (k_number offset)
    | None => None
    end.
(** One line; a number sign starts a comment.  Words after the point are
    arguments to be recorded: none is asked for, and a line with some is not
    the probe asked for. *)
Definition k_create (kprobe : bool) (text : list Z) : option kprobe_def :=
  match ws_words (upto 35 (upto 10 text)) with
  | [head; point] =>
      match k_head head, k_point kprobe point with
      | Some (ret, group, event), Some (target, offset) =>
          Some {| kd_return := ret; kd_group := group; kd_event := event; kd_target := target; kd_offset := offset |}
      | _, _ => None
      end
  | _ => None
  end.

(** The characters of paths and symbols that work. *)
Definition path_char (c : Z) : bool := letter c || number c || (c =? 46) || (c =? 47) || (c =? 45).
