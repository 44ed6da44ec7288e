(** Finding the function an extension replaces.

    Sources: aya/src/programs/extension.rs 78-88 ([load]), 129-159
    ([attach_to_program]), 162-200 ([get_btf_info]), aya/src/sys/bpf.rs
    801-821, 874-882.  Simplification: descriptors and memory can always be
    had. *)
From Coq Require Import String.
From Verif Require Import Base Text ProgModel BtfTypes BtfModel LayoutModel LayoutDecls InfoModel.
Import ListNotations.
Local Open Scope Z_scope.

(** * The kernel *)

(** What is reported about the program behind a descriptor; the descriptor
    for, and the bytes of, each BTF object. *)
Record kernel := { k_info : Z -> option (list Z); k_btf : Z -> option (Z * list Z) }.
(** [btf_get_info_by_fd] (kernel/bpf/btf.c): copies what there is room for,
    reports the whole size. *)
Definition btf_answer (data buf : list Z) : list Z * Z :=
  let n := Z.to_nat (Z.min (u32 (Z.of_nat (length buf))) (Z.of_nat (length data))) in
  (firstn n data ++ skipn n buf, u32 (Z.of_nat (length data))).

(** * [get_btf_info] *)

Inductive terr := TNoBtf | TSyscall | TBtf (e : berr) | TForever.
(** [Vec::resize] and [Vec::truncate]. *)
Definition resize (n : nat) (l : list Z) : list Z := firstn n l ++ repeat 0 (n - length l).
(** The loop; the number of calls is counted. *)
Fixpoint read_loop (fuel : nat) (data buf : list Z) : option (list Z * nat) :=
  match fuel with
  | O => None
  | S fuel =>
      let (buf, size) := btf_answer data buf in
      if Z.of_nat (length buf) <? size then option_map (fun '(r, n) => (r, S n)) (read_loop fuel data (resize (Z.to_nat size) buf))
      else Some (firstn (Z.to_nat size) buf, 1%nat)
  end.
Definition FIRST_ROOM : Z := 4096.
Definition get_btf_info (fuel : nat) (k : kernel) (fd : Z) (func : list Z) : res terr (Z * Z) :=
  match k_info k fd with
  | None => Err TSyscall
  | Some b =>
      let id := get P "btf_id" (info_of P b) in
      if id =? 0 then Err TNoBtf
      else match k_btf k id with
           | None => Err TSyscall
           | Some (btf_fd, data) =>
               match read_loop fuel data (repeat 0 (Z.to_nat FIRST_ROOM)) with
               | None => Err TForever
               | Some (bytes, _) =>
                   match bind (btf_parse bytes) (fun b => id_by_type_name_kind b func KFunc) with
                   | Ok i => Ok (btf_fd, u32 i)
                   | Err e => Err (TBtf e)
                   end
               end
           end
  end.

(** * [load] and [attach_to_program] *)

Definition perr_of (e : terr) : perr := match e with TNoBtf => PNoBtf | TSyscall => PSyscall 0 | TBtf _ => PBtf | TForever => PBtf end.
Definition ext_load (fuel : nat) (k : kernel) (l : loader) (running fd : Z) (func : list Z) (d : data) : res perr unit * data * list req :=
  match get_btf_info fuel k fd func with
  | Err e => (Err (perr_of e), d, [])
  | Ok (btf_fd, i) => load_program l running T_EXT None (with_target (Some btf_fd) (Some i) (Some fd) d)
  end.
Definition ext_attach_to (fuel : nat) (k : kernel) (fd : Z) (func : list Z) (d : data) : res perr areq :=
  match get_btf_info fuel k fd func with
  | Err e => Err (perr_of e)
  | Ok (_, i) => match d_fd d with None => Err PNotLoaded | Some g => Ok (ALinkCreate g (WFd fd) A_CGROUP_INET_INGRESS 0 (Some i)) end
  end.
