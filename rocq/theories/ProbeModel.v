(** Model of probe attachment: aya/src/programs/probe.rs,
    aya/src/programs/perf_attach.rs and the per-point path of
    aya/src/programs/uprobe.rs, over a small model of the kernel's perf events,
    BPF links and tracefs probe events. *)
From Coq Require Import String.
From Verif Require Import Base Text TextParse TextSplit LogModel UProbeModel.
Local Open Scope Z_scope.

(** * Names *)

(** aya/src/programs/probe.rs:418-444: the alias of an event; [index] is the
    value of the process-wide counter. *)
Definition underscore (c : Z) : Z := if (c =? 46) || (c =? 47) || (c =? 45) then 95 else c.
Definition alias (pid : Z) (is_return : bool) (target : list Z) (offset index : Z) : list Z :=
  txt "aya_" ++ dec pid ++ [95] ++ (if is_return then [114] else [112]) ++ [95] ++ map underscore target ++ [95] ++
  show_ptr offset ++ [95] ++ dec index.

(** aya/src/programs/probe.rs:446-451, with [write_offset] of uprobe.rs:658-660
    and kprobe.rs:131-136. *)
Definition create_command (kprobe is_return : bool) (name target : list Z) (offset : Z) : list Z :=
  (if is_return then [114] else [112]) ++ [58] ++ (if kprobe then txt "kprobe" else txt "uprobe") ++ txt "s/" ++ name ++ [32] ++ target ++
  (if kprobe then (if is_return then [] else 43 :: dec offset) else 58 :: show_ptr offset) ++ [10].

(** aya/src/programs/probe.rs:202-215 [lines]: pieces between newlines, without
    trailing white space. *)
Definition event_lines (file : list Z) : list (list Z) := map rtrim (split_at 10 file).
(** Lines 475-493: the text after the first slash starts with the name. *)
Fixpoint after_slash (line : list Z) : option (list Z) :=
  match line with
  | [] => None
  | c :: line => if c =? 47 then Some line else after_slash line
  end.
Definition line_has (name line : list Z) : bool := match after_slash line with Some rest => starts_with name rest | None => false end.
(** aya/src/programs/probe.rs:463-507 [delete_probe_event]: the command written
    to the events file, if any. *)
Definition delete_command (file name : list Z) : option (list Z) :=
  if existsb (line_has name) (event_lines file) then Some (txt "-:" ++ name ++ [10]) else None.

(** * The kernel *)

(** A probe event: the text before the slash, the name, what follows it. *)
Record event := { ev_head : list Z; ev_name : list Z; ev_rest : list Z }.
Definition event_line (e : event) : list Z := ev_head e ++ [47] ++ ev_name e ++ [32] ++ ev_rest e.
Definition events_file (l : list event) : list Z := unlines (map event_line l).

(** A perf event that is open: its descriptor, the probe event it is for (if
    made by way of tracefs), the point probed, whether a program is set, whether
    it is enabled. *)
Record perf := { pf_fd : Z; pf_event : option (list Z); pf_point : Z; pf_prog : bool; pf_on : bool }.
(** A BPF link on a perf event; it keeps the event alive. *)
Record blink := { bl_fd : Z; bl_point : Z; bl_cookie : option Z }.
(** What is written to the events file. *)
Inductive command := Created (name : list Z) | Removed (name : list Z).

(** [w_fail]: which of the following calls to the kernel fail; [w_index]: the
    counter of probe.rs:24. *)
Record world := { w_next : Z; w_perf : list perf; w_links : list blink; w_events : list event; w_index : Z; w_log : list command; w_fail : list bool }.

(** What does not change: whether the kernel has the probe PMU (4.17), BPF perf
    links, cookies; whether it refuses to remove a probe event in use (it does:
    kernel/trace/trace_events.c [probe_remove_event_call]); the process id;
    what is probed. *)
Record env := { e_pmu : bool; e_link : bool; e_cookie : bool; e_busy : bool; e_pid : Z; e_kprobe : bool; e_return : bool; e_target : list Z }.

Definition call (w : world) : bool * world :=
  match w_fail w with
  | [] => (false, w)
  | f :: r => (f, {| w_next := w_next w; w_perf := w_perf w; w_links := w_links w; w_events := w_events w; w_index := w_index w; w_log := w_log w; w_fail := r |})
  end.
Definition set_perf (l : list perf) (w : world) : world :=
  {| w_next := w_next w; w_perf := l; w_links := w_links w; w_events := w_events w; w_index := w_index w; w_log := w_log w; w_fail := w_fail w |}.
Definition set_links (l : list blink) (w : world) : world :=
  {| w_next := w_next w; w_perf := w_perf w; w_links := l; w_events := w_events w; w_index := w_index w; w_log := w_log w; w_fail := w_fail w |}.
Definition set_events (l : list event) (c : command) (w : world) : world :=
  {| w_next := w_next w; w_perf := w_perf w; w_links := w_links w; w_events := l; w_index := w_index w; w_log := w_log w ++ [c]; w_fail := w_fail w |}.
Definition take_fd (w : world) : Z * world :=
  (w_next w, {| w_next := w_next w + 1; w_perf := w_perf w; w_links := w_links w; w_events := w_events w; w_index := w_index w; w_log := w_log w; w_fail := w_fail w |}).
Definition take_index (w : world) : Z * world :=
  (w_index w, {| w_next := w_next w; w_perf := w_perf w; w_links := w_links w; w_events := w_events w; w_index := w_index w + 1; w_log := w_log w; w_fail := w_fail w |}).

(** A probe event is in use while a perf event on it is open. *)
Definition in_use (w : world) (name : list Z) : bool :=
  existsb (fun p => match pf_event p with Some n => str_eqb n name | None => false end) (w_perf w).
(** The kernel on the command [-:NAME]: the event of exactly that name. *)
Definition kernel_remove (e : env) (name : list Z) (w : world) : world :=
  if e_busy e && in_use w name then set_events (w_events w) (Removed name) w
  else set_events (filter (fun v => negb (str_eqb (ev_name v) name)) (w_events w)) (Removed name) w.
(** The kernel on a create command: an event of the same name is replaced
    (kernel/trace/trace_uprobe.c [register_trace_uprobe], before 4.20) unless it
    is in use. *)
Definition kernel_create (e : env) (v : event) (w : world) : option world :=
  if e_busy e && in_use w (ev_name v) then None
  else Some (set_events (filter (fun x => negb (str_eqb (ev_name x) (ev_name v))) (w_events w) ++ [v]) (Created (ev_name v)) w).

(** * Probe events *)

Inductive perr := PSyscall | PFile | PCookie | PEmpty.

(** aya/src/programs/probe.rs:254-257 [ProbeEvent]; [pe_armed]: [detach_debug_fs]
    with its guard flag. *)
Record probe_event := { pe_alias : list Z; pe_armed : option bool }.

(** aya/src/programs/probe.rs:353-358, 463-507: removing an event.  Reading and
    opening the file are taken to succeed. *)
Definition detach_debug_fs (e : env) (name : list Z) (w : world) : world :=
  match delete_command (events_file (w_events w)) name with
  | Some _ => kernel_remove e name w
  | None => w
  end.
(** aya/src/programs/probe.rs:283-295 [Drop]. *)
Definition drop_event (e : env) (v : probe_event) (w : world) : world :=
  match pe_armed v with Some true => detach_debug_fs e (pe_alias v) w | _ => w end.
(** aya/src/programs/probe.rs:270-280 [detach]; the drop that follows finds
    nothing to do. *)
Definition detach_event (e : env) (v : probe_event) (w : world) : world :=
  let w := match pe_armed v with Some _ => detach_debug_fs e (pe_alias v) w | None => w end in
  drop_event e {| pe_alias := pe_alias v; pe_armed := None |} w.
(** aya/src/programs/probe.rs:260-268 [disarm]. *)
Definition disarm (v : probe_event) : probe_event :=
  {| pe_alias := pe_alias v; pe_armed := match pe_armed v with Some _ => Some false | None => None end |}.

(** aya/src/programs/probe.rs:406-461 [create_probe_event]. *)
Definition create_probe_event (e : env) (point : Z) (w : world) : res perr probe_event * world :=
  let (index, w) := take_index w in
  let name := alias (e_pid e) (e_return e) (e_target e) point index in
  let (f, w) := call w in
  if f then (Err PFile, w)
  else match kernel_create e {| ev_head := (if e_return e then [114] else [112]) ++ [58] ++ (if e_kprobe e then txt "kprobes" else txt "uprobes"); ev_name := name; ev_rest := e_target e |} w with
       | None => (Err PFile, w)
       | Some w => (Ok {| pe_alias := name; pe_armed := Some true |}, w)
       end.

(** * Perf events *)

Definition open_perf (point : Z) (name : option (list Z)) (w : world) : res perr Z * world :=
  let (f, w) := call w in
  if f then (Err PSyscall, w)
  else let (fd, w) := take_fd w in
       (Ok fd, set_perf (w_perf w ++ [{| pf_fd := fd; pf_event := name; pf_point := point; pf_prog := false; pf_on := false |}]) w).
Definition close_perf (fd : Z) (w : world) : world := set_perf (filter (fun p => negb (pf_fd p =? fd)) (w_perf w)) w.
Definition update_perf (fd : Z) (g : perf -> perf) (w : world) : world := set_perf (map (fun p => if pf_fd p =? fd then g p else p) (w_perf w)) w.
Definition set_prog (p : perf) : perf := {| pf_fd := pf_fd p; pf_event := pf_event p; pf_point := pf_point p; pf_prog := true; pf_on := pf_on p |}.
Definition set_on (b : bool) (p : perf) : perf := {| pf_fd := pf_fd p; pf_event := pf_event p; pf_point := pf_point p; pf_prog := pf_prog p; pf_on := b |}.

(** aya/src/programs/probe.rs:360-381 [create_as_probe]. *)
Definition create_as_probe (e : env) (point : Z) (w : world) : res perr Z * world :=
  let (f, w) := call w in
  if f then (Err PFile, w)
  else
    let (f, w) := if e_return e then call w else (false, w) in
    if f then (Err PFile, w) else open_perf point None w.

(** aya/src/programs/probe.rs:383-404 [create_as_trace_point]: an early return
    drops the event. *)
Definition create_as_trace_point (e : env) (point : Z) (w : world) : res perr (Z * probe_event) * world :=
  let (f, w) := call w in
  if f then (Err PFile, w)
  else
    match create_probe_event e point w with
    | (Err x, w) => (Err x, w)
    | (Ok v, w) =>
        let (f, w) := call w in
        if f then (Err PFile, drop_event e v w)
        else match open_perf point (Some (pe_alias v)) w with
             | (Err x, w) => (Err x, drop_event e v w)
             | (Ok fd, w) => (Ok (fd, v), w)
             end
    end.

(** * Links *)

Record perf_link := { pl_fd : Z; pl_event : option probe_event }.

(** aya/src/programs/perf_attach.rs:102-122 [attach_bpf_link]: the perf
    descriptor is closed on return; a link keeps the event alive. *)
Definition attach_bpf_link (e : env) (fd point : Z) (cookie : option Z) (w : world) : res perr Z * world :=
  match cookie, e_cookie e with
  | Some _, false => (Err PCookie, close_perf fd w)
  | _, _ =>
      let (f, w) := call w in
      if f then (Err PSyscall, close_perf fd w)
      else let (lfd, w) := take_fd w in
           (Ok lfd, close_perf fd (set_links (w_links w ++ [{| bl_fd := lfd; bl_point := point; bl_cookie := cookie |}]) w))
  end.

Definition drop_opt (e : env) (v : option probe_event) (w : world) : world := match v with Some v => drop_event e v w | None => w end.

(** aya/src/programs/perf_attach.rs:124-147 [attach_perf_event]: on failure
    the arguments are dropped, the last one first. *)
Definition attach_perf_event (e : env) (fd : Z) (v : option probe_event) (w : world) : res perr perf_link * world :=
  let (f, w) := call w in
  if f then (Err PSyscall, close_perf fd (drop_opt e v w))
  else
    let w := update_perf fd set_prog w in
    let (f, w) := call w in
    if f then (Err PSyscall, close_perf fd (drop_opt e v w))
    else (Ok {| pl_fd := fd; pl_event := match v with Some v => Some (disarm v) | None => None end |}, update_perf fd (set_on true) w).

(** aya/src/programs/perf_attach.rs:73-82: disable, remove the event, close. *)
Definition detach_perf (e : env) (l : perf_link) (w : world) : world :=
  let w := update_perf (pl_fd l) (set_on false) w in
  let w := match pl_event l with Some v => detach_event e v w | None => w end in
  close_perf (pl_fd l) w.
(** Dropping an [FdLink] closes the descriptor and with it the link. *)
Definition detach_fd (fd : Z) (w : world) : world := set_links (filter (fun l => negb (bl_fd l =? fd)) (w_links w)) w.

(** aya/src/programs/probe.rs:322-329, 331-347. *)
Definition attach_bpf_probe (e : env) (point : Z) (cookie : option Z) (w : world) : res perr Z * world :=
  match create_as_probe e point w with
  | (Err x, w) => (Err x, w)
  | (Ok fd, w) => attach_bpf_link e fd point cookie w
  end.
Definition attach_perf_event_probe (e : env) (point : Z) (cookie : option Z) (w : world) : res perr perf_link * world :=
  match cookie with
  | Some _ => (Err PCookie, w)
  | None =>
      if e_pmu e then
        match create_as_probe e point w with
        | (Err x, w) => (Err x, w)
        | (Ok fd, w) => attach_perf_event e fd None w
        end
      else
        match create_as_trace_point e point w with
        | (Err x, w) => (Err x, w)
        | (Ok (fd, v), w) => attach_perf_event e fd (Some v) w
        end
  end.

(** aya/src/programs/probe.rs:51-70, 125-131. *)
Inductive many := ManyFd (l : list Z) | ManyPerf (l : list perf_link).
Inductive probe_link := LinkFd (fd : Z) | LinkPerf (l : perf_link) | LinkMany (m : many).

(** aya/src/programs/probe.rs:310-320 [attach_impl]. *)
Definition attach_one (e : env) (point : Z) (cookie : option Z) (w : world) : res perr probe_link * world :=
  if e_pmu e && e_link e then
    match attach_bpf_probe e point cookie w with (Ok fd, w) => (Ok (LinkFd fd), w) | (Err x, w) => (Err x, w) end
  else
    match attach_perf_event_probe e point cookie w with (Ok l, w) => (Ok (LinkPerf l), w) | (Err x, w) => (Err x, w) end.

(** aya/src/programs/probe.rs:72-91 [attach_point]. *)
Definition attach_point (e : env) (m : many) (point : Z) (cookie : option Z) (w : world) : res perr many * world :=
  match m with
  | ManyFd l => match attach_bpf_probe e point cookie w with (Ok fd, w) => (Ok (ManyFd (l ++ [fd])), w) | (Err x, w) => (Err x, w) end
  | ManyPerf l => match attach_perf_event_probe e point cookie w with (Ok p, w) => (Ok (ManyPerf (l ++ [p])), w) | (Err x, w) => (Err x, w) end
  end.
(** aya/src/programs/probe.rs:106-119. *)
Definition detach_many (e : env) (m : many) (w : world) : world :=
  match m with
  | ManyFd l => fold_left (fun w fd => detach_fd fd w) l w
  | ManyPerf l => fold_left (fun w p => detach_perf e p w) l w
  end.
(** aya/src/programs/uprobe.rs:585-605: the other points; a failure detaches
    what was attached. *)
Fixpoint attach_rest (e : env) (m : many) (points : list (Z * option Z)) (w : world) : res perr many * world :=
  match points with
  | [] => (Ok m, w)
  | (point, cookie) :: points =>
      match attach_point e m point cookie w with
      | (Ok m, w) => attach_rest e m points w
      | (Err x, w) => (Err x, detach_many e m w)
      end
  end.
Definition from_first (l : probe_link) : many :=
  match l with LinkFd fd => ManyFd [fd] | LinkPerf p => ManyPerf [p] | LinkMany m => m end.

(** aya/src/programs/uprobe.rs:524-610 [attach_single_impl], without keeping
    the link in the program's set.  A program with one point is attached
    directly. *)
Definition attach_single (e : env) (points : list (Z * option Z)) (w : world) : res perr probe_link * world :=
  match points with
  | [] => (Err PEmpty, w)
  | [(point, cookie)] => attach_one e point cookie w
  | (point, cookie) :: rest =>
      match attach_one e point cookie w with
      | (Err x, w) => (Err x, w)
      | (Ok l, w) =>
          match attach_rest e (from_first l) rest w with
          | (Err x, w) => (Err x, w)
          | (Ok m, w) => (Ok (LinkMany m), w)
          end
      end
  end.

(** aya/src/programs/probe.rs:169-177. *)
Definition detach (e : env) (l : probe_link) (w : world) : world :=
  match l with
  | LinkFd fd => detach_fd fd w
  | LinkPerf p => detach_perf e p w
  | LinkMany m => detach_many e m w
  end.

(** aya/src/programs/uprobe.rs:475-499, 970-979: the way a program of unknown
    kind is attached; [multi]: the outcome of the multi link, the flag telling
    whether its error calls for the other way. *)
Inductive mode := MSingle | MMulti | MUnknown.
Definition attach_unknown {A} (multi : res bool A) (single : res unit A) : res unit A * mode :=
  match multi with
  | Ok l => (Ok l, MMulti)
  | Err false => (Err tt, MUnknown)
  | Err true => match single with Ok l => (Ok l, MSingle) | Err _ => (Err tt, MUnknown) end
  end.
