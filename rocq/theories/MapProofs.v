(** Proofs about [MapModel]. *)
From Verif Require Import Base MapModel MapSpec.
Local Open Scope Z_scope.

Lemma poll_app {S A} (f : S -> A * S) n m st :
  poll f (n + m) st = let (a, st1) := poll f n st in let (b, st2) := poll f m st1 in (a ++ b, st2).
Proof.
  revert st. induction n as [|n IH]; intros st; cbn [poll Nat.add]; [now destruct (poll f m st)|].
  destruct (f st) as [a st1]. rewrite IH. destruct (poll f n st1) as [l st2]. now destruct (poll f m st2).
Qed.

(** * Keys *)

Section Keys.
Context {K : Type} (eqb : K -> K -> bool) (eqb_spec : forall a b, eqb a b = true <-> a = b).

Lemma after_key_app p k s : ~ In k p -> after_key eqb k (p ++ k :: s) = Some (match s with [] => None | y :: _ => Some y end).
Proof.
  intros N. induction p as [|x p IH]; cbn [app after_key]; [now rewrite (proj2 (eqb_spec k k) eq_refl)|].
  destruct (eqb k x) eqn:E; [apply eqb_spec in E; subst; exfalso; apply N; now left|]. apply IH. intros I. apply N. now right.
Qed.

Lemma keys_rest l next n : (forall m k, (n <= m <= n + length l)%nat -> next m k = Ok (next_of eqb l k)) -> NoDup l ->
  forall p s, l = p ++ s -> forall st, ks_err st = false -> ks_calls st = (n + length p)%nat ->
  ks_key st = match rev p with [] => None | k :: _ => Some k end ->
  poll (keys_next next) (length s) st =
    (map (fun k => Some (Ok k)) s, {| ks_err := false; ks_key := match rev l with [] => None | k :: _ => Some k end; ks_calls := (n + length l)%nat |}).
Proof.
  intros Hn Nd p s. revert p. induction s as [|x s IH]; intros p E st He Hc Hk.
  - rewrite app_nil_r in E. subst p. cbn [length poll map]. destruct st as [e k c]. cbn in *. now subst.
  - cbn [length poll map]. unfold keys_next at 1. rewrite He. rewrite Hn by (rewrite E, app_length; cbn [length]; lia).
    assert (next_of eqb l (ks_key st) = Some x) as ->.
    { rewrite Hk. destruct (rev p) as [|k r] eqn:R.
      - apply (f_equal (@rev K)) in R. rewrite rev_involutive in R. cbn in R. subst p. now rewrite E.
      - assert (p = rev r ++ [k]) as -> by (rewrite <- (rev_involutive p), R; reflexivity).
        unfold next_of. rewrite E, <- app_assoc. cbn [app]. rewrite after_key_app; [reflexivity|].
        rewrite E, <- app_assoc in Nd. cbn [app] in Nd. apply NoDup_remove_2 in Nd. intros I. apply Nd. apply in_or_app. now left. }
    rewrite (IH (p ++ [x])).
    + reflexivity.
    + now rewrite <- app_assoc.
    + reflexivity.
    + cbn [ks_calls]. rewrite Hc, app_length. cbn [length]. lia.
    + cbn [ks_key]. now rewrite rev_app_distr.
Qed.

Lemma next_of_end l : NoDup l -> next_of eqb l (match rev l with [] => None | k :: _ => Some k end) = None.
Proof.
  intros Nd. destruct (rev l) as [|k r] eqn:R.
  - apply (f_equal (@rev K)) in R. rewrite rev_involutive in R. now subst l.
  - assert (l = rev r ++ [k]) as -> by (rewrite <- (rev_involutive l), R; reflexivity).
    unfold next_of. rewrite after_key_app; [reflexivity|]. apply NoDup_remove_2 in Nd. intros I. apply Nd. apply in_or_app. now left.
Qed.

(** Each key once, in the kernel's order, then the end. *)
Lemma keys_each l next : NoDup l -> (forall m k, (m <= length l)%nat -> next m k = Ok (next_of eqb l k)) ->
  poll (keys_next next) (length l + 1) keys_new =
    (map (fun k => Some (Ok k)) l ++ [None], {| ks_err := false; ks_key := None; ks_calls := length l + 1 |}).
Proof.
  intros Nd Hn. rewrite poll_app.
  rewrite (keys_rest l next 0 (fun m k H => Hn m k ltac:(lia)) Nd [] l eq_refl keys_new eq_refl eq_refl eq_refl).
  cbn [poll]. unfold keys_next. cbn [ks_err ks_key ks_calls Nat.add].
  rewrite Hn by lia. rewrite next_of_end by exact Nd. cbn [app]. now rewrite Nat.add_1_r.
Qed.

(** Polled again after the end it starts over. *)
Lemma keys_again l next : NoDup l -> (forall m k, next m k = Ok (next_of eqb l k)) ->
  fst (poll (keys_next next) (length l + 1 + (length l + 1)) keys_new) =
    (map (fun k => Some (Ok k)) l ++ [None]) ++ (map (fun k => Some (Ok k)) l ++ [None]).
Proof.
  intros Nd Hn. rewrite poll_app, (keys_each l next Nd (fun m k _ => Hn m k)).
  rewrite poll_app. rewrite (keys_rest l next (length l + 1) (fun m k _ => Hn m k) Nd [] l eq_refl).
  - cbn [poll]. unfold keys_next. cbn [ks_err ks_key]. rewrite Hn, next_of_end by exact Nd. reflexivity.
  - reflexivity.
  - cbn [ks_calls length]. lia.
  - reflexivity.
Qed.
End Keys.

(** An error is reported once; afterwards the iterator has ended for good and
    makes no more calls. *)
Lemma keys_error {K} next (st : keys K) e st' n :
  keys_next next st = (Some (Err e), st') -> poll (keys_next next) n st' = (repeat None n, st').
Proof.
  unfold keys_next at 1. destruct (ks_err st) eqn:E0; [discriminate|]. destruct (next (ks_calls st) (ks_key st)) as [k|e'].
  - intros H. apply pair_equal_spec in H as [H _]. destruct k; discriminate.
  - intros H. apply pair_equal_spec in H as [_ <-]. induction n as [|n IH]; [reflexivity|]. cbn [poll repeat]. unfold keys_next at 1. cbn [ks_err].
    now rewrite IH.
Qed.

(** The keys handed out are those of the kernel, in its order, whatever the
    kernel does. *)
Lemma keys_step {K} next (st : keys K) :
  ks_err st = false ->
  match next (ks_calls st) (ks_key st) with
  | Ok (Some k) => keys_next next st = (Some (Ok k), {| ks_err := false; ks_key := Some k; ks_calls := S (ks_calls st) |})
  | Ok None => fst (keys_next next st) = None
  | Err e => fst (keys_next next st) = Some (Err e)
  end.
Proof. intros H. unfold keys_next. rewrite H. destruct (next (ks_calls st) (ks_key st)) as [[k|]|e]; reflexivity. Qed.

(** * Entries *)

(** One step: the missing keys before the result are skipped, and the result
    is the outcome for the next key. *)
Inductive skips {K V} (next : nat -> option K -> res Z (option K)) (get : nat -> K -> got V) : keys K -> keys K -> Prop :=
  | SNone : forall st, skips next get st st
  | SMissing : forall st k st1 st2, keys_next next st = (Some (Ok k), st1) -> get (ks_calls st1) k = GMissing ->
      skips next get {| ks_err := ks_err st1; ks_key := ks_key st1; ks_calls := S (ks_calls st1) |} st2 -> skips next get st st2.

Lemma iter_next_spec {K V} fuel next (get : nat -> K -> got V) st r st' : iter_next fuel next get st = Some (r, st') ->
  exists s st1, skips next get st s /\
    match r with
    | None => keys_next next s = (None, st1) /\ st' = st1
    | Some (Ok (k, v)) => keys_next next s = (Some (Ok k), st1) /\ get (ks_calls st1) k = GFound v /\ st' = {| ks_err := ks_err st1; ks_key := ks_key st1; ks_calls := S (ks_calls st1) |}
    | Some (Err e) =>
        (keys_next next s = (Some (Err e), st1) /\ st' = st1) \/
        exists k, keys_next next s = (Some (Ok k), st1) /\ get (ks_calls st1) k = GFailed e /\ st' = {| ks_err := ks_err st1; ks_key := ks_key st1; ks_calls := S (ks_calls st1) |}
    end.
Proof.
  revert st. induction fuel as [|fuel IH]; intros st; cbn [iter_next]; [discriminate|].
  destruct (keys_next next st) as [[[k|e]|] st1] eqn:E.
  - cbv zeta. destruct (get (ks_calls st1) k) as [v| |e] eqn:G.
    + intros H. apply some_inj, pair_equal_spec in H as [<- <-]. exists st, st1. split; [constructor|]. auto.
    + intros H. destruct (IH _ H) as (s & st2 & S1 & S2). exists s, st2. split; [|exact S2]. econstructor; eassumption.
    + intros H. apply some_inj, pair_equal_spec in H as [<- <-]. exists st, st1. split; [constructor|]. right. exists k. auto.
  - intros H. apply some_inj, pair_equal_spec in H as [<- <-]. exists st, st1. split; [constructor|]. left. auto.
  - intros H. apply some_inj, pair_equal_spec in H as [<- <-]. exists st, st1. split; [constructor|]. auto.
Qed.

(** A map that keeps its keys while values are looked up; some of them may be
    missing by then.  One step consumes the keys up to the first that is not
    missing. *)
Section Entries.
Context {K V : Type} (eqb : K -> K -> bool) (eqb_spec : forall a b, eqb a b = true <-> a = b).
Context (l : list K) (Nd : NoDup l).
Context (next : nat -> option K -> res Z (option K)) (Hn : forall m k, next m k = Ok (next_of eqb l k)).
Context (look : K -> got V).

Definition key_after (p : list K) : option K := match rev p with [] => None | k :: _ => Some k end.

Lemma next_after p s : l = p ++ s -> next_of eqb l (key_after p) = match s with [] => None | x :: _ => Some x end.
Proof.
  intros E. unfold key_after. destruct (rev p) as [|k r] eqn:R.
  - apply (f_equal (@rev K)) in R. rewrite rev_involutive in R. cbn in R. subst p. cbn [app] in E. subst s. reflexivity.
  - assert (p = rev r ++ [k]) as Ep by (rewrite <- (rev_involutive p), R; reflexivity).
    subst p. unfold next_of. rewrite E, <- app_assoc. cbn [app]. rewrite after_key_app; [reflexivity|exact eqb_spec|].
    rewrite E, <- app_assoc in Nd. cbn [app] in Nd. apply NoDup_remove_2 in Nd. intros I. apply Nd. apply in_or_app. now left.
Qed.

(** What the rest of the iteration yields, and when. *)
Fixpoint entries (s : list K) : list (res Z (K * V)) :=
  match s with
  | [] => []
  | k :: s => match look k with
              | GFound v => Ok (k, v) :: entries s
              | GMissing => entries s
              | GFailed e => Err e :: entries s
              end
  end.

Lemma entries_step s : forall p fuel st, l = p ++ s -> ks_err st = false -> ks_key st = key_after p -> (length s < fuel)%nat ->
  exists st', match entries s with
  | [] => iter_next fuel next (fun _ => look) st = Some (None, st')
  | r :: _ => iter_next fuel next (fun _ => look) st = Some (Some r, st') /\
      exists q t, l = q ++ t /\ entries t = tl (entries s) /\ (length t < length s)%nat /\ ks_err st' = false /\ ks_key st' = key_after q
  end.
Proof.
  induction s as [|x s IH]; intros p fuel st E He Hk Hf; (destruct fuel as [|fuel]; [cbn [length] in Hf; lia|]);
    cbn [iter_next entries]; unfold keys_next; rewrite He, Hn, Hk, (next_after p _ E).
  - eexists. reflexivity.
  - cbv zeta. cbn [ks_calls ks_err ks_key].
    assert (l = (p ++ [x]) ++ s) as E' by now rewrite <- app_assoc.
    assert (Some x = key_after (p ++ [x])) as Kx by (unfold key_after; now rewrite rev_app_distr).
    destruct (look x) as [v| |e].
    + eexists. split; [reflexivity|]. exists (p ++ [x]), s. cbn [tl length ks_err ks_key]. repeat split; auto.
    + destruct (IH (p ++ [x]) fuel {| ks_err := false; ks_key := Some x; ks_calls := S (S (ks_calls st)) |} E' eq_refl Kx ltac:(cbn [length] in Hf; lia)) as [st' H].
      exists st'. destruct (entries s) as [|r t']; [exact H|]. destruct H as (H & q & t & A & B & C & D). split; [exact H|].
      exists q, t. cbn [length]. repeat split; auto; try tauto; lia.
    + eexists. split; [reflexivity|]. exists (p ++ [x]), s. cbn [tl length ks_err ks_key]. repeat split; auto.
Qed.

(** The whole iteration: [n] polls. *)
Fixpoint iter_poll (fuel n : nat) (st : keys K) : list (option (option (res Z (K * V)))) :=
  match n with
  | O => []
  | S n => match iter_next fuel next (fun _ => look) st with
           | Some (r, st) => Some r :: iter_poll fuel n st
           | None => [None]
           end
  end.

Lemma entries_all n : forall p s st fuel, l = p ++ s -> ks_err st = false -> ks_key st = key_after p -> (length s < fuel)%nat ->
  n = length (entries s) -> iter_poll fuel (n + 1) st = map (fun r => Some (Some r)) (entries s) ++ [Some None].
Proof.
  induction n as [|n IH]; intros p s st fuel E He Hk Hf Hl; cbn [Nat.add iter_poll];
    destruct (entries_step s p fuel st E He Hk Hf) as [st' H]; destruct (entries s) as [|r t'] eqn:Es; try discriminate.
  - rewrite H. reflexivity.
  - destruct H as (H & q & t & A & B & C & D & F). rewrite H. cbn [map app]. f_equal. cbn [tl] in B. rewrite <- B.
    apply (IH q t); auto; [lia|]. rewrite B. cbn [length] in Hl. lia.
Qed.

Lemma entries_run fuel : (length l < fuel)%nat ->
  iter_poll fuel (length (entries l) + 1) keys_new = map (fun r => Some (Some r)) (entries l) ++ [Some None].
Proof. intros H. apply (entries_all _ [] l); auto. Qed.
End Entries.

(** * Object ids *)

Lemma next_id_drop p s id : ascending 0 (p ++ s) -> (forall x, In x p -> x <= id) -> (match s with [] => True | x :: _ => id < x end) ->
  next_id_of (p ++ s) id = match s with [] => None | x :: _ => Some x end.
Proof.
  intros _ P S. induction p as [|y p IH]; cbn [app next_id_of].
  - destruct s as [|x s]; [reflexivity|]. cbn [next_id_of]. destruct (Z.ltb_spec id x); [reflexivity|lia].
  - destruct (Z.ltb_spec id y); [specialize (P y (or_introl eq_refl)); lia|]. apply IH. intros x I. apply P. now right.
Qed.

Lemma ascending_app a p s : ascending a (p ++ s) -> ascending a p /\ ascending (last p a) s.
Proof.
  revert a. induction p as [|x p IH]; intros a H; cbn [app ascending last] in *; [now split|]. destruct H as [H1 H2].
  destruct (IH x H2) as [A B]. split; [now split|]. destruct p; [exact B|]. replace (last (z :: p) a) with (last (z :: p) x); [exact B|].
  clear. revert z. induction p as [|y p IH]; intros z; [reflexivity|]. cbn [last] in *. apply (IH y).
Qed.

Lemma ascending_max a p : ascending a p -> forall x, In x p -> a < x <= last p a.
Proof.
  revert a. induction p as [|y p IH]; intros a H x I; [contradiction|]. cbn [ascending] in H. destruct H as [H1 H2].
  assert (last (y :: p) a = last p y) as ->.
  { destruct p as [|z p]; [reflexivity|]. cbn [last]. clear. revert z. induction p as [|w p IH]; intros z; [reflexivity|]. cbn [last] in *. apply (IH w). }
  destruct I as [->|I]; [|specialize (IH y H2 x I); lia].
  split; [lia|]. destruct p as [|z p]; [cbn; lia|]. specialize (IH x H2 (last (z :: p) x)).
  assert (In (last (z :: p) x) (z :: p)) as J by (destruct (exists_last (l := z :: p)) as (q & w & Ew); [discriminate|]; rewrite Ew, last_last; apply in_or_app; right; now left).
  specialize (IH J). lia.
Qed.

Lemma ids_rest l next : ascending 0 l -> (forall m id, next m id = Ok (next_id_of l id)) ->
  forall s p st, l = p ++ s -> ids_current st = Some (last p 0) ->
  fst (poll (ids_next next) (length s) st) = map (fun k => Some (Ok k)) s /\ ids_current (snd (poll (ids_next next) (length s) st)) = Some (last l 0).
Proof.
  intros A Hn. induction s as [|x s IH]; intros p st E Hc.
  - rewrite app_nil_r in E. subst p. cbn. auto.
  - cbn [length poll map]. unfold ids_next at 1 3. rewrite Hc, Hn. rewrite E in A. destruct (ascending_app 0 p (x :: s) A) as [Ap As]. cbn [ascending] in As.
    assert (next_id_of l (last p 0) = Some x) as ->.
    { rewrite E. rewrite next_id_drop; [reflexivity|exact A| |tauto]. intros y I. apply (ascending_max 0 p Ap) in I. lia. }
    assert (l = (p ++ [x]) ++ s) as E' by now rewrite <- app_assoc.
    assert (Some x = Some (last (p ++ [x]) 0)) as L by now rewrite last_last.
    cbv zeta. destruct (IH (p ++ [x]) {| ids_current := Some x; ids_calls := S (ids_calls st) |} E' L) as [B C].
    destruct (poll (ids_next next) (length s) {| ids_current := Some x; ids_calls := S (ids_calls st) |}) as [r st2]. cbn [fst snd] in *. split; [now rewrite B|exact C].
Qed.

Lemma ids_ended next st n : ids_current st = None -> poll (ids_next next) n st = (repeat None n, st).
Proof.
  intros H. induction n as [|n IH]; [reflexivity|]. cbn [poll repeat]. unfold ids_next at 1. rewrite H. now rewrite IH.
Qed.

(** Every object once, in order of ids, then the end, for good. *)
Lemma ids_each l next n : ascending 0 l -> (forall m id, next m id = Ok (next_id_of l id)) ->
  fst (poll (ids_next next) (length l + (1 + n)) ids_new) = map (fun k => Some (Ok k)) l ++ repeat None (1 + n).
Proof.
  intros A Hn. rewrite poll_app. destruct (ids_rest l next A Hn l [] ids_new eq_refl eq_refl) as [B C].
  destruct (poll (ids_next next) (length l) ids_new) as [r st]. cbn [fst snd] in *. subst r.
  assert (ids_next next st = (None, {| ids_current := None; ids_calls := S (ids_calls st) |})) as E.
  { assert (next_id_of l (last l 0) = None) as N.
    { pose proof (next_id_drop l [] (last l 0)) as D. rewrite app_nil_r in D. apply D; [exact A| |exact I].
      intros x I. apply (ascending_max 0 l A) in I. lia. }
    unfold ids_next. now rewrite C, Hn, N. }
  cbn [Nat.add poll repeat]. rewrite E. rewrite ids_ended by reflexivity. reflexivity.
Qed.

Lemma ids_error next st e st' n : ids_next next st = (Some (Err e), st') -> poll (ids_next next) n st' = (repeat None n, st').
Proof.
  unfold ids_next at 1. destruct (ids_current st) as [id|]; [|discriminate]. cbv zeta. destruct (next (ids_calls st) id) as [[x|]|e']; try discriminate.
  intros H. apply pair_equal_spec in H as [_ <-]. now apply ids_ended.
Qed.

(** * Per-CPU values *)

Lemma stride_eq n : Z.of_nat (next_multiple_of_8 n) = slot_size (Z.of_nat n).
Proof.
  unfold next_multiple_of_8, slot_size. destruct (Nat.eqb_spec (n mod 8) 0); lia.
Qed.

Lemma stride_ge n : (n <= next_multiple_of_8 n)%nat.
Proof. pose proof (stride_eq n). unfold slot_size in *. lia. Qed.

Lemma stride_pos n : (0 < n)%nat -> (0 < next_multiple_of_8 n)%nat.
Proof. pose proof (stride_eq n). unfold slot_size in *. lia. Qed.

Lemma write_values_ok size values : forall i mem, Forall (fun v => length v = size) values ->
  (length mem = (i + length values) * next_multiple_of_8 size)%nat ->
  exists r, write_values (next_multiple_of_8 size) i values mem = Ok r /\ length r = length mem /\
    (forall j v, nth_error values j = Some v -> slice ((i + j) * next_multiple_of_8 size) size r = v) /\
    (forall x, (x < i * next_multiple_of_8 size)%nat -> nth_error r x = nth_error mem x).
Proof.
  pose proof (stride_ge size) as Sg. set (stride := next_multiple_of_8 size) in *.
  induction values as [|v values IH]; intros i mem F L; cbn [write_values].
  - exists mem. repeat split; auto. intros j v H. destruct j; discriminate.
  - inversion F as [|? ? Lv F']; subst. cbn [length] in L.
    assert (i * stride + length v <= length mem)%nat as B by nia.
    destruct (Nat.leb_spec (i * stride + length v) (length mem)); [|lia].
    destruct (IH (S i) (splice (i * stride) v mem) F') as (r & Er & Lr & Hv & Hx).
    { rewrite splice_length by exact B. nia. }
    rewrite splice_length in Lr by exact B. exists r. split; [exact Er|]. split; [exact Lr|]. split.
    + intros [|j] w Hw.
      * cbn in Hw. apply some_inj in Hw. subst w. rewrite Nat.add_0_r. apply list_eq_nth_error. intros k.
        rewrite nth_error_slice. destruct (k <? length v)%nat eqn:Kl; apply Nat.ltb_lt in Kl || apply Nat.ltb_ge in Kl.
        -- rewrite Hx by nia. rewrite nth_error_splice by exact B.
           destruct (Nat.ltb_spec (i * stride + k) (i * stride)); [lia|]. destruct (Nat.ltb_spec (i * stride + k) (i * stride + length v)); [|lia].
           f_equal. lia.
        -- symmetry. now apply nth_error_None.
      * cbn in Hw. replace (i + S j)%nat with (S i + j)%nat by lia. now apply Hv.
    + intros x Hl. rewrite Hx by nia. rewrite nth_error_splice by exact B. destruct (Nat.ltb_spec x (i * stride)); [reflexivity|lia].
Qed.

(** The kernel takes each CPU's value from its slot. *)
Lemma build_taken nr size values : try_from nr values = Ok values -> Forall (fun v => length v = size) values ->
  exists mem, build_kernel_mem nr size values = Ok mem /\ kernel_takes size nr mem = values /\ length mem = (nr * Z.to_nat (slot_size (Z.of_nat size)))%nat.
Proof.
  unfold try_from. destruct (Nat.eqb_spec (length values) nr) as [L|]; [|discriminate]. intros _ F.
  destruct (write_values_ok size values 0 (alloc_kernel_mem nr size) F) as (r & Er & Lr & Hv & _).
  { unfold alloc_kernel_mem. rewrite repeat_length. cbn [Nat.add]. now rewrite L. }
  assert (Z.to_nat (slot_size (Z.of_nat size)) = next_multiple_of_8 size) as Es by (rewrite <- stride_eq; lia).
  exists r. split; [exact Er|]. split.
  - unfold kernel_takes. rewrite Es. apply list_eq_nth_error. intros j. destruct (nth_error values j) as [v|] eqn:E.
    + assert (j < nr)%nat as J by (rewrite <- L; apply nth_error_Some; congruence).
      rewrite (map_nth_error _ j (seq 0 nr) (d := j)).
      * f_equal. apply (Hv j v E).
      * rewrite (nth_error_nth' _ 0%nat) by now rewrite seq_length. now rewrite seq_nth.
    + apply nth_error_None. apply nth_error_None in E. rewrite map_length, seq_length. lia.
  - rewrite Lr. unfold alloc_kernel_mem. rewrite repeat_length. now rewrite Es.
Qed.

Lemma read_values_ok size stride values pads : forall fuel pre, (0 < stride)%nat -> (size <= stride)%nat -> length pads = length values ->
  Forall (fun v => length v = size) values -> Forall (fun p => length p = (stride - size)%nat) pads ->
  (length values <= fuel)%nat ->
  read_values fuel size stride (length pre) (pre ++ kernel_gives values pads) = Ok values.
Proof.
  revert pads. induction values as [|v values IH]; intros pads fuel pre Sp Ss Lp F Fp Hf.
  - unfold kernel_gives. cbn [combine map concat]. rewrite app_nil_r. destruct fuel; cbn [read_values]; now rewrite Nat.ltb_irrefl.
  - destruct pads as [|p pads]; [discriminate|]. inversion F as [|? ? Lv F']; subst. inversion Fp as [|? ? Lq Fp']; subst. cbn [length] in *.
    unfold kernel_gives. cbn [combine map concat fst snd]. fold (kernel_gives values pads).
    destruct fuel as [|fuel]; [lia|]. cbn [read_values].
    destruct (Nat.ltb_spec (length pre) (length (pre ++ (v ++ p) ++ kernel_gives values pads))) as [|B]; [|rewrite !app_length in B; lia].
    destruct (Nat.leb_spec (length pre + length v) (length (pre ++ (v ++ p) ++ kernel_gives values pads))) as [|B]; [|rewrite !app_length in B; lia].
    replace (length pre + stride)%nat with (length (pre ++ v ++ p)) by (rewrite !app_length; lia).
    replace (read_values fuel (length v) stride (length (pre ++ v ++ p)) (pre ++ (v ++ p) ++ kernel_gives values pads)) with (@Ok unit _ values).
    + cbn [bind]. f_equal. f_equal. rewrite <- app_assoc. apply slice_app_exact.
    + symmetry. replace (pre ++ (v ++ p) ++ kernel_gives values pads) with ((pre ++ v ++ p) ++ kernel_gives values pads) by now rewrite <- !app_assoc.
      apply IH; auto; lia.
Qed.

Lemma kernel_gives_length stride size values pads : length pads = length values -> (size <= stride)%nat ->
  Forall (fun v => length v = size) values -> Forall (fun p => length p = (stride - size)%nat) pads ->
  length (kernel_gives values pads) = (length values * stride)%nat.
Proof.
  revert pads. induction values as [|v values IH]; intros pads Lp Ss F Fp; [reflexivity|]. destruct pads as [|p pads]; [discriminate|].
  inversion F as [|? ? Lv F']; subst. inversion Fp as [|? ? Lq Fp']; subst. unfold kernel_gives. cbn [combine map concat fst snd length Nat.mul].
  fold (kernel_gives values pads). rewrite !app_length, (IH pads); auto; lia.
Qed.

Lemma from_given size values pads : (0 < size)%nat -> length pads = length values ->
  Forall (fun v => length v = size) values ->
  Forall (fun p => Z.of_nat (length p) = slot_size (Z.of_nat size) - Z.of_nat size) pads ->
  from_kernel_mem size (kernel_gives values pads) = Ok values.
Proof.
  intros P Lp F Fp. pose proof (stride_eq size) as E. pose proof (stride_ge size) as G. pose proof (stride_pos size P) as Q.
  assert (Forall (fun p => length p = (next_multiple_of_8 size - size)%nat) pads) as Fp'.
  { eapply Forall_impl; [|exact Fp]. intros p Hp. cbn beta in *. lia. }
  unfold from_kernel_mem. apply (read_values_ok size (next_multiple_of_8 size) values pads _ []); auto.
  rewrite (kernel_gives_length (next_multiple_of_8 size) size) by auto. nia.
Qed.

(** Reading back what was built. *)
Lemma slots_of stride size values r : (size <= stride)%nat -> Forall (fun v => length v = size) values -> length r = (length values * stride)%nat ->
  (forall j v, nth_error values j = Some v -> slice (j * stride) size r = v) ->
  r = kernel_gives values (map (fun j => slice (j * stride + size) (stride - size) r) (seq 0 (length values))).
Proof.
  intros Ss. revert r. induction values as [|v values IH]; intros r F L H; cbn [length] in *.
  - cbn. destruct r; [reflexivity|discriminate].
  - inversion F as [|? ? Lv F']; subst. cbn [seq map]. unfold kernel_gives. cbn [combine map concat fst snd].
    match goal with |- _ = _ ++ concat (map _ (combine values ?l)) => change (concat (map (fun vp => fst vp ++ snd vp) (combine values l))) with (kernel_gives values l) end.
    specialize (IH (skipn stride r) F'). rewrite skipn_length in IH. specialize (IH ltac:(lia)).
    assert (forall j n o, slice (j * stride + o) n (skipn stride r) = slice (S j * stride + o) n r) as K.
    { intros j n o. unfold slice. rewrite skipn_skipn'. do 2 f_equal. lia. }
    assert (r = slice 0 (length v) r ++ slice (length v) (stride - length v) r ++ skipn stride r) as E.
    { rewrite app_assoc. rewrite slice_app_split. replace (length v + (stride - length v))%nat with stride by lia. unfold slice. cbn [skipn].
      symmetry. apply firstn_skipn. }
    rewrite E at 1. rewrite <- app_assoc. f_equal; [apply (H 0%nat v eq_refl)|]. f_equal.
    rewrite IH at 1.
    + f_equal. rewrite <- seq_shift, map_map. apply map_ext. intros j. now rewrite K.
    + intros j w Hw. rewrite <- (Nat.add_0_r (j * stride)), K, Nat.add_0_r. apply (H (S j) w Hw).
Qed.

Lemma percpu_round nr size values : (0 < size)%nat -> try_from nr values = Ok values -> Forall (fun v => length v = size) values ->
  exists mem, build_kernel_mem nr size values = Ok mem /\ from_kernel_mem size mem = Ok values.
Proof.
  intros P T F. pose proof T as T'. unfold try_from in T'. destruct (Nat.eqb_spec (length values) nr) as [L|]; [|discriminate].
  destruct (write_values_ok size values 0 (alloc_kernel_mem nr size) F) as (r & Er & Lr & Hv & _).
  { unfold alloc_kernel_mem. rewrite repeat_length. cbn [Nat.add]. now rewrite L. }
  exists r. split; [exact Er|]. unfold alloc_kernel_mem in Lr. rewrite repeat_length in Lr.
  pose proof (stride_ge size) as G. pose proof (stride_pos size P) as Q. pose proof (stride_eq size) as E.
  rewrite (slots_of (next_multiple_of_8 size) size values r G F); [|now rewrite L|exact Hv].
  set (pads := map _ _). apply (read_values_ok size (next_multiple_of_8 size) values pads _ []); auto.
  - unfold pads. now rewrite map_length, seq_length.
  - unfold pads. apply Forall_forall. intros p I. apply in_map_iff in I as (j & <- & I). apply in_seq in I. apply slice_length. nia.
  - unfold pads. rewrite (kernel_gives_length (next_multiple_of_8 size) size); auto; [nia|now rewrite map_length, seq_length|].
    apply Forall_forall. intros p I. apply in_map_iff in I as (j & <- & I). apply in_seq in I. apply slice_length. nia.
Qed.
