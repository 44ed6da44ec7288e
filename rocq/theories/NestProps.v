(** C102: a map of maps gives back the map that was put in. *)
From Verif Require Import Base Text MapModel TypedModel TypedSpec NestModel NestSpec NestProofs NestProofs2 NestProofs3 NestProofs4 NestProofs5.
Import ListNotations.
Local Open Scope Z_scope.

(** [get], whatever its arguments and whatever the kernel answers: the new
    handle is for the map in the outer map, of a type that suits it, and its
    descriptor is all that is new; in case of an error nothing is. *)
Theorem C102_get : forall f t h meta k flags s, reached s -> is_for h meta s -> key_ok (o_handle h) k ->
  match get linux f t h k flags s with
  | (Ok i, s') => exists p m, holds h k s = Some p /\ s' = with_fds ((i_fd i, p) :: k_fds s) s /\ behind (i_fd i) s = None /\
      map_at p s = Some m /\ i_shape i = m_shape m /\ i_type i = t /\ suits f t (m_shape m) /\ suits f t meta /\ flags = 0 /\ index_in h k
  | (Err e, s') => s' = s
  end.
Proof. intros f t h meta k flags s R. exact (get_any f t h meta k flags s (reached_sane s R)). Qed.
Print Assumptions C102_get.

(** When it succeeds, and the errors. *)
Theorem C102_get_held : forall f t h meta k s p, reached s -> is_for h meta s -> key_ok (o_handle h) k -> index_in h k -> holds h k s = Some p ->
  can_open s -> suits f t meta -> exists i, get linux f t h k 0 s = (Ok i, with_fds ((i_fd i, p) :: k_fds s) s).
Proof.
  intros f t h meta k s p R F KO IX H C SU. destruct (get_held f t h meta k s p (reached_sane s R) F KO IX H C SU) as (i & m & G & _). now exists i.
Qed.
Print Assumptions C102_get_held.

Theorem C102_get_absent : forall f t h meta k s, is_for h meta s -> key_ok (o_handle h) k -> index_in h k -> holds h k s = None ->
  get linux f t h k 0 s = (Err EKeyNotFound, s).
Proof. exact get_absent. Qed.
Print Assumptions C102_get_absent.

Theorem C102_get_outside : forall f t h meta i flags s, is_for h meta s -> key_ok (o_handle h) (UIndex i) -> ~ index_in h (UIndex i) ->
  get linux f t h (UIndex i) flags s = (Err (EOutOfBounds i (h_entries (hd_shape (o_handle h)))), s).
Proof. exact get_outside. Qed.
Print Assumptions C102_get_outside.

Theorem C102_get_unsuited : forall f h meta w kk vv k s p, reached s -> is_for h meta s -> key_ok (o_handle h) k -> index_in h k ->
  holds h k s = Some p -> can_open s -> ~ In (h_type meta) (alias_types w) ->
  get linux f (VTyped w kk vv) h k 0 s = (Err (EInvalidMapType (h_type meta)), s).
Proof. intros f h meta w kk vv k s p R. exact (get_unsuited f h meta w kk vv k s p (reached_sane s R)). Qed.
Print Assumptions C102_get_unsuited.

(** Dropping the handle gives back the descriptor. *)
Theorem C102_release : forall f t h meta k flags s i s', reached s -> is_for h meta s -> key_ok (o_handle h) k ->
  get linux f t h k flags s = (Ok i, s') -> release linux i s' = s.
Proof. intros f t h meta k flags s i s' R. exact (release_opened f t h meta k flags s i s' (reached_sane s R)). Qed.
Print Assumptions C102_release.

(** [set] and [insert]: the map given is in the outer map now, and nothing else
    is different; or nothing at all is. *)
Theorem C102_set : forall f h meta k i flags s p, reached s -> is_for h meta s -> key_ok (o_handle h) k -> behind (i_fd i) s = Some p ->
  match set linux f h k i flags s with
  | (Ok r, s') => r = RUnit /\ changed h meta k (Some p) s s'
  | (Err e, s') => s' = s
  end.
Proof. intros f h meta k i flags s p R. exact (set_any f h meta k i flags s p (reached_sane s R)). Qed.
Print Assumptions C102_set.

(** They succeed when the map is like those the outer map was made for and there
    is room, and never with another map. *)
Theorem C102_set_ok : forall f h meta k i s p m, reached s -> is_for h meta s -> key_ok (o_handle h) k -> index_in h k ->
  behind (i_fd i) s = Some p -> map_at p s = Some m -> m_meta m = None -> meta_equal meta (m_shape m) = true ->
  (hd_wrap (o_handle h) = WHashOfMaps -> holds h k s <> None \/ count h s < h_entries (hd_shape (o_handle h))) ->
  exists s', set linux f h k i 0 s = (Ok RUnit, s').
Proof. intros f h meta k i s p m R. exact (set_ok f h meta k i s p m (reached_sane s R)). Qed.
Print Assumptions C102_set_ok.

Theorem C102_set_unsuited : forall f h meta k i flags s p m, reached s -> is_for h meta s -> key_ok (o_handle h) k ->
  behind (i_fd i) s = Some p -> map_at p s = Some m -> m_meta m = None -> meta_equal meta (m_shape m) = false ->
  exists e, set linux f h k i flags s = (Err e, s).
Proof. intros f h meta k i flags s p m R. exact (set_unsuited f h meta k i flags s p m (reached_sane s R)). Qed.
Print Assumptions C102_set_unsuited.

Theorem C102_set_outside : forall f h meta i x flags s, is_for h meta s -> key_ok (o_handle h) (UIndex i) -> ~ index_in h (UIndex i) ->
  set linux f h (UIndex i) x flags s = (Err (EOutOfBounds i (h_entries (hd_shape (o_handle h)))), s).
Proof. exact set_outside. Qed.
Print Assumptions C102_set_outside.

(** [remove]. *)
Theorem C102_remove : forall f h meta k s, reached s -> is_for h meta s -> key_ok (o_handle h) k -> hd_wrap (o_handle h) = WHashOfMaps ->
  match holds h k s with
  | Some _ => exists s', remove linux f h k s = (Ok RUnit, s') /\ changed h meta k None s s'
  | None => remove linux f h k s = (Err (ESyscall ENOENT), s)
  end.
Proof. intros f h meta k s R. exact (remove_any f h meta k s (reached_sane s R)). Qed.
Print Assumptions C102_remove.

(** What was put in comes back, even after its handle was dropped. *)
Theorem C102_round_trip : forall f t h meta k i flags s p r s1, reached s -> is_for h meta s -> key_ok (o_handle h) k -> index_in h k ->
  behind (i_fd i) s = Some p -> i_fd i <> o_fd h -> set linux f h k i flags s = (Ok r, s1) ->
  can_open (release linux i s1) -> suits f t meta ->
  exists j, get linux f t h k 0 (release linux i s1) = (Ok j, with_fds ((i_fd j, p) :: k_fds (release linux i s1)) (release linux i s1)).
Proof. intros f t h meta k i flags s p r s1 R. exact (set_get f t h meta k i flags s p r s1 (reached_sane s R)). Qed.
Print Assumptions C102_round_trip.

(** The states the methods leave behind are such states again. *)
Theorem C102_reached : forall f t h k i flags s, reached s ->
  reached (snd (get linux f t h k flags s)) /\ reached (snd (set linux f h k i flags s)) /\ reached (snd (remove linux f h k s)) /\
  reached (release linux i s) /\ forall l, reached (happened l s).
Proof.
  intros f t h k i flags s R. split; [now apply get_reached|]. split; [now apply set_reached|]. split; [now apply remove_reached|].
  split; [now apply release_reached|]. intros l. now apply reached_more.
Qed.
Print Assumptions C102_reached.

(** Whatever is done to other maps, and to the map itself, which stays the one in
    the outer map. *)
Theorem C102_kept : forall h meta k o p m l s, reached s -> is_for h meta s -> behind (o_fd h) s = Some o -> holds h k s = Some p -> map_at p s = Some m ->
  elsewhere o (o_fd h) l s ->
  is_for h meta (happened l s) /\ holds h k (happened l s) = Some p /\
  exists m', map_at p (happened l s) = Some m' /\ m_id m' = m_id m /\ m_shape m' = m_shape m.
Proof. intros h meta k o p m l s R. exact (kept h meta k o p m l s (reached_sane s R)). Qed.
Print Assumptions C102_kept.

(** * Races *)

(** Whatever happens between the lookup and opening the number found: the
    handle is for a map that exists, of a shape that suits its type, and only
    its descriptor is new. *)
Theorem C102_race_type : forall f t h meta k flags l s, reached s -> is_for h meta s -> key_ok (o_handle h) k ->
  match get_while linux f t h k flags (happened l) s with
  | (Ok i, s') => exists p m, map_at p (happened l s) = Some m /\ suits f t (m_shape m) /\ i_shape i = m_shape m /\
      s' = with_fds ((i_fd i, p) :: k_fds (happened l s)) (happened l s) /\ behind (i_fd i) (happened l s) = None
  | (Err e, s') => s' = s \/ s' = happened l s
  end.
Proof. intros f t h meta k flags l s R. exact (race_type f t h meta k flags l s (reached_sane s R)). Qed.
Print Assumptions C102_race_type.

(** It is the map that was in the outer map, unless its number is given to
    another map meanwhile; when the map is gone, so that there is an error. *)
Theorem C102_race_partial : forall f t h meta k l s p m, reached s -> is_for h meta s -> key_ok (o_handle h) k -> index_in h k ->
  holds h k s = Some p -> map_at p s = Some m -> not_reused (m_id m) l -> can_open (happened l s) -> suits f t meta ->
  match map_at p (happened l s) with
  | Some _ => exists i, get_while linux f t h k 0 (happened l) s = (Ok i, with_fds ((i_fd i, p) :: k_fds (happened l s)) (happened l s))
  | None => get_while linux f t h k 0 (happened l) s = (Err (ESyscall ENOENT), happened l s)
  end.
Proof. intros f t h meta k l s p m R. exact (race_map f t h meta k l s p m (reached_sane s R)). Qed.
Print Assumptions C102_race_partial.

(** * Programs *)

(** A handle got from the outer map reads what programs read through it. *)
Theorem C102_program_reads : forall f h meta k flags kk vv ik s o i s1, reached s -> is_for h meta s -> key_ok (o_handle h) k ->
  behind (o_fd h) s = Some o -> Z.of_nat (length ik) = kk -> get linux f (VTyped WHashMap kk vv) h k flags s = (Ok i, s1) ->
  call (kcall (i_fd i)) f 1 (as_hash i kk vv) (OGet (UData ik) 0) s1 =
    (match get_value helpers o (key_bytes k) ik s with Some v => Ok (RData v) | None => Err EKeyNotFound end, s1).
Proof. intros f h meta k flags kk vv ik s o i s1 R. exact (inner_read f h meta k flags kk vv ik s o i s1 (reached_sane s R)). Qed.
Print Assumptions C102_program_reads.

(** What is written through such a handle, programs read. *)
Theorem C102_program_sees : forall f h meta k flags kk vv ik v s o i s1 s2, reached s -> is_for h meta s -> key_ok (o_handle h) k ->
  behind (o_fd h) s = Some o -> Z.of_nat (length ik) = kk -> Z.of_nat (length v) = vv -> get linux f (VTyped WHashMap kk vv) h k flags s = (Ok i, s1) ->
  call (kcall (i_fd i)) f 1 (as_hash i kk vv) (OSet (UData ik) (WData v) 0) s1 = (Ok RUnit, s2) ->
  get_value helpers o (key_bytes k) ik s2 = Some v /\
  forall ik', Z.of_nat (length ik') = kk -> ik' <> ik -> get_value helpers o (key_bytes k) ik' s2 = get_value helpers o (key_bytes k) ik' s.
Proof. intros f h meta k flags kk vv ik v s o i s1 s2 R. exact (inner_write f h meta k flags kk vv ik v s o i s1 s2 (reached_sane s R)). Qed.
Print Assumptions C102_program_sees.

(** What a program stores through the pointer it got is there afterwards; there
    is a pointer when there is a value. *)
Theorem C102_program_stores : forall h meta k s o ik v, reached s -> is_for h meta s -> key_ok (o_handle h) k -> behind (o_fd h) s = Some o ->
  match store_value helpers o (key_bytes k) ik v s with
  | (true, s') => get_value helpers o (key_bytes k) ik s <> None /\ get_value helpers o (key_bytes k) ik s' = Some v /\
                  is_for h meta s' /\ (forall k', holds h k' s' = holds h k' s) /\ k_fds s' = k_fds s
  | (false, s') => get_value helpers o (key_bytes k) ik s = None /\ s' = s
  end.
Proof. intros h meta k s o ik v R. exact (prog_store h meta k s o ik v (reached_sane s R)). Qed.
Print Assumptions C102_program_stores.

(** Only types for maps that the kernel takes as inner maps can be asked for. *)
Theorem C102_inner_types : forall w k v, inner_type (VTyped w k v) = true -> Forall kernel_inner (alias_types w).
Proof. exact inner_types. Qed.
Print Assumptions C102_inner_types.

(** * Examples *)

Definition sh_in : shape := {| h_type := 1; h_key := 2; h_value := 1; h_entries := 8; h_flags := 0 |}.
Definition sh_arr : shape := {| h_type := 12; h_key := 4; h_value := 4; h_entries := 3; h_flags := 0 |}.
Definition sh_hash : shape := {| h_type := 13; h_key := 1; h_value := 4; h_entries := 2; h_flags := 0 |}.
(** An array of maps behind descriptor 0, a hash of maps behind 1, two hash maps
    behind 2 and 3. *)
Definition made : list event := [ECreate 10 sh_arr (Some sh_in) true; ECreate 11 sh_hash (Some sh_in) true; ECreate 12 sh_in None true; ECreate 13 sh_in None true].
Definition before : kern := happened made (start 64 None None).
Definition arr : outer := {| o_fd := 0; o_handle := {| hd_wrap := WArrayOfMaps; hd_k := 4; hd_v := 4; hd_shape := sh_arr |} |}.
Definition hsh : outer := {| o_fd := 1; o_handle := {| hd_wrap := WHashOfMaps; hd_k := 1; hd_v := 4; hd_shape := sh_hash |} |}.
Definition first : inner := {| i_fd := 2; i_shape := sh_in; i_type := VTyped WHashMap 2 1 |}.
Definition second : inner := {| i_fd := 3; i_shape := sh_in; i_type := VTyped WHashMap 2 1 |}.
Definition feats : features := {| f_cpumap := true; f_devmap := true |}.
Definition filled : kern := release linux first (snd (set linux feats arr (UIndex 1) first 0 before)).

Lemma before_reached : reached before.
Proof. exists 64, None, None, made. split; [lia|reflexivity]. Qed.
Lemma filled_reached : reached filled.
Proof. apply release_reached, set_reached, before_reached. Qed.
Example arr_is : is_for arr sh_in filled.
Proof. exists 0%nat. eexists. split; [vm_compute; reflexivity|]. split; [vm_compute; reflexivity|]. split; [reflexivity|]. split; [reflexivity|]. left. auto. Qed.
Example hsh_is : is_for hsh sh_in filled.
Proof. exists 1%nat. eexists. split; [vm_compute; reflexivity|]. split; [vm_compute; reflexivity|]. split; [reflexivity|]. split; [reflexivity|]. right. auto. Qed.
Example key_there : key_ok (o_handle arr) (UIndex 1) /\ index_in arr (UIndex 1) /\ key_ok (o_handle hsh) (UData [7]).
Proof. cbn. lia. Qed.
Example it_holds : holds arr (UIndex 1) filled = Some 2%nat /\ can_open filled.
Proof. vm_compute. auto. Qed.
Example it_suits : suits feats (VTyped WHashMap 2 1) sh_in.
Proof. split; [left; reflexivity|]. split; [intros n [= <-]; reflexivity|]. split; [intros n [= <-]; reflexivity|discriminate]. Qed.
(** The map comes back, with descriptor 2 again; as another type it does not. *)
Example it_comes_back :
  fst (get linux feats (VTyped WHashMap 2 1) arr (UIndex 1) 0 filled) = Ok first /\
  fst (get linux feats (VTyped WArray 4 1) arr (UIndex 1) 0 filled) = Err (EInvalidMapType 1) /\
  fst (get linux feats (VTyped WHashMap 2 2) arr (UIndex 1) 0 filled) = Err (EInvalidValueSize 2 1) /\
  fst (get linux feats VMapData arr (UIndex 0) 0 filled) = Err EKeyNotFound /\
  fst (get linux feats VMapData arr (UIndex 3) 0 filled) = Err (EOutOfBounds 3 3).
Proof. vm_compute. auto. Qed.
(** A hash of maps takes maps until it is full; removing one makes it go away
    when nothing else refers to it. *)
Example it_fills :
  let s1 := snd (set linux feats hsh (UData [7]) second 0 filled) in
  let s2 := release linux second s1 in
  holds hsh (UData [7]) s2 = Some 3%nat /\ map_at 3 s2 <> None /\
  map_at 3 (snd (remove linux feats hsh (UData [7]) s2)) = None /\
  fst (remove linux feats hsh (UData [8]) s2) = Err (ESyscall ENOENT).
Proof. vm_compute. split; [reflexivity|]. split; [discriminate|auto]. Qed.
(** A map of another shape. *)
Example it_refuses : fst (set linux feats arr (UIndex 0) {| i_fd := 1; i_shape := sh_hash; i_type := VMapData |} 0 before) = Err (ESyscall EINVAL).
Proof. reflexivity. Qed.
(** A program finds what was written through the handle that came back. *)
Example program_finds :
  let (i, s1) := get linux feats (VTyped WHashMap 2 1) arr (UIndex 1) 0 filled in
  match i with
  | Ok i => get_value helpers 0%nat (le_enc 4 1) [5; 6] (snd (call (kcall (i_fd i)) feats 1 (as_hash i 2 1) (OSet (UData [5; 6]) (WData [9]) 0) s1)) = Some [9]
  | Err _ => False
  end.
Proof. vm_compute. reflexivity. Qed.
Example kept_there : elsewhere 0 0 [ECreate 20 sh_in None true; ERelease 2%nat; EClose 3; EStore 2 [5; 6] [1]; ECall 1 {| q_cmd := CDelete; q_key := Some [7]; q_value := None; q_flags := 0 |}] filled.
Proof. vm_compute. repeat split; discriminate. Qed.

(** While [get] is between its two system calls, the map found is replaced and
    goes away, and a map that somebody else makes gets its number. *)
Definition meanwhile : list event :=
  [ECall 0 {| q_cmd := CUpdate; q_key := Some (le_enc 4 1); q_value := Some (le_enc 4 3); q_flags := 0 |}; ECreate 12 sh_in None false].
Theorem C102_race_refuted : exists h meta k l s p i s' q, reached s /\ is_for h meta s /\ key_ok (o_handle h) k /\ index_in h k /\ holds h k s = Some p /\
  get_while linux feats (VTyped WHashMap 2 1) h k 0 (happened l) s = (Ok i, s') /\ behind (i_fd i) s' = Some q /\
  map_at q s = None /\ (forall n k', holds h k' (happened (firstn n l) s) <> Some q) /\ forall k', holds h k' s' <> Some q.
Proof.
  exists arr, sh_in, (UIndex 1), meanwhile, filled, 2%nat, first. eexists. exists 4%nat.
  split; [exact filled_reached|]. split; [exact arr_is|]. split; [exact (proj1 key_there)|]. split; [exact (proj1 (proj2 key_there))|].
  split; [exact (proj1 it_holds)|]. split; [vm_compute; reflexivity|]. split; [vm_compute; reflexivity|]. split; [vm_compute; reflexivity|]. split.
  - assert (HS : forall s (X : match behind (o_fd arr) s with Some o => match map_at o s with Some m => forallb (fun e => negb (Nat.eqb (snd e) 4)) (m_slots m) | None => true end | None => true end = true) k',
      holds arr k' s <> Some 4%nat).
    { intros s X k'. unfold holds. destruct (behind (o_fd arr) s) as [o|]; [|discriminate]. destruct (map_at o s) as [m|]; [|discriminate].
      induction (m_slots m) as [|[k0 p0] l IH]; [discriminate|]. cbn in X |- *. apply andb_prop in X as [X1 X2].
      destruct (str_eqb (key_bytes k') k0); [|exact (IH X2)]. intros [= ->]. discriminate X1. }
    intros n k'. apply HS. destruct n as [|[|[|n]]]; vm_compute; reflexivity.
  - intros k'. unfold holds. cbn -[key_bytes str_eqb]. destruct (str_eqb (key_bytes k') _); discriminate.
Qed.
Print Assumptions C102_race_refuted.
