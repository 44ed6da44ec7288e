(** Probes of map types. *)
From Coq Require Import String.
From Verif Require Import Base Text TextSplit Insn BtfSanitize FeatModel FeatSpec FeatProofs.
Import ListNotations.
Local Open Scope Z_scope.

Lemma map_unknown k h r : sound_kern k -> k_map k (num r 0) = false ->
  machine (calm k) h 0 r = fail 22 \/ (machine (calm k) h 0 r = fail 7 /\ beyond r 40 = true).
Proof.
  intros S K. unfold machine. cbn [calm k_early k_attr k_ends]. destruct (beyond r (k_attr k)) eqn:B.
  - right. split; [reflexivity|]. destruct (beyond r 40) eqn:B2; [reflexivity|]. rewrite (beyond_le _ _ _ (attr_40 k S) B2) in B. discriminate B.
  - left. destruct (k_ends k 0 =? 0); [reflexivity|]. destruct (beyond r (k_ends k 0)); [reflexivity|].
    unfold create. cbn [calm k_map]. now rewrite K.
Qed.
Lemma map_known k h r : sound_kern k -> k_map k (num r 0) = true -> beyond r (k_ends k 0) = false ->
  sizes_ok k (num r 0) (num r 4) (num r 8) (num r 12) = true -> flags_ok (num r 0) (num r 16) = true ->
  ids_ok (num r 0) (num r 52) (num r 56) (num r 60) = true -> (num r 0 = 33 -> k_arena k = true) ->
  machine (calm k) h 0 r =
  if of_maps (num r 0) && negb (is_open 0 h (num r 20)) then fail 9
  else if storage (num r 0) && negb (is_open 18 h (num r 48)) then fail 9
  else if num r 0 =? 26 then fail 524
  else {| a_ret := Ok (k_fd k h); a_log := [] |}.
Proof.
  intros S K B Z F I A. rewrite (machine_in k h 0 r S); [|pose proof (s_map_end k S); lia|exact B].
  cbv beta iota. unfold create. cbn [calm k_map k_arena k_late k_fd]. rewrite sizes_calm, K, Z, F, I. cbn [negb andb].
  destruct (Z.eqb_spec (num r 0) 33) as [EQ|NE].
  - rewrite (A EQ). reflexivity.
  - reflexivity.
Qed.

Definition four (t a b c : Z) : request := [(0, 4, VNum t); (4, 4, VNum a); (8, 4, VNum b); (12, 4, VNum c)].
Lemma shape_eq t s : shape_fields t s = four t (fst (fst s)) (snd (fst s)) (snd s).
Proof. reflexivity. Qed.

Lemma map_create_spec E k r h a h' : bpf_map_create E (machine k) r h = (a, h') ->
  exists h0, same_fds h h0 /\ h' = Call 0 r a :: h0 /\ answered E k h0 0 r a.
Proof. apply retried_spec. now left. Qed.

Lemma close_ret {A} fd (x : A) h : fst (seq (close fd) (fun _ => ret x) h) = x.
Proof. reflexivity. Qed.

(** The answers to the call for a map, and what is made of them. *)
Lemma map_result_settled E k t h0 c r a h : sound_kern k ->
  (k_map k t = true -> machine (calm k) h0 c r = {| a_ret := Ok (k_fd k h0); a_log := [] |} \/
                       (is_storage t = true /\ machine (calm k) h0 c r = fail 9) \/ (t = 26 /\ machine (calm k) h0 c r = fail 524)) ->
  (k_map k t = false -> machine (calm k) h0 c r = fail 22 \/ ((is_storage t || (t =? 26)) = true /\ machine (calm k) h0 c r = fail 7)) ->
  answered E k h0 c r a ->
  settled E k (k_map k t) (fst (map_result t a h)).
Proof.
  intros S T F [->|(NC & e & TR & ->)].
  - left. destruct (k_map k t).
    + destruct (T eq_refl) as [-> |[(St & ->)|(-> & ->)]]; [reflexivity| |reflexivity]. unfold map_result. cbn. now rewrite St.
    + destruct (F eq_refl) as [-> |(St & ->)]; [reflexivity|]. unfold map_result. cbn. now rewrite St.
  - right. split; [exact NC|]. exists c, e. split; [exact TR|]. exists (PCall (txt "bpf_map_create") e). split; [|reflexivity].
    assert (P : plain_error e). { destruct TR as (h1 & r1 & [T1|T1]); [exact (s_early k S _ _ _ _ T1)|exact (s_late k S _ _ _ _ T1)]. }
    destruct P as (P1 & P2 & P3 & P4). unfold map_result. cbn [fail a_ret ret fst]. unfold EINVAL, E2BIG, EBADF, ENOTSUPP.
    destruct (Z.eqb_spec e 22); [contradiction|]. destruct (Z.eqb_spec e 7); [contradiction|]. destruct (Z.eqb_spec e 9); [contradiction|].
    destruct (Z.eqb_spec e 524); [contradiction|]. reflexivity.
Qed.

Lemma in_cases {A} (x : A) l (P : A -> Prop) : Forall P l -> In x l -> P x.
Proof. intros F I. rewrite Forall_forall in F. now apply F. Qed.

Ltac small_beyond :=
  apply beyond_false;
  let o := fresh "o" in let sz := fresh "sz" in let v := fresh "v" in let I := fresh "I" in let NZ := fresh "NZ" in
  intros o sz v I NZ; cbn [four app In] in I;
  repeat (destruct I as [I|I];
    [let J := fresh "J" in let L := fresh "L" in
     apply pair_equal_spec in I as [I J]; apply pair_equal_spec in I as [I L]; subst o sz v; try discriminate NZ; lia|]);
  destruct I.

Lemma simple_map E k t s h0 : sound_kern k -> 1 <= t <= 33 -> e_page E = k_page k -> (t = 7 -> 0 < k_stack k) ->
  (t = 33 -> k_map k 33 = true -> k_arena k = true) -> map_shape E t = Some s -> is_of_maps t = false ->
  let r := shape_fields t s ++ map_extras t in
  (k_map k t = true -> machine (calm k) h0 0 r = {| a_ret := Ok (k_fd k h0); a_log := [] |} \/
                       (is_storage t = true /\ machine (calm k) h0 0 r = fail 9) \/ (t = 26 /\ machine (calm k) h0 0 r = fail 524)) /\
  (k_map k t = false -> machine (calm k) h0 0 r = fail 22 \/ ((is_storage t || (t =? 26)) = true /\ machine (calm k) h0 0 r = fail 7)).
Proof.
  intros S R P St Ar Sh OM. cbv zeta. split.
  - intros K.
    pose proof (s_map_end k S) as B0. pose proof (s_page k S) as (P1 & P2).
    assert (PU : u32 (e_page E) = k_page k) by (rewrite P; unfold u32, wrap; apply Z.mod_small; lia).
    assert (PM : k_page k mod k_page k = 0) by (apply Z_mod_same_full).
    assert (F11 : t = 11 \/ t = 33 -> 20 <= k_ends k 0).
    { intros [-> | ->]; apply (s_flags k S); [left|right]; exact K. }
    assert (FS : storage t = true -> 60 <= k_ends k 0) by (intros X; exact (s_storage k S t X K)).
    assert (FO : t = 26 -> 64 <= k_ends k 0) by (intros ->; exact (s_ops k S K)).
    assert (C : forall n, t = n -> k_map k n = true) by (intros ? <-; exact K).
    assert (L : In t [1;2;3;4;5;6;7;8;9;10;11;14;15;16;17;18;19;20;21;22;23;24;25;26;27;28;29;30;31;32;33]).
    { unfold is_of_maps in OM. cbn [In]. lia. }
    cbn [In] in L.
    repeat (destruct L as [<-|L]; [
      cbn [map_shape] in Sh; apply some_inj in Sh; subst s; rewrite shape_eq; cbn [fst snd]; try rewrite PU;
      rewrite map_known;
        [cbn; first [left; reflexivity | right; left; split; reflexivity | right; right; split; reflexivity]
        |exact S
        |exact K
        |let X := fresh in assert (X := F11); let Y := fresh in assert (Y := FS); let Z' := fresh in assert (Z' := FO);
         cbn in Y; unfold map_extras; cbn [is_storage Z.eqb Pos.eqb orb]; autorewrite with sets;
         try specialize (X (or_introl eq_refl)); try specialize (X (or_intror eq_refl)); try specialize (Y eq_refl); try specialize (Z' eq_refl);
         small_beyond
        |cbn - [Z.modulo Z.land Z.ltb Z.leb]; try rewrite PM; try rewrite P2; try reflexivity; try specialize (St eq_refl); lia
        |reflexivity
        |reflexivity
        |intros X; try discriminate X; exact (Ar eq_refl K)]
      |]).
    destruct L.
  - intros K. rewrite shape_eq.
    assert (N : num (four t (fst (fst s)) (snd (fst s)) (snd s) ++ map_extras t) 0 = t) by reflexivity.
    destruct (map_unknown k h0 (four t (fst (fst s)) (snd (fst s)) (snd s) ++ map_extras t) S) as [EQ|(EQ & B)].
    + now rewrite N.
    + now left.
    + right. split; [|exact EQ]. unfold map_extras in B. destruct (is_storage t); [reflexivity|]. cbn [orb].
      destruct (Z.eqb_spec t 26) as [EQ2|NE]; [reflexivity|]. exfalso. apply (eq_true_false_abs _ B). 
      clear EQ B. destruct (t =? 11), (t =? 33); autorewrite with sets; small_beyond.
Qed.

Theorem map_settled E k t h : sound_kern k -> 0 <= t <= 33 -> e_page E = k_page k -> (t = 7 -> 0 < k_stack k) ->
  (t = 33 -> k_map k 33 = true -> k_arena k = true) ->
  settled E k (map_supported k t) (fst (is_map_supported E (machine k) t h)).
Proof.
  intros S R P St Ar.
  assert (EQ : map_supported k t = k_map k t).
  { unfold map_supported. destruct (Z.eqb_spec t 33) as [-> |NE]; [|cbn; apply andb_true_r].
    destruct (k_map k 33) eqn:K; [|reflexivity]. now rewrite (Ar eq_refl eq_refl). }
  rewrite EQ. clear EQ. unfold is_map_supported.
  destruct (Z.eq_dec t 0) as [-> |N0]. { left. cbn. now rewrite (s_map_zero k S). }
  destruct (map_shape E t) as [s|] eqn:Sh.
  2:{ exfalso. assert (L : In t [1;2;3;4;5;6;7;8;9;10;11;12;13;14;15;16;17;18;19;20;21;22;23;24;25;26;27;28;29;30;31;32;33]) by (cbn [In]; lia).
      cbn [In] in L. repeat (destruct L as [<-|L]; [discriminate Sh|]). destruct L. }
  destruct (is_of_maps t) eqn:OM.
  - unfold seq at 1. destruct (bpf_map_create E (machine k) (shape_fields 1 (1, 1, 1)) h) as [a h'] eqn:C.
    destruct (map_create_spec _ _ _ _ _ _ C) as (h0 & SF & -> & AN).
    assert (Hash : machine (calm k) h0 0 (shape_fields 1 (1, 1, 1)) = {| a_ret := Ok (k_fd k h0); a_log := [] |}).
    { rewrite shape_eq. rewrite map_known; try reflexivity; [exact S|exact (s_hash k S)| |intros X; discriminate X].
      pose proof (s_map_end k S). small_beyond. }
    destruct AN as [EA|(NC & e & TR & EA)].
    + rewrite Hash in EA. subst a. cbn [a_ret]. set (a := {| a_ret := Ok (k_fd k h0); a_log := [] |}) in *.
      pose proof (s_fd k S h0) as FD. rewrite (u32_fd _ FD).
      set (r := shape_fields t s ++ set ["inner_map_fd"]%string (VNum (k_fd k h0))).
      unfold seq at 1. destruct (bpf_map_create E (machine k) r _) as [a2 h2] eqn:C2.
      destruct (map_create_spec _ _ _ _ _ _ C2) as (h3 & SF3 & -> & AN).
      assert (IO : is_open 0 h3 (k_fd k h0) = true).
      { unfold is_open. assert (N015 : 0 <> 15) by lia. now rewrite (made_open h0 h3 0 _ a (k_fd k h0) eq_refl FD N015 SF3). }
      assert (G : settled E k (k_map k t) (fst (map_result t a2 (Call 0 r a2 :: h3)))).
      { apply (map_result_settled E k t h3 0 r a2 _ S); [| |exact AN].
        - intros K. left. pose proof (s_map_end k S).
          assert (I20 : 24 <= k_ends k 0).
          { apply (s_inner k S). unfold is_of_maps in OM. destruct (Z.eqb_spec t 12) as [-> |]; [now left|].
            destruct (Z.eqb_spec t 13) as [-> |]; [now right|discriminate OM]. }
          assert (EQ : r = four t (fst (fst s)) (snd (fst s)) (snd s) ++ [(20, 4, VNum (k_fd k h0))]) by reflexivity.
          clearbody r. subst r. unfold is_of_maps in OM.
          assert (T : t = 12 \/ t = 13) by lia.
          destruct T as [-> | ->]; cbn [map_shape] in Sh; apply some_inj in Sh; subst s; cbn [fst snd];
            (rewrite map_known; [cbn; now rewrite IO|exact S|exact K|small_beyond|reflexivity|reflexivity|reflexivity|intros X; discriminate X]).
        - intros K. left. destruct (map_unknown k h3 r S) as [EQ|(_ & B)]; [exact K|exact EQ|]. exfalso. apply (eq_true_false_abs _ B).
          assert (EQ : r = four t (fst (fst s)) (snd (fst s)) (snd s) ++ [(20, 4, VNum (k_fd k h0))]) by reflexivity.
          clearbody r. subst r. small_beyond. }
      unfold seq at 1. destruct (map_result t a2 (Call 0 r a2 :: h3)) as [x hx]. exact G.
    + subst a. cbn [fail a_ret ret fst]. right. split; [exact NC|]. exists 0, e. split; [exact TR|]. eexists. split; reflexivity.
  - unfold seq at 1. set (r := shape_fields t s ++ map_extras t) in *.
    destruct (bpf_map_create E (machine k) r h) as [a h'] eqn:C.
    destruct (map_create_spec _ _ _ _ _ _ C) as (h0 & SF & -> & AN).
    assert (R1 : 1 <= t <= 33) by lia.
    destruct (simple_map E k t s h0 S R1 P St Ar Sh OM) as [T F].
    exact (map_result_settled E k t h0 0 r a _ S T F AN).
Qed.
