(** Proofs about the resolution of kernel symbols. *)
From Verif Require Import Base Text TextParse Insn PatchModel BtfTypes BtfModel CoreSpec ExternModel ExternSpec.
From Verif Require CoreProofs2.
Local Open Scope Z_scope.

Lemma mem_in n l : mem n l = true <-> In n l.
Proof.
  unfold mem. rewrite existsb_exists. split.
  - intros (x & H & E). apply str_eqb_eq in E. now subst.
  - intros H. exists n. split; [exact H|apply str_eqb_refl].
Qed.

(** Non-zero addresses the lines give for [n], in order. *)
Definition addr_of (n : list Z) (l : list Z) : list Z :=
  match kent l with
  | Some (s, k) =>
      if str_eqb k n then match hex_u64 s with Some a => if a =? 0 then [] else [a] | None => [] end else []
  | None => []
  end.
Definition addrs (ls : list (list Z)) (n : list Z) : list Z := flat_map (addr_of n) ls.

Lemma addr_of_in n l a : In a (addr_of n l) <-> exists s, kent l = Some (s, n) /\ hex_u64 s = Some a /\ a <> 0.
Proof.
  unfold addr_of. destruct (kent l) as [[s k]|].
  - destruct (str_eqb k n) eqn:E.
    + apply str_eqb_eq in E. subst k. destruct (hex_u64 s) as [b|] eqn:Eh.
      * destruct (Z.eqb_spec b 0).
        -- split; [contradiction|]. intros (s' & X & Y & Z). inversion X; subst. congruence.
        -- cbn [In]. split.
           ++ intros [->|[]]. eauto.
           ++ intros (s' & X & Y & Z). inversion X; subst. left. congruence.
      * split; [contradiction|]. intros (s' & X & Y & Z). inversion X; subst. congruence.
    + apply str_eqb_neq in E. split; [contradiction|]. intros (s' & X & _). inversion X. contradiction.
  - split; [contradiction|]. intros (s' & X & _). discriminate.
Qed.

Lemma addrs_in ls n a : In a (addrs ls n) <-> exists l s, In l ls /\ kent l = Some (s, n) /\ hex_u64 s = Some a /\ a <> 0.
Proof.
  unfold addrs. rewrite in_flat_map. split.
  - intros (l & H & X). apply addr_of_in in X. destruct X as (s & X). exists l, s. tauto.
  - intros (l & s & H & X). exists l. split; [exact H|]. apply addr_of_in. eauto.
Qed.

Lemma addrs_app a b n : addrs (a ++ b) n = addrs a n ++ addrs b n.
Proof. unfold addrs. apply flat_map_app. Qed.

Section Loop.
Variables (req : list (list Z)) (m0 : xmap).
Hypothesis req_open : forall n x, In (n, x) m0 -> mem n req = true -> xd_resolved x = false.

Definition apply_one (ls : list (list Z)) (kx : list Z * xdesc) : list Z * xdesc :=
  if mem (fst kx) req
  then match hd_error (addrs ls (fst kx)) with Some a => (fst kx, set_addr a (snd kx)) | None => kx end
  else kx.
Definition apply (ls : list (list Z)) : xmap := map (apply_one ls) m0.

Definition consistent (ls : list (list Z)) : Prop :=
  forall n x a b, In (n, x) m0 -> mem n req = true -> In a (addrs ls n) -> In b (addrs ls n) -> a = b.
Definition well_formed (ls : list (list Z)) : Prop :=
  forall n l s, In l ls -> kent l = Some (s, n) -> mem n req = true -> hex_u64 s <> None.

Lemma fst_apply_one ls kx : fst (apply_one ls kx) = fst kx.
Proof. unfold apply_one. destruct (mem _ _); [|reflexivity]. now destruct (hd_error _). Qed.

Lemma apply_ext a b : (forall n x, In (n, x) m0 -> mem n req = true -> hd_error (addrs a n) = hd_error (addrs b n)) -> apply a = apply b.
Proof.
  intros H. unfold apply. apply map_ext_in. intros [n x] Hin. unfold apply_one. cbn [fst snd].
  destruct (mem n req) eqn:E; [|reflexivity]. now rewrite (H n x Hin E).
Qed.

Lemma apply_nil : apply [] = m0.
Proof. unfold apply. rewrite <- (map_id m0) at 2. apply map_ext. intros [n x]. unfold apply_one. cbn. now destruct (mem n req). Qed.

Lemma xget_map (f : list Z * xdesc -> list Z * xdesc) m n : (forall kx, fst (f kx) = fst kx) ->
  xget n (map f m) = match find (fun kx => str_eqb (fst kx) n) m with Some kx => Some (snd (f kx)) | None => None end.
Proof.
  intros Hf. induction m as [|[k x] m IH]; [reflexivity|]. cbn [map xget find fst].
  destruct (f (k, x)) as [k' x'] eqn:E. pose proof (Hf (k, x)) as F. rewrite E in F. cbn [fst] in F. subst k'.
  destruct (str_eqb k n); [now rewrite E|exact IH].
Qed.

Lemma hd_error_in (l : list Z) a : hd_error l = Some a -> In a l.
Proof. destruct l; [discriminate|]. intros H. apply some_inj in H. subst. now left. Qed.

Lemma step_spec pre l : consistent pre ->
  match kline_step req l (apply pre) with
  | Ok m' => m' = apply (pre ++ [l]) /\ consistent (pre ++ [l]) /\ well_formed [l]
  | Err KKallsymsParse => ~ well_formed [l]
  | Err (KAmbiguous n a b) => ~ consistent (pre ++ [l]) /\ In a (addrs (pre ++ [l]) n) /\ In b (addrs (pre ++ [l]) n) /\ a <> b /\ In n req
  | Err _ => False
  end.
Proof.
  intros Hc. unfold kline_step.
  assert (forall n, addrs (pre ++ [l]) n = addrs pre n ++ addr_of n l) as Ha.
  { intros n. rewrite addrs_app. f_equal. unfold addrs. cbn [flat_map]. apply app_nil_r. }
  (* lines that do not matter *)
  assert ((forall n x, In (n, x) m0 -> mem n req = true -> addr_of n l = []) ->
          apply pre = apply (pre ++ [l]) /\ consistent (pre ++ [l])) as Skip.
  { intros H. split.
    - apply apply_ext. intros n x Hin Hm. now rewrite Ha, (H n x Hin Hm), app_nil_r.
    - intros n x a b Hin Hm. rewrite Ha, (H n x Hin Hm), app_nil_r. exact (Hc n x a b Hin Hm). }
  unfold addr_of in Skip.
  destruct (kent l) as [[s n]|] eqn:Ek.
  2:{ destruct Skip as [S1 S2]; [reflexivity|]. split; [exact S1|]. split; [exact S2|].
      intros n l' s [<-|[]] X. congruence. }
  destruct (mem n req) eqn:Em; cbn [negb].
  2:{ destruct Skip as [S1 S2].
      { intros k x Hin Hm. destruct (str_eqb n k) eqn:E; [|reflexivity]. apply str_eqb_eq in E. congruence. }
      split; [exact S1|]. split; [exact S2|]. intros n' l' s' [<-|[]] X Y. congruence. }
  destruct (hex_u64 s) as [a|] eqn:Eh.
  2:{ intros W. apply (W n l s); [now left|exact Ek|exact Em|exact Eh]. }
  assert (well_formed [l]) as W.
  { intros n' l' s' [<-|[]] X Y. rewrite Ek in X. inversion X; subst. congruence. }
  destruct (Z.eqb_spec a 0) as [Z0|Z0].
  { destruct Skip as [S1 S2]; [|auto]. intros k x Hin Hm. now destruct (str_eqb n k). }
  assert (addr_of n l = [a]) as Hn.
  { unfold addr_of. rewrite Ek, str_eqb_refl, Eh. destruct (Z.eqb_spec a 0); [contradiction|reflexivity]. }
  assert (forall k, k <> n -> addr_of k l = []) as Hk.
  { intros k Hne. unfold addr_of. rewrite Ek. destruct (str_eqb n k) eqn:E; [|reflexivity]. apply str_eqb_eq in E. congruence. }
  unfold apply at 1. rewrite xget_map by apply fst_apply_one.
  destruct (find (fun kx => str_eqb (fst kx) n) m0) as [[n' x]|] eqn:Ef.
  2:{ destruct Skip as [S1 S2]; [|auto]. intros k x Hin Hm. destruct (str_eqb n k) eqn:E; [|reflexivity].
      apply str_eqb_eq in E. subst k. apply (find_none _ _ Ef) in Hin. cbn [fst] in Hin. now rewrite str_eqb_refl in Hin. }
  apply find_some in Ef. destruct Ef as [Hin E]. cbn [fst] in E. apply str_eqb_eq in E. subst n'.
  assert (snd (apply_one pre (n, x)) = match hd_error (addrs pre n) with Some b => set_addr b x | None => x end) as ->.
  { unfold apply_one. cbn [fst snd]. rewrite Em. now destruct (hd_error (addrs pre n)). }
  destruct (hd_error (addrs pre n)) as [b|] eqn:Eb.
  - (* an address is known *)
    cbn [set_addr xd_resolved xd_addr]. pose proof (hd_error_in _ _ Eb) as Hb.
    destruct (Z.eqb_spec b a) as [->|Hne].
    + split; [|split; [|exact W]].
      * apply apply_ext. intros k y Hk' Hm. rewrite Ha. destruct (addrs pre k) eqn:E; [|reflexivity].
        destruct (list_eq_dec Z.eq_dec k n) as [->|Hkn]; [rewrite E in Hb; contradiction|]. now rewrite Hk by exact Hkn.
      * intros k y c d Hk' Hm. rewrite Ha. destruct (list_eq_dec Z.eq_dec k n) as [->|Hkn].
        -- rewrite Hn, !in_app_iff. cbn [In]. intros [C|[<-|[]]] [D|[<-|[]]]; try reflexivity; eauto using (Hc n y).
        -- rewrite Hk, app_nil_r by exact Hkn. exact (Hc k y c d Hk' Hm).
    + assert (In b (addrs (pre ++ [l]) n)) as B by (rewrite Ha; apply in_or_app; now left).
      assert (In a (addrs (pre ++ [l]) n)) as A by (rewrite Ha, Hn; apply in_or_app; right; now left).
      split; [|split; [exact B|split; [exact A|split; [exact Hne|now apply mem_in]]]].
      intros C. apply Hne. exact (C n x b a Hin Em B A).
  - rewrite (req_open n x Hin Em).
    assert (addrs pre n = []) as Hnil by (destruct (addrs pre n); [reflexivity|discriminate]).
    split; [|split; [|exact W]].
    + unfold xset, apply. rewrite map_map. apply map_ext_in. intros [k y] Hky. rewrite fst_apply_one. cbn [fst].
      unfold apply_one. cbn [fst snd]. rewrite Ha. destruct (str_eqb k n) eqn:E.
      * apply str_eqb_eq in E. subst k. rewrite Em, Hnil, Hn. cbn [app hd_error snd]. reflexivity.
      * apply str_eqb_neq in E. rewrite Hk, app_nil_r by exact E. destruct (mem k req); reflexivity.
    + intros k y c d Hk' Hm. rewrite Ha. destruct (list_eq_dec Z.eq_dec k n) as [->|Hkn].
      * rewrite Hnil, Hn. cbn [app In]. intros [<-|[]] [<-|[]]. reflexivity.
      * rewrite Hk, app_nil_r by exact Hkn. exact (Hc k y c d Hk' Hm).
Qed.

Lemma consistent_app a b : consistent (a ++ b) -> consistent a.
Proof. intros H n x c d Hin Hm C D. apply (H n x c d Hin Hm); rewrite addrs_app; apply in_or_app; now left. Qed.

Lemma loop_spec ls : forall pre, consistent pre ->
  match klines req ls (apply pre) with
  | Ok m' => m' = apply (pre ++ ls) /\ consistent (pre ++ ls) /\ well_formed ls
  | Err KKallsymsParse => ~ well_formed ls
  | Err (KAmbiguous n a b) => ~ consistent (pre ++ ls) /\ In a (addrs (pre ++ ls) n) /\ In b (addrs (pre ++ ls) n) /\ a <> b /\ In n req
  | Err _ => False
  end.
Proof.
  induction ls as [|l ls IH]; intros pre Hc.
  - cbn [klines]. rewrite app_nil_r. split; [reflexivity|]. split; [exact Hc|]. intros n l s [].
  - cbn [klines]. pose proof (step_spec pre l Hc) as S. replace (pre ++ l :: ls) with ((pre ++ [l]) ++ ls) by (now rewrite <- app_assoc).
    destruct (kline_step req l (apply pre)) as [m'|e] eqn:E; cbn [bind].
    + destruct S as (-> & C & W). specialize (IH _ C).
      destruct (klines req ls (apply (pre ++ [l]))) as [m''|e'].
      * destruct IH as (-> & C' & W'). split; [reflexivity|]. split; [exact C'|].
        intros n l' s' [<-|Hl] X Y; [eapply W; [now left|exact X|exact Y]|eapply W'; eassumption].
      * destruct e'; try contradiction; try exact IH. intros WW. apply IH. intros n l' s' Hl. apply WW. now right.
    + destruct e; try contradiction.
      * destruct S as (S & A & B & Hne & Hr). split; [intros C; apply S; eapply consistent_app; exact C|].
        rewrite !(addrs_app (pre ++ [l])). split; [apply in_or_app; now left|]. split; [apply in_or_app; now left|]. auto.
      * intros W. apply S. intros n l' s' [<-|[]]. apply W. now left.
Qed.
End Loop.

(** * The whole typeless pass *)

Lemma strong_missing_none m : strong_missing m = None <-> forall n x, In (n, x) m -> xd_resolved x = true \/ xd_weak x = true.
Proof.
  induction m as [|[n x] m IH]; cbn [strong_missing].
  - split; [intros _ n x []|reflexivity].
  - destruct (xd_resolved x) eqn:R, (xd_weak x) eqn:Wk; cbn [negb andb].
    4:{ split; [discriminate|]. intros H. destruct (H n x (or_introl eq_refl)); congruence. }
    all: rewrite IH; split; intros H k y; [intros [E|Hin]; [inversion E; subst; auto|eauto]|intros Hin; apply (H k y); now right].
Qed.

Lemma strong_missing_some m n : strong_missing m = Some n -> exists x, In (n, x) m /\ xd_resolved x = false /\ xd_weak x = false.
Proof.
  induction m as [|[k x] m IH]; cbn [strong_missing]; [discriminate|].
  destruct (xd_resolved x) eqn:R, (xd_weak x) eqn:Wk; cbn [negb andb]; intros H.
  4:{ apply some_inj in H. subst k. exists x. split; [now left|auto]. }
  all: destruct (IH H) as (y & Hy & P); exists y; split; [now right|exact P].
Qed.

Lemma requested_in m n : In n (requested m) <-> exists x, In (n, x) m /\ wanted x = true.
Proof.
  unfold requested. rewrite in_map_iff. split.
  - intros ([k x] & E & H). apply filter_In in H. cbn [fst snd] in *. subst k. exists x. tauto.
  - intros (x & H & W). exists (n, x). split; [reflexivity|]. apply filter_In. auto.
Qed.

Lemma nodup_assoc (m : xmap) n x y : NoDup (map fst m) -> In (n, x) m -> In (n, y) m -> x = y.
Proof.
  induction m as [|[k z] m IH]; [intros _ []|]. cbn [map fst]. intros ND. inversion ND; subst.
  intros [E|Hx] [F|Hy].
  - congruence.
  - inversion E; subst. exfalso. apply H1. apply (in_map fst) in Hy. exact Hy.
  - inversion F; subst. exfalso. apply H1. apply (in_map fst) in Hx. exact Hx.
  - now apply IH.
Qed.

Lemma req_open_of m : NoDup (map fst m) -> forall n x, In (n, x) m -> mem n (requested m) = true -> xd_resolved x = false.
Proof.
  intros ND n x Hin Hm. apply mem_in, requested_in in Hm. destruct Hm as (y & Hy & W).
  rewrite (nodup_assoc m n x y ND Hin Hy). unfold wanted in W. destruct (xd_resolved y); [discriminate|reflexivity].
Qed.

Lemma mem_requested m n x : NoDup (map fst m) -> In (n, x) m -> mem n (requested m) = wanted x.
Proof.
  intros ND Hin. destruct (wanted x) eqn:W.
  - apply mem_in, requested_in. eauto.
  - destruct (mem n (requested m)) eqn:E; [|reflexivity]. apply mem_in, requested_in in E. destruct E as (y & Hy & W').
    rewrite (nodup_assoc m n x y ND Hin Hy) in W. congruence.
Qed.

(** An extern after the pass. *)
Definition final (text : list Z) (n : list Z) (x : xdesc) : xdesc :=
  null_weak (if wanted x then match hd_error (addrs (lines text) n) with Some a => set_addr a x | None => x end else x).

(** When the pass succeeds. *)
Definition acceptable (text : list Z) (m : xmap) : Prop :=
  forall n x, In (n, x) m -> 
    (wanted x = true -> ~ malformed text n /\ (forall a b, listed text n a -> listed text n b -> a = b) /\
      (xd_weak x = true \/ exists a, listed text n a)).

(** Externs that are neither wanted nor resolved are weak: the strong typed
    ones were refused before. *)
Definition typed_done (m : xmap) : Prop :=
  forall n x, In (n, x) m -> xd_type x <> None -> xd_resolved x = true \/ xd_weak x = true.

Lemma addrs_listed text n a : In a (addrs (lines text) n) <-> listed text n a.
Proof. apply addrs_in. Qed.

Lemma apply_final text m : NoDup (map fst m) ->
  map (fun kx => (fst kx, null_weak (snd kx))) (apply (requested m) m (lines text)) = map (fun kx => (fst kx, final text (fst kx) (snd kx))) m.
Proof.
  intros ND. unfold apply. rewrite map_map. apply map_ext_in. intros [n x] Hin. rewrite fst_apply_one. f_equal.
  unfold final, apply_one. cbn [fst snd]. rewrite (mem_requested m n x ND Hin).
  destruct (wanted x); [|reflexivity]. now destruct (hd_error _).
Qed.

Lemma consistent_iff text m : NoDup (map fst m) ->
  consistent (requested m) m (lines text) <-> (forall n x a b, In (n, x) m -> wanted x = true -> listed text n a -> listed text n b -> a = b).
Proof.
  intros ND. split; intros H n x a b Hin W A B.
  - apply (H n x a b Hin); [now rewrite (mem_requested m n x ND Hin)|now apply addrs_listed|now apply addrs_listed].
  - apply (H n x a b Hin); [now rewrite <- (mem_requested m n x ND Hin)|now apply addrs_listed|now apply addrs_listed].
Qed.

Lemma well_formed_iff text m : well_formed (requested m) (lines text) <-> (forall n x, In (n, x) m -> wanted x = true -> ~ malformed text n).
Proof.
  split.
  - intros H n x Hin W (l & s & Hl & Hk & Hh). apply (H n l s Hl Hk); [|exact Hh]. apply mem_in, requested_in. eauto.
  - intros H n l s Hl Hk Hm Hh. apply mem_in, requested_in in Hm. destruct Hm as (x & Hin & W).
    apply (H n x Hin W). exists l, s. auto.
Qed.

Lemma requested_nil m : requested m = [] -> forall n x, In (n, x) m -> wanted x = false.
Proof.
  intros E n x Hin. destruct (wanted x) eqn:W; [|reflexivity]. assert (In n (requested m)) as X by (apply requested_in; eauto).
  rewrite E in X. contradiction.
Qed.

(** The complete characterisation. *)
Theorem typeless_spec text m : NoDup (map fst m) -> typed_done m ->
  match resolve_typeless text m with
  | Ok m' => acceptable text m /\ m' = map (fun kx => (fst kx, final text (fst kx) (snd kx))) m
  | Err (KVariableNotFound n) => exists x, In (n, x) m /\ wanted x = true /\ xd_weak x = false /\ ~ exists a, listed text n a
  | Err (KAmbiguous n a b) => exists x, In (n, x) m /\ wanted x = true /\ listed text n a /\ listed text n b /\ a <> b
  | Err KKallsymsParse => exists n x, In (n, x) m /\ wanted x = true /\ malformed text n
  | Err _ => False
  end.
Proof.
  intros ND TD. unfold resolve_typeless.
  destruct (requested m) as [|r0 rs] eqn:Er; cbn [bind].
  { pose proof (requested_nil m Er) as NW. split.
    - intros n x Hin W. rewrite (NW n x Hin) in W. discriminate.
    - apply map_ext_in. intros [n x] Hin. cbn [fst snd]. unfold final. now rewrite (NW n x Hin). }
  unfold resolve_kallsyms. rewrite <- Er. pose proof (req_open_of m ND) as RO.
  pose proof (loop_spec (requested m) m RO (lines text) [] ltac:(intros n x a b _ _ [])) as L.
  rewrite apply_nil in L. cbn [app] in L.
  destruct (klines (requested m) (lines text) m) as [m1|e]; cbn [bind].
  2:{ destruct e; try contradiction.
      - destruct L as (_ & A & B & Hne & Hr). apply requested_in in Hr. destruct Hr as (x & Hin & W).
        exists x. split; [exact Hin|]. split; [exact W|]. split; [now apply addrs_listed|]. split; [now apply addrs_listed|exact Hne].
      - (* a bad line exists: find it *)
        assert (exists l, In l (lines text) /\ match kent l with Some (s, n) => mem n (requested m) && match hex_u64 s with None => true | _ => false end | None => false end = true) as (l & Hl & Hb).
        { destruct (existsb (fun l => match kent l with Some (s, n) => mem n (requested m) && match hex_u64 s with None => true | _ => false end | None => false end) (lines text)) eqn:E.
          - apply existsb_exists in E. exact E.
          - exfalso. apply L. intros n l s Hl Hk Hm Hh.
            assert (existsb (fun l => match kent l with Some (s, n) => mem n (requested m) && match hex_u64 s with None => true | _ => false end | None => false end) (lines text) = true) as X.
            { apply existsb_exists. exists l. split; [exact Hl|]. now rewrite Hk, Hm, Hh. }
            congruence. }
        destruct (kent l) as [[s n]|] eqn:Ek; [|discriminate]. apply andb_prop in Hb. destruct Hb as [Hm Hh].
        apply mem_in, requested_in in Hm. destruct Hm as (x & Hin & W). exists n, x. split; [exact Hin|]. split; [exact W|].
        exists l, s. split; [exact Hl|]. split; [exact Ek|]. now destruct (hex_u64 s). }
  destruct L as (-> & C & W).
  destruct (strong_missing (apply (requested m) m (lines text))) as [n|] eqn:Es; cbn [bind].
  - apply strong_missing_some in Es. destruct Es as (x' & Hin' & R & Wk). unfold apply in Hin'.
    apply in_map_iff in Hin'. destruct Hin' as ([k x] & E & Hin). unfold apply_one in E. cbn [fst snd] in E.
    rewrite (mem_requested m k x ND Hin) in E.
    assert (wanted x = false -> False) as NW.
    { intros F. rewrite F in E. inversion E; subst k x'. unfold wanted in F. rewrite R in F. cbn [negb andb] in F.
      destruct (TD n x Hin) as [X|X]; [destruct (xd_type x); discriminate|congruence|congruence]. }
    destruct (wanted x) eqn:Wx; [|exfalso; apply NW; reflexivity].
    destruct (hd_error (addrs (lines text) k)) as [a|] eqn:Eh; [inversion E; subst; discriminate|]. inversion E; subst k x'.
    exists x. split; [exact Hin|]. split; [exact Wx|]. split; [exact Wk|]. intros (a & A). apply addrs_listed in A.
    destruct (addrs (lines text) n); [contradiction|discriminate].
  - split.
    + intros n x Hin Wx. split; [exact (proj1 (well_formed_iff text m) W n x Hin Wx)|].
      split; [intros a b; exact (proj1 (consistent_iff text m ND) C n x a b Hin Wx)|].
      pose proof (proj1 (strong_missing_none _) Es n (snd (apply_one (requested m) (lines text) (n, x)))) as S.
      assert (In (n, snd (apply_one (requested m) (lines text) (n, x))) (apply (requested m) m (lines text))) as I.
      { unfold apply. apply in_map_iff. exists (n, x). split; [|exact Hin].
        pose proof (fst_apply_one (requested m) (lines text) (n, x)) as F. destruct (apply_one _ _ _). cbn [fst] in F. now subst. }
      specialize (S I). unfold apply_one in S. cbn [fst snd] in S. rewrite (mem_requested m n x ND Hin), Wx in S.
      destruct (hd_error (addrs (lines text) n)) as [a|] eqn:Eh.
      * right. exists a. apply addrs_listed. now apply hd_error_in.
      * cbn [snd] in S. destruct S as [S|S]; [|now left]. unfold wanted in Wx. rewrite S in Wx. discriminate.
    + apply apply_final. exact ND.
Qed.

(** Success is decided by the listing alone. *)
Theorem typeless_ok_iff text m : NoDup (map fst m) -> typed_done m ->
  (exists m', resolve_typeless text m = Ok m') <-> acceptable text m.
Proof.
  intros ND TD. pose proof (typeless_spec text m ND TD) as S. split.
  - intros (m' & E). rewrite E in S. exact (proj1 S).
  - intros A. destruct (resolve_typeless text m) as [m'|e]; [eauto|exfalso].
    destruct e; try contradiction.
    + destruct S as (x & Hin & W & Wk & N). destruct (A n x Hin W) as (_ & _ & [X|X]); [congruence|contradiction].
    + destruct S as (x & Hin & W & La & Lb & Hne). destruct (A n x Hin W) as (_ & U & _). apply Hne. now apply U.
    + destruct S as (n & x & Hin & W & M). destruct (A n x Hin W) as (NM & _). contradiction.
Qed.

(** What each extern holds afterwards. *)
Theorem typeless_assigns text m m' n x : NoDup (map fst m) -> typed_done m -> resolve_typeless text m = Ok m' ->
  In (n, x) m -> wanted x = true ->
  exists x', In (n, x') m' /\
   ((exists a, (forall b, listed text n b <-> b = a) /\ xd_resolved x' = true /\ xd_addr x' = Some a) \/
    ((forall b, ~ listed text n b) /\ xd_weak x = true /\ xd_resolved x' = false /\ xd_addr x' = Some 0)).
Proof.
  intros ND TD E Hin W. pose proof (typeless_spec text m ND TD) as S. rewrite E in S. destruct S as [A ->].
  exists (final text n x). split; [apply in_map_iff; exists (n, x); auto|].
  destruct (A n x Hin W) as (_ & U & X). unfold final. rewrite W.
  destruct (hd_error (addrs (lines text) n)) as [a|] eqn:Eh.
  - left. exists a. apply hd_error_in, addrs_listed in Eh. split; [|split; reflexivity].
    intros b. split; [intros B; now apply U|intros ->; exact Eh].
  - right. assert (forall b, ~ listed text n b) as N.
    { intros b B. apply addrs_listed in B. destruct (addrs (lines text) n); [contradiction|discriminate]. }
    split; [exact N|]. destruct X as [X|(a & X)]; [|exfalso; exact (N a X)]. split; [exact X|].
    unfold null_weak. unfold wanted in W. destruct (xd_resolved x) eqn:R; [discriminate|]. rewrite X. cbn. auto.
Qed.

(** Everything else about the externs stays. *)
Theorem typeless_keeps text m m' : NoDup (map fst m) -> typed_done m -> resolve_typeless text m = Ok m' ->
  map fst m' = map fst m /\
  forall n x, In (n, x) m -> xd_resolved x = true -> In (n, x) m'.
Proof.
  intros ND TD E. pose proof (typeless_spec text m ND TD) as S. rewrite E in S. destruct S as [_ ->]. split.
  - rewrite map_map. reflexivity.
  - intros n x Hin R. apply in_map_iff. exists (n, x). split; [|exact Hin]. cbn [fst snd]. f_equal.
    unfold final, wanted, null_weak. rewrite R. cbn [negb andb]. now rewrite R.
Qed.

Lemma listed_perm t t' n a : Permutation (lines t) (lines t') -> listed t n a -> listed t' n a.
Proof. intros P (l & s & Hl & X). exists l, s. split; [eapply Permutation_in; eassumption|exact X]. Qed.
Lemma malformed_perm t t' n : Permutation (lines t) (lines t') -> malformed t n -> malformed t' n.
Proof. intros P (l & s & Hl & X). exists l, s. split; [eapply Permutation_in; eassumption|exact X]. Qed.

(** The order of the lines does not matter. *)
Theorem typeless_order t t' m m' : Permutation (lines t) (lines t') -> NoDup (map fst m) -> typed_done m ->
  resolve_typeless t m = Ok m' -> resolve_typeless t' m = Ok m'.
Proof.
  intros P ND TD E. pose proof (typeless_spec t m ND TD) as S. rewrite E in S. destruct S as [A ->].
  assert (acceptable t' m) as A'.
  { intros n x Hin W. destruct (A n x Hin W) as (NM & U & X). split; [intros M; apply NM; eapply malformed_perm; [symmetry; exact P|exact M]|].
    split; [intros a b La Lb; apply U; eapply listed_perm; try eassumption; now symmetry|].
    destruct X as [X|(a & X)]; [now left|right; exists a; eapply listed_perm; eassumption]. }
  apply typeless_ok_iff in A'; [|exact ND|exact TD]. destruct A' as (m2 & E2).
  pose proof (typeless_spec t' m ND TD) as S2. rewrite E2 in S2. destruct S2 as [_ ->]. rewrite E2. f_equal.
  apply map_ext_in. intros [n x] Hin. cbn [fst snd]. f_equal. unfold final. destruct (wanted x) eqn:W; [|reflexivity].
  assert (hd_error (addrs (lines t') n) = hd_error (addrs (lines t) n)) as ->; [|reflexivity].
  destruct (A n x Hin W) as (_ & U & _).
  destruct (hd_error (addrs (lines t) n)) as [a|] eqn:Ea, (hd_error (addrs (lines t') n)) as [b|] eqn:Eb; try reflexivity.
  - apply hd_error_in, addrs_listed in Ea. apply hd_error_in, addrs_listed in Eb. f_equal. apply U; [|exact Ea].
    eapply listed_perm; [symmetry; exact P|exact Eb].
  - apply hd_error_in, addrs_listed in Ea. apply (listed_perm t t' n a P) in Ea. apply addrs_listed in Ea.
    destruct (addrs (lines t') n); [contradiction|discriminate].
  - apply hd_error_in, addrs_listed in Eb. apply (listed_perm t' t n b (Permutation_sym P)) in Eb. apply addrs_listed in Eb.
    destruct (addrs (lines t) n); [contradiction|discriminate].
Qed.

(** Failure is failure in every order. *)
Theorem typeless_order_err t t' m : Permutation (lines t) (lines t') -> NoDup (map fst m) -> typed_done m ->
  is_ok (resolve_typeless t m) = is_ok (resolve_typeless t' m).
Proof.
  intros P ND TD. destruct (resolve_typeless t m) as [m'|] eqn:E.
  - now rewrite (typeless_order t t' m m' P ND TD E).
  - destruct (resolve_typeless t' m) as [m'|] eqn:E'; [|reflexivity].
    rewrite (typeless_order t' t m m' (Permutation_sym P) ND TD E') in E. discriminate.
Qed.

(** The kernel's own format is read back. *)
Theorem kent_line a k n modul : 0 <= a < 2 ^ 64 -> is_ws k = false -> word_ok n ->
  exists s, kent (kallsyms_line a k n modul) = Some (s, n) /\ hex_u64 s = Some a.
Proof.
  intros Ha Hk Hn. exists (hex_fixed 16 a). split.
  - unfold kent, kallsyms_line.
    rewrite ws_words_cons.
    2:{ split; [apply hex_fixed_nil|]. eapply Forall_impl; [|apply hex_fixed_chars]. intros c Hc. cbn beta in Hc. unfold is_ws. lia. }
    change (k :: 32 :: n ++ match modul with Some m => 9 :: 91 :: m ++ [93] | None => [] end)
      with ([k] ++ 32 :: (n ++ match modul with Some m => 9 :: 91 :: m ++ [93] | None => [] end)).
    rewrite ws_words_cons by (split; [discriminate|now constructor]).
    destruct modul as [m|].
    + unfold ws_words. destruct Hn as [Hne Hn]. rewrite ws_words_go_word by exact Hn. cbn [ws_words_go].
      change (is_ws 9) with true. cbn iota. rewrite app_nil_r. destruct (rev n) eqn:E; [|now rewrite <- E, rev_involutive].
      apply (f_equal (@rev Z)) in E. rewrite rev_involutive in E. contradiction.
    + rewrite app_nil_r, ws_words_last by exact Hn. reflexivity.
  - unfold hex_u64. apply parse_hex; [|lia]. change (16 ^ Z.of_nat 16) with (2 ^ 64). lia.
Qed.

(** * Addresses that are too big *)

Lemma digits_mono radix max max' s : max <= max' -> forall acc v, digits_val radix max acc s = Some v -> digits_val radix max' acc s = Some v.
Proof.
  intros M. induction s as [|c s IH]; intros acc v H; cbn [digits_val] in *; [exact H|].
  destruct (digit_val radix c) as [d|]; [|discriminate]. destruct (Z.ltb_spec (acc * radix + d) max); [|discriminate].
  replace (acc * radix + d <? max') with true by lia. now apply IH.
Qed.

Lemma parse_mono radix max max' s v : max <= max' -> parse_uint radix max s = Some v -> parse_uint radix max' s = Some v.
Proof.
  intros M. unfold parse_uint. destruct s as [|c r]; [discriminate|]. destruct (if c =? 43 then r else c :: r); [discriminate|]. now apply digits_mono.
Qed.

Lemma hex_too_big d a : 2 ^ 64 <= a < 16 ^ Z.of_nat (S d) -> hex_u64 (hex_fixed (S d) a) = None.
Proof.
  intros H. destruct (hex_u64 (hex_fixed (S d) a)) as [v|] eqn:E; [|reflexivity]. exfalso. unfold hex_u64 in E.
  pose proof (parse_uint_bound 16 (2 ^ 64) _ v ltac:(lia) ltac:(lia) E) as B.
  apply (parse_mono 16 (2 ^ 64) (16 ^ Z.of_nat (S d))) in E; [|lia]. rewrite parse_hex in E by lia. apply some_inj in E. lia.
Qed.

Lemma hex_word d a : word_ok (hex_fixed (S d) a).
Proof.
  split; [apply hex_fixed_nil|]. eapply Forall_impl; [|apply hex_fixed_chars]. intros c H. cbn beta in H. unfold is_ws. lia.
Qed.

Lemma overflow_malformed ls n k a d : 2 ^ 64 <= a < 16 ^ Z.of_nat (S d) -> is_ws k = false -> word_ok n ->
  Forall (fun l => ~ In 10 l) ls -> k <> 10 -> In (hex_fixed (S d) a ++ 32 :: k :: 32 :: n) ls -> malformed (unlines ls) n.
Proof.
  intros B K N F _ I. exists (hex_fixed (S d) a ++ 32 :: k :: 32 :: n), (hex_fixed (S d) a). split; [now rewrite lines_unlines|].
  split; [|now apply hex_too_big]. unfold kent. rewrite ws_words_cons by apply hex_word.
  change (k :: 32 :: n) with ([k] ++ 32 :: n). rewrite ws_words_cons by (split; [discriminate|now constructor]).
  rewrite ws_words_last by exact N. reflexivity.
Qed.

(** * Flavours *)

Lemma split_essential n : essential n (match split_once n with Some e => e | None => n end).
Proof.
  destruct (split_once n) as [e|] eqn:E.
  - pose proof (CoreProofs2.split_once_flavorless n) as F. rewrite E in F. cbn iota in F. apply some_inj in F. rewrite F. apply CoreProofs2.flavorless_essential.
  - right. split; [now apply CoreProofs2.split_once_none|reflexivity].
Qed.

Lemma collected_essential b weak_of id n x : process_entry b weak_of id = Ok (n, x) -> essential n (lookup_name n x).
Proof.
  intros H. unfold process_entry in H. destruct (type_by_id (b_types b) id) as [t|]; [|discriminate]. cbn [bind] in H.
  destruct (match t with TFunc h => _ | TVar h _ => _ | _ => _ end) as [[[n0 fn] ty]|]; [|discriminate]. cbn [bind] in H.
  destruct (weak_of n0) as [w|]; [|discriminate]. destruct (resolve_type (b_types b) ty) as [rid|]; [|discriminate]. cbn [bind] in H.
  apply ok_inj, pair_equal_spec in H as [<- <-]. unfold lookup_name, new_desc. cbn [xd_essential]. apply split_essential.
Qed.
