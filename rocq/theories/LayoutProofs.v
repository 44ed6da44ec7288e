(** Proofs about layouts. *)
From Coq Require Import String.
From Verif Require Import Base LayoutModel LayoutDecls LayoutSpec.
Import ListNotations.
Local Open Scope Z_scope.

Definition wf_fields (fs : list (string * ty)) : Prop := Forall (fun '(_, t) => wf t) fs.

Lemma ty_ind2 (P : ty -> Prop) :
  (forall n, P (Int n)) -> (forall n t, P t -> P (Arr n t)) ->
  (forall fs, Forall (fun '(_, t) => P t) fs -> P (Struct fs)) -> (forall fs, Forall (fun '(_, t) => P t) fs -> P (Union fs)) -> forall t, P t.
Proof.
  intros HI HA HS HU. fix IH 1. intros [n|n t|fs|fs]; [apply HI|apply HA, IH| |].
  - apply HS. induction fs as [|[n t] fs IHf]; constructor; [apply IH|exact IHf].
  - apply HU. induction fs as [|[n t] fs IHf]; constructor; [apply IH|exact IHf].
Qed.
Lemma wf_struct fs : wf (Struct fs) <-> wf_fields fs.
Proof.
  cbn [wf]. unfold wf_fields. induction fs as [|[n t] fs IH]; [split; constructor|]. rewrite Forall_cons_iff, <- IH. reflexivity.
Qed.
Lemma wf_union fs : wf (Union fs) <-> wf_fields fs.
Proof. exact (wf_struct fs). Qed.

Lemma up_spec a n : 0 < a -> n <= up a n < n + a /\ up a n mod a = 0.
Proof.
  intros A. unfold up. pose proof (Z.div_mod (n + a - 1) a ltac:(lia)) as E. pose proof (Z.mod_pos_bound (n + a - 1) a A) as B. split; [|apply Z_mod_mult]. nia.
Qed.

Definition max_align (fs : list (string * ty)) : Z := fold_right (fun '(_, t) m => Z.max (align t) m) 1 fs.
Lemma align_fields fs : align (Struct fs) = max_align fs /\ align (Union fs) = max_align fs.
Proof. cbn [align]. unfold max_align. split; induction fs as [|[n t] fs IH]; cbn; [reflexivity|now rewrite IH|reflexivity|now rewrite IH]. Qed.
Lemma max_align_pos fs : 1 <= max_align fs.
Proof. unfold max_align. induction fs as [|[n t] fs IH]; cbn; lia. Qed.
Lemma align_pos t : wf t -> 0 < align t.
Proof.
  induction t as [n|n t IH|fs _|fs _] using ty_ind2; intros W.
  - exact W.
  - exact (IH (proj2 W)).
  - rewrite (proj1 (align_fields fs)). pose proof (max_align_pos fs). lia.
  - rewrite (proj2 (align_fields fs)). pose proof (max_align_pos fs). lia.
Qed.
Lemma max_align_ge fs n t : In (n, t) fs -> align t <= max_align fs.
Proof. unfold max_align. induction fs as [|[m u] fs IH]; cbn; [tauto|]. intros [E|I]; [injection E as -> ->; lia|]. specialize (IH I). lia. Qed.

(** The end of the last field. *)
Fixpoint last_end (fs : list (string * ty)) (off : Z) : Z :=
  match fs with [] => off | (_, t) :: fs => last_end fs (up (align t) off + size t) end.
Lemma struct_size fs : size (Struct fs) = up (max_align fs) (last_end fs 0).
Proof.
  rewrite <- (proj1 (align_fields fs)). reflexivity.
Qed.
Definition max_size (fs : list (string * ty)) : Z := fold_right (fun '(_, t) m => Z.max (size t) m) 0 fs.
Lemma union_size fs : size (Union fs) = up (max_align fs) (max_size fs).
Proof. rewrite <- (proj2 (align_fields fs)). cbn [size]. f_equal. unfold max_size. induction fs as [|[n t] fs IH]; cbn [fold_right]; [reflexivity|now rewrite IH]. Qed.
Lemma max_size_ge fs n t : In (n, t) fs -> size t <= max_size fs.
Proof. unfold max_size. induction fs as [|[m u] fs IH]; cbn; [tauto|]. intros [E|I]; [injection E as -> ->; lia|]. specialize (IH I). lia. Qed.
Lemma max_size_nonneg fs : 0 <= max_size fs.
Proof. unfold max_size. induction fs as [|[m u] fs IH]; cbn; lia. Qed.

Lemma last_end_ge fs : wf_fields fs -> Forall (fun '(_, t) => wf t -> 0 <= size t) fs -> forall off, off <= last_end fs off.
Proof.
  induction fs as [|[n t] fs IH]; intros W S off; cbn [last_end]; [lia|]. inversion_clear W as [|? ? Wt Wf]. inversion_clear S as [|? ? St Sf].
  specialize (IH Wf Sf (up (align t) off + size t)). destruct (up_spec (align t) off (align_pos t Wt)). specialize (St Wt). lia.
Qed.
Lemma size_nonneg t : wf t -> 0 <= size t.
Proof.
  induction t as [n|n t IH|fs IH|fs IH] using ty_ind2; intros W.
  - cbn in *. lia.
  - cbn [size]. destruct W as [N W]. specialize (IH W). nia.
  - rewrite struct_size. apply wf_struct in W. pose proof (last_end_ge fs W IH 0) as L. destruct (up_spec (max_align fs) (last_end fs 0)); [pose proof (max_align_pos fs)|]; lia.
  - rewrite union_size. destruct (up_spec (max_align fs) (max_size fs)); [pose proof (max_align_pos fs); lia|]. pose proof (max_size_nonneg fs). lia.
Qed.
Lemma last_end_mono fs off : wf_fields fs -> off <= last_end fs off.
Proof. intros W. apply last_end_ge; [exact W|]. apply Forall_forall. intros [n t] _. apply size_nonneg. Qed.

Lemma offsets_bound fs : wf_fields fs -> forall off n o t, In (n, o, t) (offsets fs off) ->
  off <= o /\ o mod align t = 0 /\ o + size t <= last_end fs off /\ In (n, t) fs.
Proof.
  induction fs as [|[m u] fs IH]; intros W off n o t I; cbn [offsets last_end] in *; [destruct I|]. inversion_clear W as [|? ? Wu Wf].
  destruct (up_spec (align u) off (align_pos u Wu)) as [U1 U2]. pose proof (size_nonneg u Wu) as S. destruct I as [E|I].
  - injection E as <- <- <-. pose proof (last_end_mono fs (up (align u) off + size u) Wf). repeat split; [lia|exact U2|lia|now left].
  - destruct (IH Wf _ _ _ _ I) as (A & B & C & D). repeat split; [lia|exact B|exact C|now right].
Qed.
Lemma offsets_apart fs : wf_fields fs -> forall off, ForallOrdPairs (fun a b => snd (fst a) + size (snd a) <= snd (fst b)) (offsets fs off).
Proof.
  induction fs as [|[m u] fs IH]; intros W off; cbn [offsets]; [constructor|]. inversion_clear W as [|? ? Wu Wf]. constructor; [|apply IH, Wf].
  apply Forall_forall. intros [[n o] t] I. cbn. exact (proj1 (offsets_bound fs Wf _ _ _ _ I)).
Qed.

Theorem struct_layout fs : wf (Struct fs) ->
  (forall n o t, In (n, o, t) (members (Struct fs)) -> 0 <= o /\ o mod align t = 0 /\ o + size t <= size (Struct fs)) /\
  ForallOrdPairs (fun a b => snd (fst a) + size (snd a) <= snd (fst b)) (members (Struct fs)).
Proof.
  intros W. apply wf_struct in W. split; [|exact (offsets_apart fs W 0)]. intros n o t I. destruct (offsets_bound fs W _ _ _ _ I) as (A & B & C & _). repeat split; [exact A|exact B|].
  rewrite struct_size. destruct (up_spec (max_align fs) (last_end fs 0)); [pose proof (max_align_pos fs)|]; lia.
Qed.
Theorem union_layout fs : wf (Union fs) -> forall n o t, In (n, o, t) (members (Union fs)) -> o = 0 /\ size t <= size (Union fs).
Proof.
  intros W n o t I. cbn [members] in I. apply in_map_iff in I as ([m u] & E & I). injection E as -> <- ->. split; [reflexivity|]. rewrite union_size.
  pose proof (max_size_ge fs n t I). destruct (up_spec (max_align fs) (max_size fs)); [pose proof (max_align_pos fs); lia|]. lia.
Qed.

Definition within (t : ty) : Prop := wf t -> forall p o s, In (p, o, s) (flat t) -> 0 <= o /\ o + s <= size t.
Lemma shift_in path off l p o s : In (p, o, s) (shift path off l) -> exists q o', In (q, o', s) l /\ o = off + o'.
Proof. unfold shift. intros I. apply in_map_iff in I as ([[q o'] s'] & E & I). injection E as <- <- <-. now exists q, o'. Qed.
Fixpoint flat_fields (fs : list (string * ty)) (off : Z) : list (list string * Z * Z) :=
  match fs with
  | [] => []
  | (n, t) :: fs =>
      let o := up (align t) off in
      (if anonymous n then shift [] o (flat t) else ([n], o, size t) :: shift [n] o (flat t)) ++ flat_fields fs (o + size t)
  end%list.
Lemma flat_fields_within fs : wf_fields fs -> Forall (fun '(_, t) => within t) fs -> forall off p o s, In (p, o, s) (flat_fields fs off) -> off <= o /\ o + s <= last_end fs off.
Proof.
  induction fs as [|[n t] fs IH]; intros W F off p o s I; [destruct I|]. inversion_clear W as [|? ? Wt Wf]. inversion_clear F as [|? ? It If_].
  destruct (up_spec (align t) off (align_pos t Wt)) as [U1 _]. pose proof (size_nonneg t Wt) as S. cbn [flat_fields last_end] in *. apply in_app_iff in I as [I|I].
  - pose proof (last_end_mono fs (up (align t) off + size t) Wf) as L. destruct (anonymous n).
    + apply shift_in in I as (q & o' & I & ->). destruct (It Wt _ _ _ I). lia.
    + destruct I as [E|I]; [injection E as <- <- <-; lia|]. apply shift_in in I as (q & o' & I & ->). destruct (It Wt _ _ _ I). lia.
  - destruct (IH Wf If_ _ _ _ _ I). lia.
Qed.
Lemma flat_within t : within t.
Proof.
  induction t as [n|n t _|fs IH|fs IH] using ty_ind2; intros W p o s I; [destruct I|destruct I| |].
  - rewrite struct_size. apply wf_struct in W.
    assert (forall off, (fix go fs off :=
         match fs with
         | [] => []
         | (n, t) :: fs =>
             let o := up (align t) off in
             (if anonymous n then shift [] o (flat t) else ([n], o, size t) :: shift [n] o (flat t)) ++ go fs (o + size t)
         end) fs off = flat_fields fs off)%list as F.
    { clear. induction fs as [|[n t] fs IH]; intros off; [reflexivity|]. cbn [flat_fields]. now rewrite IH. }
    cbn [flat] in I. rewrite F in I. apply (flat_fields_within fs W IH) in I as [A B].
    destruct (up_spec (max_align fs) (last_end fs 0)); [pose proof (max_align_pos fs)|]; lia.
  - rewrite union_size. apply wf_union in W.
    assert (0 <= o /\ o + s <= max_size fs) as [A B]; [|destruct (up_spec (max_align fs) (max_size fs)); [pose proof (max_align_pos fs)|]; lia].
    cbn [flat] in I. induction fs as [|[n t] fs IHf]; [destruct I|]. inversion_clear W as [|? ? Wt Wf]. inversion_clear IH as [|? ? It If_].
    pose proof (size_nonneg t Wt) as S. pose proof (max_size_nonneg fs) as M. change (max_size ((n, t) :: fs)) with (Z.max (size t) (max_size fs)). apply in_app_iff in I as [I|I].
    + destruct (anonymous n).
      * destruct (It Wt _ _ _ I). lia.
      * destruct I as [E|I]; [injection E as <- <- <-; lia|]. apply shift_in in I as (q & o' & I & ->). destruct (It Wt _ _ _ I). lia.
    + destruct (IHf If_ Wf I). lia.
Qed.
Lemma field_within t path o s : wf t -> field path t = Some (o, s) -> 0 <= o /\ o + s <= size t.
Proof.
  intros W F. unfold field in F. destruct (find _ (flat t)) as [[[p o'] s']|] eqn:E; [|discriminate F]. apply find_some in E as [E _]. cbn in F. injection F as <- <-. exact (flat_within t W _ _ _ E).
Qed.

(** * The declarations *)

Definition row_ok (t : ty) (r : list string * Z * Z) : bool :=
  let '(p, o, s) := r in match field p t with Some (o', s') => (o =? o') && (s =? s') | None => false end.
Lemma agree t k : forallb (row_ok t) k = true -> agrees (fun p => field p t) k.
Proof.
  intros H p o s I. apply forallb_forall with (1 := H) in I. unfold row_ok in I. destruct (field p t) as [[o' s']|]; [|discriminate I].
  apply andb_true_iff in I as [A B]. apply Z.eqb_eq in A as ->, B as ->. reflexivity.
Qed.
Fixpoint wfb (t : ty) : bool :=
  match t with
  | Int n => 0 <? n
  | Arr n t => (0 <=? n) && wfb t
  | Struct fs | Union fs => (fix go fs := match fs with [] => true | (_, t) :: fs => wfb t && go fs end) fs
  end.
Lemma wfb_wf t : wfb t = true -> wf t.
Proof.
  induction t as [n|n t IH|fs IH|fs IH] using ty_ind2; cbn [wfb wf]; intros H.
  - lia.
  - apply andb_true_iff in H as [A B]. split; [lia|auto].
  - induction fs as [|[n t] fs IHf]; [exact I|]. inversion_clear IH as [|? ? It If_]. apply andb_true_iff in H as [A B]. split; [exact (It A)|apply IHf; assumption].
  - induction fs as [|[n t] fs IHf]; [exact I|]. inversion_clear IH as [|? ? It If_]. apply andb_true_iff in H as [A B]. split; [exact (It A)|apply IHf; assumption].
Qed.
