(** The whole archive. *)
From Coq Require Import String.
From Verif Require Import Base Text TextParse LogModel TextSplit CpioModel CpioSpec CpioProofs.
Local Open Scope Z_scope.

Definition bin_call (x : str * source) : call :=
  file_call (path_join (txt "bin") (fst x)) {| s_meta := match s_data (snd x) with Some d => Some (Z.of_nat (length d)) | None => None end; s_data := s_data (snd x) |} executable_mode.
Lemma binaries_append t : forall l b b', append_binaries b l t = Ok b' <-> append_all b (map bin_call l) t = Ok b'.
Proof.
  induction l as [|(n, s) l IH]; intros b b'; [reflexivity|]. cbn [append_binaries map append_all]. unfold copied, bin_call at 1. cbn [fst snd].
  destruct (s_data s) as [d|] eqn:E; cbn [bind].
  - destruct (append b _ t) as [b1|x]; cbn [bind]; [apply IH|reflexivity].
  - split; [discriminate|]. destruct (append b _ t) as [b1|x] eqn:A; cbn [bind]; [|discriminate]. exfalso.
    apply append_ok in A as (d & (X & _) & _). discriminate X.
Qed.
Lemma append_all_app t : forall l1 l2 b, append_all b (l1 ++ l2) t = bind (append_all b l1 t) (fun b => append_all b l2 t).
Proof. induction l1 as [|c l1 IH]; intros l2 b; [reflexivity|]. cbn [app append_all]. destruct (append b c t); cbn [bind]; [apply IH|reflexivity]. Qed.
Definition all_calls (i : input) : list call := (first_calls i ++ module_calls i) ++ map bin_call (binary_names i).
Lemma initramfs_ok i now out : initramfs i now = Ok out <->
  now < 2 ^ 32 /\ exists b b', append_all new_builder (all_calls i) now = Ok b /\ append b trailer_call 0 = Ok b' /\ out = b_out b'.
Proof.
  unfold initramfs, all_calls. rewrite (append_all_app now (first_calls i ++ module_calls i) (map bin_call (binary_names i))). destruct (Z.ltb_spec now (2 ^ 32)) as [H|H]; cbn [negb].
  2:{ split; [discriminate|]. intros (X & _). lia. }
  destruct (append_all new_builder (first_calls i ++ module_calls i) now) as [b1|x]; cbn [bind].
  2:{ split; [intros X; discriminate X|]. intros (_ & b & b' & X & _). discriminate X. }
  pose proof (binaries_append now (binary_names i) b1) as B. destruct (append_binaries b1 (binary_names i) now) as [b2|x]; cbn [bind].
  2:{ split; [discriminate|]. intros (_ & b & b' & X & _). apply B in X. discriminate X. }
  rewrite (proj1 (B b2) eq_refl). destruct (append b2 trailer_call 0) as [b3|x] eqn:A; cbn [bind].
  - split.
    + intros X. apply ok_inj in X. subst out. split; [exact H|]. exists b2, b3. auto.
    + intros (_ & b & b' & X & Y & ->). apply ok_inj in X. subst b. rewrite A in Y. apply ok_inj in Y. subst b'. reflexivity.
  - split; [discriminate|]. intros (_ & b & b' & X & Y & _). apply ok_inj in X. subst b. rewrite A in Y. discriminate Y.
Qed.

Fixpoint bytes_all (ino : Z) (l : list (call * str)) (t : Z) : str :=
  match l with [] => [] | (c, d) :: l => entry_bytes ino c t d ++ bytes_all (ino + 1) l t end.
Fixpoint items_all (ino : Z) (l : list (call * str)) (t : Z) : list item :=
  match l with [] => [] | (c, d) :: l => item_of ino c t d :: items_all (ino + 1) l t end.
Definition shortened (c : call) : Prop := Z.of_nat (length (c_name c)) + 1 < 2 ^ 32.
Lemma append_all_ok t : forall l b b', b_inode b < 2 ^ 32 ->
  (append_all b l t = Ok b' <->
   exists ds, map fst ds = l /\ Forall (fun '(c, d) => has_data c d) ds /\ Forall shortened l /\ b_inode b + Z.of_nat (length l) < 2 ^ 32 /\
     b' = {| b_inode := b_inode b + Z.of_nat (length l); b_out := b_out b ++ bytes_all (b_inode b) ds t |}).
Proof.
  induction l as [|c l IH]; intros b b' Hb; cbn [append_all length].
  - split.
    + intros X. apply ok_inj in X. subst b'. exists []. repeat split; auto; [lia|]. destruct b as [i o]. cbn. rewrite app_nil_r, Z.add_0_r. reflexivity.
    + intros (ds & E & _ & _ & _ & ->). apply map_eq_nil in E. subst ds. destruct b as [i o]. cbn. rewrite app_nil_r, Z.add_0_r. reflexivity.
  - pose proof (append_ok b c t) as A. destruct (append b c t) as [b1|x]; cbn [bind].
    + destruct (proj1 (A b1) eq_refl) as (d & D & N & I & ->).
      rewrite IH by (cbn [b_inode]; lia). cbn [b_inode b_out]. split.
      * intros (ds & E & F & G & K & ->). exists ((c, d) :: ds). cbn [map fst]. rewrite E. split; [reflexivity|]. split; [constructor; assumption|].
        split; [constructor; [exact N|exact G]|]. split; [lia|]. cbn [bytes_all]. rewrite <- app_assoc. f_equal. lia.
      * intros (ds & E & F & G & K & ->). destruct ds as [|(c', d') ds]; [discriminate E|]. cbn [map fst] in E. injection E as -> E.
        exists ds. split; [exact E|]. split; [exact (Forall_inv_tail F)|]. split; [exact (Forall_inv_tail G)|]. split; [lia|].
        assert (d' = d) as ->.
        { pose proof (Forall_inv F) as F1. cbn beta iota in F1. unfold has_data in D, F1. destruct (c_source c) as [s|]; [|congruence].
          destruct D as (_ & D & _), F1 as (_ & F1 & _). rewrite D in F1. apply some_inj in F1. congruence. }
        cbn [bytes_all]. rewrite <- app_assoc. f_equal. lia.
    + split; [discriminate|]. intros (ds & E & F & G & K & ->). exfalso. destruct ds as [|(c', d') ds]; [discriminate E|]. cbn [map fst] in E. injection E as -> E.
      assert (Err x = Ok {| b_inode := b_inode b + 1; b_out := b_out b ++ entry_bytes (b_inode b) c t d' |}) as X; [|discriminate X].
      apply A. exists d'. split; [exact (Forall_inv F)|]. split; [exact (Forall_inv G)|]. split; [lia|reflexivity].
Qed.

Definition call_fine (c : call) : Prop := call_ok c /\ c_name c <> txt "TRAILER!!!" /\ Z.of_nat (length (c_name c)) + 1 <= 4096.
Lemma data_size c d : has_data c d -> in32 (Z.of_nat (length d)).
Proof. unfold has_data, in32. destruct (c_source c) as [s|]; [intros (_ & _ & H); lia|intros ->; cbn; lia]. Qed.
Lemma entry_mod ino c mtime d : in32 ino -> call_ok c -> in32 mtime -> in32 (Z.of_nat (length d)) -> in32 (Z.of_nat (length (c_name c)) + 1) ->
  Z.of_nat (length (entry_bytes ino c mtime d)) mod 4 = 0.
Proof. intros. rewrite entry_len by assumption. apply round4_mod. Qed.
Lemma str_eqb_other a b : a <> b -> str_eqb a b = false.
Proof. intros H. destruct (str_eqb a b) eqn:E; [|reflexivity]. apply str_eqb_eq in E. contradiction. Qed.
Lemma read_all t : in32 t -> forall ds ino pos fuel, 0 <= ino -> ino + Z.of_nat (length ds) + 1 < 2 ^ 32 -> 0 <= pos -> pos mod 4 = 0 ->
  Forall (fun '(c, d) => call_fine c /\ has_data c d) ds -> (length ds < fuel)%nat ->
  read_newc fuel pos (bytes_all ino ds t ++ entry_bytes (ino + Z.of_nat (length ds)) trailer_call 0 []) = Some (items_all ino ds t).
Proof.
  intros Ht. induction ds as [|(c, d) ds IH]; intros ino pos fuel Hi Hb Hp Hp4 F Hf.
  - destruct fuel as [|fuel]; [cbn in Hf; lia|]. cbn [bytes_all app length items_all]. rewrite <- (app_nil_r (entry_bytes _ _ _ _)).
    rewrite read_entry; [reflexivity|exact Hp|exact Hp4| | | | |]; unfold in32, call_ok; cbn [length] in *; try lia; [split; cbv; split; congruence|cbn; lia].
  - cbn [length] in *. destruct fuel as [|fuel]; [lia|]. pose proof (Forall_inv F) as F1. cbn beta iota in F1. destruct F1 as ((C1 & C2 & C3) & D).
    apply Forall_inv_tail in F. pose proof (data_size c d D) as DS. assert (in32 ino) by (unfold in32; lia). assert (in32 (Z.of_nat (length (c_name c)) + 1)) by (unfold in32; lia).
    cbn [bytes_all items_all]. rewrite <- app_assoc. rewrite read_entry by assumption. rewrite (str_eqb_other _ _ C2).
    replace (ino + Z.of_nat (S (length ds))) with (ino + 1 + Z.of_nat (length ds)) by lia.
    rewrite IH; [| lia | lia | lia | | exact F | lia].
    + destruct (Z.ltb_spec 4096 (Z.of_nat (length (c_name c)) + 1)) as [X|X]; [lia|reflexivity].
    + pose proof (entry_mod ino c t d ltac:(assumption) C1 Ht DS ltac:(assumption)). lia.
Qed.
Lemma bytes_count t : in32 t -> forall ds ino, 0 <= ino -> ino + Z.of_nat (length ds) < 2 ^ 32 -> Forall (fun '(c, d) => call_fine c /\ has_data c d) ds ->
  (length ds <= length (bytes_all ino ds t))%nat.
Proof.
  intros Ht. induction ds as [|(c, d) ds IH]; intros ino Hi Hb F; [cbn; lia|]. cbn [length bytes_all] in *. rewrite app_length.
  specialize (IH (ino + 1) ltac:(lia) ltac:(lia) (Forall_inv_tail F)).
  assert (1 <= length (entry_bytes ino c t d))%nat; [|lia]. unfold entry_bytes. rewrite !app_length. cbn [length]. lia.
Qed.

(** What is read is what was appended. *)
Lemma archive_read now b b' l : 0 <= now < 2 ^ 32 -> Forall call_fine l -> append_all new_builder l now = Ok b -> append b trailer_call 0 = Ok b' ->
  exists ds, map fst ds = l /\ Forall (fun '(c, d) => has_data c d) ds /\ read_archive (b_out b') = Some (items_all 0 ds now).
Proof.
  intros Hn Fl A T. apply append_all_ok in A; [|cbn; lia]. destruct A as (ds & E & F & _ & K & ->). cbn [new_builder b_inode b_out] in *.
  apply append_ok in T as (d & D & _ & I & ->). cbn [b_inode b_out] in *. cbn in D. subst d.
  exists ds. split; [exact E|]. split; [exact F|]. unfold read_archive. cbn [app].
  assert (L : length l = length ds) by (rewrite <- E; apply map_length). rewrite L in *. rewrite !Z.add_0_l in *.
  assert (FF : Forall (fun '(c, d) => call_fine c /\ has_data c d) ds).
  { rewrite <- E in Fl. clear - Fl F. induction ds as [|(c, d) ds IH]; [constructor|]. cbn [map fst] in Fl. constructor.
    - split; [exact (Forall_inv Fl)|exact (Forall_inv F)].
    - apply IH; [exact (Forall_inv_tail Fl)|exact (Forall_inv_tail F)]. }
  pose proof (bytes_count now ltac:(unfold in32; lia) ds 0 ltac:(lia) ltac:(lia) FF) as BC.
  pose proof (read_all now ltac:(unfold in32; lia) ds 0 0 (length (bytes_all 0 ds now ++ entry_bytes (0 + Z.of_nat (length ds)) trailer_call 0 [])) ltac:(lia) ltac:(lia) ltac:(lia) eq_refl FF) as R.
  rewrite Z.add_0_l in R. apply R. rewrite app_length. unfold entry_bytes. rewrite !app_length. cbn [length]. lia.
Qed.
