From Coq Require Import String.
From Verif Require Import Base LayoutModel ArgModel ArgSpec.
Import ListNotations.
Local Open Scope Z_scope.

Lemma word_length big w v : length (word big w v) = w.
Proof. unfold word. destruct big; [rewrite rev_length|]; apply le_enc_length. Qed.
Lemma words_length big w vs : length (words_of big w vs) = (w * length vs)%nat.
Proof.
  unfold words_of. induction vs as [|v vs IH]; cbn [flat_map length]; [lia|].
  rewrite app_length, word_length, IH. lia.
Qed.
Lemma word_dec (big : bool) w v : 0 <= v < 256 ^ Z.of_nat w -> le_dec (if big then rev (word big w v) else word big w v) = v.
Proof. intros H. unfold word. destruct big; [rewrite rev_involutive|]; apply le_dec_enc_small, H. Qed.

(** The [k]th word after [pad]. *)
Lemma load_word big pad vs tail k v :
  nth_error vs k = Some v -> 0 <= v < 2 ^ 64 ->
  load64 big (pad ++ words_of big 8 vs ++ tail) (Z.of_nat (length pad) + 8 * Z.of_nat k) = Ok v.
Proof.
  intros N V. unfold load64.
  assert (K : (k < length vs)%nat) by (apply nth_error_Some; rewrite N; discriminate).
  rewrite !app_length, words_length.
  replace ((0 <=? _) && _)%bool with true by lia. cbv zeta. f_equal.
  apply nth_error_split in N as (l1 & l2 & -> & L). subst k.
  unfold words_of. rewrite flat_map_app. cbn [flat_map].
  replace (pad ++ (flat_map (word big 8) l1 ++ word big 8 v ++ flat_map (word big 8) l2) ++ tail)
    with ((pad ++ flat_map (word big 8) l1) ++ word big 8 v ++ (flat_map (word big 8) l2 ++ tail)) by (rewrite <- !app_assoc; reflexivity).
  rewrite (slice_app_exact' _ 8).
  - apply word_dec. change (256 ^ Z.of_nat 8) with (2 ^ 64). exact V.
  - rewrite app_length. pose proof (words_length big 8 l1) as W. unfold words_of in W. rewrite W. lia.
  - symmetry. apply word_length.
Qed.

Definition position (l : list reg) (r : reg) : option nat :=
  (fix go l k := match l with [] => None | x :: l => if (String.eqb (fst x) (fst r) && (snd x =? snd r)%nat)%bool then Some k else go l (S k) end) l 0%nat.
Lemma position_nth l r k : position l r = Some k -> nth_error l k = Some r.
Proof.
  unfold position.
  assert (G : forall l j k, (fix go (l : list reg) k := match l with [] => None | x :: l => if (String.eqb (fst x) (fst r) && (snd x =? snd r)%nat)%bool then Some k else go l (S k) end) l j = Some k ->
              (j <= k)%nat /\ nth_error l (k - j) = Some r).
  { clear. induction l as [|[s m] l IH]; intros j k H; [discriminate H|]. cbn [fst snd] in H.
    destruct (String.eqb_spec s (fst r)) as [ES|NS]; cbn [andb] in H.
    - destruct (Nat.eqb_spec m (snd r)) as [EM|NM].
      + apply some_inj in H. subst. rewrite Nat.sub_diag. cbn. destruct r. split; [lia|reflexivity].
      + apply IH in H as [? H]. split; [lia|]. replace (k - j)%nat with (S (k - S j)) by lia. exact H.
    - apply IH in H as [? H]. split; [lia|]. replace (k - j)%nat with (S (k - S j)) by lia. exact H. }
  intros H. apply G in H as [_ H]. now rewrite Nat.sub_0_r in H.
Qed.

(** Each argument is looked for where its register is. *)
Definition place_ok (a : arch) (p : place) (r : reg) : bool :=
  match position (f_regs (kernel_frame a)) r, offset a p with
  | Some k, Some o => (o =? Z.of_nat (f_pad (kernel_frame a)) + 8 * Z.of_nat k) && (f_width (kernel_frame a) =? 8)%nat
  | _, _ => false
  end.
Definition all_args_ok (a : arch) : bool :=
  forallb (fun n => match arg_reg a n, nth_error (abi_args a) n with
                    | Some p, Some r => place_ok a p r
                    | None, None => true
                    | _, _ => false
                    end) (seq 0 9).

Lemma all_args_checked : forallb all_args_ok [X86_64; Aarch64; Loongarch64; Mips64; Powerpc64; Riscv64; S390x] = true.
Proof. vm_compute. reflexivity. Qed.
Lemma all_rets_checked : forallb (fun a => place_ok a (rc_reg a) (abi_ret a)) [X86_64; Aarch64; Loongarch64; Mips64; Powerpc64; Riscv64; S390x] = true.
Proof. vm_compute. reflexivity. Qed.
Lemma wide_in a : wide a -> In a [X86_64; Aarch64; Loongarch64; Mips64; Powerpc64; Riscv64; S390x].
Proof. intros [? ?]. destruct a; cbn; tauto. Qed.

Lemma place_read a big rf ctx p r :
  place_ok a p r = true -> saved a big rf ctx -> regs_ok a rf -> load_place a big ctx p = Ok (rf r) /\ 0 <= rf r < 2 ^ 64.
Proof.
  intros P (pad & tail & L & ->) R. unfold place_ok in P. unfold load_place.
  destruct (position _ r) as [k|] eqn:K; [|discriminate P].
  destruct (offset a p) as [o|]; [|discriminate P].
  apply andb_true_iff in P as [O W]. apply Z.eqb_eq in O. apply Nat.eqb_eq in W.
  specialize (R r). rewrite W in R. rewrite W. change (256 ^ Z.of_nat 8) with (2 ^ 64) in R.
  split; [|exact R]. subst o. rewrite <- L. apply load_word; [|exact R].
  rewrite nth_error_map, (position_nth _ _ _ K). reflexivity.
Qed.

Lemma args_place a n r : wide a -> nth_error (abi_args a) n = Some r -> exists p, arg_reg a n = Some p /\ place_ok a p r = true.
Proof.
  intros W N. pose proof all_args_checked as C. rewrite forallb_forall in C. specialize (C a (wide_in a W)).
  unfold all_args_ok in C. rewrite forallb_forall in C.
  assert (B : (n < 9)%nat).
  { assert (H : (n < length (abi_args a))%nat) by (apply nth_error_Some; rewrite N; discriminate).
    destruct a; cbn in H; lia. }
  specialize (C n). rewrite N in C. destruct (arg_reg a n) as [p|].
  - exists p. split; [reflexivity|]. apply C. apply in_seq. lia.
  - assert (F : false = true) by (apply C; apply in_seq; lia). discriminate F.
Qed.

Lemma from_register_value t r v : fits_register t -> 0 <= r < 2 ^ 64 -> carries t r v -> from_register t r = v.
Proof.
  destruct t as [s b]. intros F R [I C]. cbn [from_register in_type fits_register] in *.
  assert (P : 0 < 2 ^ (b - 1)) by (apply Z.pow_pos_nonneg; lia).
  assert (D : 2 ^ b = 2 * 2 ^ (b - 1)) by (rewrite <- Z.pow_succ_r by lia; f_equal; lia).
  destruct s.
  - unfold swrap. rewrite C. cbv zeta.
    destruct (Z.le_gt_cases 0 v) as [N|N].
    + rewrite Z.mod_small by lia. destruct (Z.ltb_spec v (2 ^ (b - 1))); lia.
    + assert (E : v mod 2 ^ b = v + 2 ^ b) by (symmetry; apply Z.mod_unique with (q := -1); lia).
      rewrite E. destruct (Z.ltb_spec (v + 2 ^ b) (2 ^ (b - 1))); lia.
  - unfold wrap. rewrite C. apply Z.mod_small. lia.
Qed.

Lemma u64_id r : 0 <= r < 2 ^ 64 -> u64 r = r.
Proof. intros. unfold u64, wrap. apply Z.mod_small. lia. Qed.

Lemma arg_correct a big rf ctx n r t v :
  wide a -> saved a big rf ctx -> regs_ok a rf -> nth_error (abi_args a) n = Some r ->
  fits_register t -> carries t (rf r) v -> arg a big ctx n t = Ok v.
Proof.
  intros W S R N F C. destruct (args_place a n r W N) as (p & A & P).
  unfold arg. rewrite A. destruct (place_read a big rf ctx p r P S R) as [L B]. rewrite L. cbn [bind].
  rewrite (u64_id _ B). f_equal. apply from_register_value; [exact F|exact B|exact C].
Qed.

Lemma arg_missing a big ctx n t : wide a -> nth_error (abi_args a) n = None -> arg a big ctx n t = Err NoSuchArgument.
Proof.
  intros W N. unfold arg. replace (arg_reg a n) with (@None place); [reflexivity|]. symmetry.
  apply nth_error_None in N. destruct W as [W1 W2].
  destruct a; try (exfalso; apply W1; reflexivity); try (exfalso; apply W2; reflexivity); cbn in N; cbn [arg_reg];
    try (destruct (Nat.leb_spec n 7); [lia|reflexivity]); try (destruct (Nat.leb_spec n 4); [lia|reflexivity]).
  - do 6 (destruct n as [|n]; [lia|]). reflexivity.
  - do 8 (destruct n as [|n]; [lia|]). reflexivity.
Qed.

Lemma ret_correct a big rf ctx t v :
  wide a -> saved a big rf ctx -> regs_ok a rf -> fits_register t -> carries t (rf (abi_ret a)) v -> ret a big ctx t = Ok v.
Proof.
  intros W S R F C. pose proof all_rets_checked as K. rewrite forallb_forall in K. specialize (K a (wide_in a W)).
  unfold ret. destruct (place_read a big rf ctx _ _ K S R) as [L B]. rewrite L. cbn [bind].
  rewrite (u64_id _ B). f_equal. apply from_register_value; [exact F|exact B|exact C].
Qed.

Lemma words_read big vs tail n r t v :
  nth_error vs n = Some r -> 0 <= r < 2 ^ 64 -> fits_register t -> carries t r v ->
  btf_arg big (words_of big 8 vs ++ tail) n t = Ok v /\ raw_tracepoint_arg big (words_of big 8 vs ++ tail) n t = Ok v.
Proof.
  intros N R F C. unfold btf_arg, raw_tracepoint_arg.
  pose proof (load_word big [] vs tail n r N R) as L. cbn [app length] in L.
  change (Z.of_nat 0 + 8 * Z.of_nat n) with (0 + 8 * Z.of_nat n) in L. rewrite Z.add_0_l in L.
  rewrite L. cbn [bind]. rewrite (from_register_value t r v F R C). split; reflexivity.
Qed.

Lemma fexit_correct err stored t v :
  (err = 0 -> 0 <= stored < 2 ^ 64 -> fits_register t -> carries t stored v -> fexit_ret err stored t = Ok v) /\
  (- 2 ^ 31 <= err < 0 -> fexit_ret err stored t = Err (Helper err)).
Proof.
  split.
  - intros -> S F C. unfold fexit_ret. cbn [Z.eqb]. f_equal. apply from_register_value; assumption.
  - intros H. unfold fexit_ret. destruct (Z.eqb_spec err 0) as [->|N]; [lia|]. do 2 f_equal.
    unfold i32, swrap. assert (E : err mod 2 ^ 32 = err + 2 ^ 32) by (symmetry; apply Z.mod_unique with (q := -1); lia).
    rewrite E. cbv zeta. destruct (Z.ltb_spec (err + 2 ^ 32) (2 ^ (32 - 1))); [|lia]. change (2 ^ (32 - 1)) with (2 ^ 31) in *. lia.
Qed.

(** 32 bit machines: the words are half as wide as the program takes them to
    be. *)
Definition sample_regs (r : reg) : Z := Z.of_nat (snd r).
Definition sample_ctx (a : arch) (big : bool) : list Z :=
  repeat 0 (f_pad (kernel_frame a)) ++ words_of big (f_width (kernel_frame a)) (map sample_regs (f_regs (kernel_frame a))).
Lemma sample_saved a big : saved a big sample_regs (sample_ctx a big).
Proof. exists (repeat 0 (f_pad (kernel_frame a))), []. split; [apply repeat_length|]. unfold sample_ctx. now rewrite app_nil_r. Qed.
Lemma narrow_wrong a big : a = Arm \/ a = Mips -> exists rf ctx n r t v w,
  saved a big rf ctx /\ nth_error (abi_args a) n = Some r /\ fits_register t /\ carries t (rf r) v /\ arg a big ctx n t = Ok w /\ w <> v.
Proof.
  intros A. exists sample_regs, (sample_ctx a big), 1%nat.
  destruct A as [-> | ->]; [exists ("r"%string, 1%nat)|exists ("$"%string, 5%nat)]; exists (AInt false 32).
  - exists 1, (if big then 3 else 2). repeat split; try apply sample_saved; try (cbn; lia); try (destruct big; vm_compute; reflexivity).
    destruct big; lia.
  - exists 5, (if big then 3 else 2). repeat split; try apply sample_saved; try (cbn; lia); try (destruct big; vm_compute; reflexivity).
    destruct big; lia.
Qed.

(** On a little-endian 32 bit arm the first argument and the return value come
    out right. *)
Lemma arm_first rf ctx t v :
  saved Arm false rf ctx -> regs_ok Arm rf -> (let 'AInt _ bits := t in 1 <= bits <= 32) -> carries t (rf ("r"%string, 0%nat)) v ->
  arg Arm false ctx 0 t = Ok v /\ ret Arm false ctx t = Ok v.
Proof.
  intros (pad & tail & L & ->) R B C. cbn in L. destruct pad; [|discriminate L]. clear L.
  assert (LD : load64 false ([] ++ words_of false (f_width (kernel_frame Arm)) (map rf (f_regs (kernel_frame Arm))) ++ tail) 0 =
    Ok (rf ("r"%string, 0%nat) + 2 ^ 32 * rf ("r"%string, 1%nat))).
  { unfold load64. rewrite app_length, app_length, words_length. cbn [length].
    replace ((0 <=? 0) && _)%bool with true by (symmetry; apply andb_true_iff; split; [reflexivity|]; rewrite map_length; cbn [kernel_frame f_regs f_width]; rewrite app_length; unfold numbered, named; rewrite !map_length, seq_length; cbn [length]; lia).
    cbv zeta. f_equal.
    pose proof (R ("r"%string, 0%nat)) as R0. pose proof (R ("r"%string, 1%nat)) as R1.
    cbn [kernel_frame f_width f_regs] in *. change (256 ^ Z.of_nat 4) with (2 ^ 32) in *.
    change (numbered "r" 0 16 ++ named ["cpsr"%string; "orig_r0"%string]) with (("r"%string, 0%nat) :: ("r"%string, 1%nat) :: (numbered "r" 2 14 ++ named ["cpsr"%string; "orig_r0"%string])).
    generalize (numbered "r" 2 14 ++ named ["cpsr"%string; "orig_r0"%string]). intros rest.
    cbn [map]. unfold words_of. cbn [flat_map app].
    set (x := rf ("r"%string, 0%nat)) in *. set (y := rf ("r"%string, 1%nat)) in *.
    unfold word. cbn [le_enc app]. unfold slice. change (Z.to_nat 0) with 0%nat. cbn [skipn firstn].
    cbn [le_dec]. clear - R0 R1. change (2 ^ 32) with 4294967296 in *.
    assert (E : forall z, 0 <= z < 4294967296 -> z mod 256 + 256 * (z / 256 mod 256 + 256 * (z / 256 / 256 mod 256 + 256 * (z / 256 / 256 / 256 mod 256))) = z) by (intros; lia).
    pose proof (E x R0). pose proof (E y R1). lia. }
  destruct t as [s b]. destruct C as [I C].
  assert (RR := R ("r"%string, 0%nat)). assert (RQ := R ("r"%string, 1%nat)).
  cbn [kernel_frame f_width] in RR, RQ. change (256 ^ Z.of_nat 4) with (2 ^ 32) in *.
  assert (V : from_register (AInt s b) (u64 (rf ("r"%string, 0%nat) + 2 ^ 32 * rf ("r"%string, 1%nat))) = v).
  { rewrite u64_id by (clear - RR RQ; change (2 ^ 64) with (4294967296 * 4294967296); change (2 ^ 32) with 4294967296 in *; lia).
    apply from_register_value; [cbn; lia|clear - RR RQ; change (2 ^ 64) with (4294967296 * 4294967296); change (2 ^ 32) with 4294967296 in *; lia|].
    split; [exact I|]. rewrite <- C.
    replace (2 ^ 32) with (2 ^ (32 - b) * 2 ^ b) by (rewrite <- Z.pow_add_r by lia; f_equal; lia).
    replace (rf ("r"%string, 0%nat) + 2 ^ (32 - b) * 2 ^ b * rf ("r"%string, 1%nat)) with (rf ("r"%string, 0%nat) + 2 ^ (32 - b) * rf ("r"%string, 1%nat) * 2 ^ b) by ring.
    apply Z.mod_add. apply Z.pow_nonzero; lia. }
  assert (O : offset Arm {| p_field := "uregs"; p_index := 0 |} = Some 0) by (vm_compute; reflexivity).
  split.
  - unfold arg, load_place, arg_reg, at_. cbn [Nat.leb]. rewrite O. cbv iota. rewrite LD. cbn [bind]. rewrite V. reflexivity.
  - unfold ret, load_place, rc_reg, at_. rewrite O. cbv iota. rewrite LD. cbn [bind]. rewrite V. reflexivity.
Qed.

(** A type of 128 bits does not get its sign. *)
Lemma wide_type_wrong : exists a big rf ctx n r v w,
  wide a /\ saved a big rf ctx /\ nth_error (abi_args a) n = Some r /\ in_type (AInt true 128) v /\ rf r = u64 v /\ arg a big ctx n (AInt true 128) = Ok w /\ w <> v.
Proof.
  exists X86_64, false, (fun _ => 2 ^ 64 - 1), (words_of false 8 (map (fun _ => 2 ^ 64 - 1) (f_regs (kernel_frame X86_64)))), 0%nat, ("di"%string, 0%nat), (-1), (2 ^ 64 - 1).
  repeat split; try discriminate; try (vm_compute; reflexivity).
  exists [], []. split; [reflexivity|]. now rewrite app_nil_r.
Qed.
