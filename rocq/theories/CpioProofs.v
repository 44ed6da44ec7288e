(** Reading the archive back. *)
From Coq Require Import String.
From Verif Require Import Base Text TextParse LogModel LogShowProofs TextSplit CpioModel CpioSpec.
Local Open Scope Z_scope.

Lemma hex_go_len up fuel : forall k n acc, 0 <= n < 16 ^ Z.of_nat (S k) -> (length (hex_go fuel up n acc) <= S k + length acc)%nat.
Proof.
  induction fuel as [|fuel IH]; intros k n acc H; [cbn; lia|]. cbn [hex_go]. cbv zeta.
  destruct (Z.eqb_spec (n / 16) 0) as [E|E]; [cbn [length]; lia|].
  destruct k as [|k]. { exfalso. apply E. apply Z.div_small. cbn in H. lia. }
  rewrite Nat2Z.inj_succ, Z.pow_succ_r in H by lia.
  etransitivity; [apply (IH k); split; [apply Z.div_pos; lia|apply Z.div_lt_upper_bound; lia]|]. cbn [length]. lia.
Qed.
Lemma digits_zeros m s : forall k, 0 < m -> digits_val 16 m 0 (repeat 48 k ++ s) = digits_val 16 m 0 s.
Proof. induction k as [|k IH]; intros H; [reflexivity|]. cbn [repeat app digits_val]. change (digit_val 16 48) with (Some 0). cbn match. destruct (Z.ltb_spec (0 * 16 + 0) m); [exact (IH H)|lia]. Qed.
Definition in32 (x : Z) : Prop := 0 <= x < 2 ^ 32.
Lemma hex8_ok x : in32 x -> length (hex8 x) = 8%nat /\ digits_val 16 (2 ^ 32) 0 (hex8 x) = Some x.
Proof.
  intros H. unfold in32 in H. unfold hex8. cbv zeta.
  assert (L : (length (show_hex false x) <= 8)%nat). { unfold show_hex. etransitivity; [apply (hex_go_len false 16 7 x []); change (16 ^ Z.of_nat 8) with (2 ^ 32); lia|]. cbn. lia. }
  split; [rewrite app_length, repeat_length; lia|]. rewrite digits_zeros by lia. unfold show_hex.
  destruct (hex_go_spec false 16 x [] ltac:(change (16 ^ Z.of_nat 16) with (2 ^ 64); lia) ltac:(lia)) as (ds & E & _ & _ & V).
  rewrite E. rewrite V by lia. reflexivity.
Qed.
Lemma firstn_len {A} n (a b : list A) : length a = n -> firstn n (a ++ b) = a.
Proof. intros <-. rewrite firstn_app, Nat.sub_diag, firstn_all. cbn [firstn]. apply app_nil_r. Qed.
Lemma skipn_len {A} n (a b : list A) : length a = n -> skipn n (a ++ b) = b.
Proof. intros <-. rewrite skipn_app, Nat.sub_diag, skipn_all. reflexivity. Qed.
Lemma fields_hex l s : Forall in32 l -> fields (length l) (flat_map hex8 l ++ s) = Some l.
Proof.
  induction 1 as [|x l Hx _ IH]; [reflexivity|]. cbn [flat_map length fields]. rewrite <- app_assoc. destruct (hex8_ok x Hx) as [L V].
  rewrite (firstn_len 8 _ _ L), (skipn_len 8 _ _ L), L, V, IH. reflexivity.
Qed.
Lemma hex_len l : Forall in32 l -> length (flat_map hex8 l) = (8 * length l)%nat.
Proof. induction 1 as [|x l Hx _ IH]; [reflexivity|]. cbn [flat_map length]. rewrite app_length, IH, (proj1 (hex8_ok x Hx)). lia. Qed.
Lemma header_eq ino mode nlink mtime size nl :
  header ino mode nlink mtime size nl = txt "070701" ++ flat_map hex8 [ino; mode; 0; 0; nlink; mtime; size; 0; 0; 0; 0; nl; 0].
Proof. unfold header. cbn [flat_map]. rewrite app_nil_r. reflexivity. Qed.
Lemma header_ok ino mode nlink mtime size nl s : in32 ino -> in32 mode -> in32 nlink -> in32 mtime -> in32 size -> in32 nl ->
  length (header ino mode nlink mtime size nl) = 110%nat /\ firstn 6 (header ino mode nlink mtime size nl ++ s) = txt "070701" /\
  fields 13 (skipn 6 (header ino mode nlink mtime size nl ++ s)) = Some [ino; mode; 0; 0; nlink; mtime; size; 0; 0; 0; 0; nl; 0].
Proof.
  intros. rewrite header_eq. set (l := [ino; mode; 0; 0; nlink; mtime; size; 0; 0; 0; 0; nl; 0]).
  assert (Forall in32 l) by (unfold l, in32 in *; repeat (apply Forall_cons; [lia|]); apply Forall_nil).
  split; [rewrite app_length, hex_len by assumption; reflexivity|]. split; [reflexivity|].
  rewrite <- app_assoc. rewrite (skipn_len 6) by reflexivity. apply (fields_hex l s). assumption.
Qed.

Lemma padding_round x : 0 <= x -> x + Z.of_nat (length (padding x)) = round4 x.
Proof. intros H. unfold padding, round4. rewrite repeat_length. lia. Qed.
Lemma round4_shift pos x : pos mod 4 = 0 -> round4 (pos + x) = pos + round4 x.
Proof. unfold round4. lia. Qed.
Lemma round4_mod x : round4 x mod 4 = 0.
Proof. unfold round4. lia. Qed.
Lemma round4_le x : x <= round4 x.
Proof. unfold round4. lia. Qed.
Lemma str_eqb_same s : str_eqb s s = true.
Proof. apply str_eqb_eq. reflexivity. Qed.

(** The bytes of an entry, and what they stand for. *)
Definition entry_bytes (ino : Z) (c : call) (mtime : Z) (d : str) : str :=
  header ino (Z.lor (c_type c) (c_mode c)) (c_nlink c) mtime (Z.of_nat (length d)) (Z.of_nat (length (c_name c)) + 1)
    ++ c_name c ++ [0] ++ padding (110 + (Z.of_nat (length (c_name c)) + 1)) ++ d ++ padding (Z.of_nat (length d)).
Definition item_of (ino : Z) (c : call) (mtime : Z) (d : str) : item :=
  {| it_ino := ino; it_name := c_name c; it_mode := Z.lor (c_type c) (c_mode c); it_uid := 0; it_gid := 0; it_nlink := c_nlink c; it_mtime := mtime; it_data := d |}.
Definition has_data (c : call) (d : str) : Prop := match c_source c with None => d = [] | Some s => source_is s d end.

Lemma append_ok b c mtime b' : append b c mtime = Ok b' <->
  exists d, has_data c d /\ Z.of_nat (length (c_name c)) + 1 < 2 ^ 32 /\ b_inode b + 1 < 2 ^ 32 /\
    b' = {| b_inode := b_inode b + 1; b_out := b_out b ++ entry_bytes (b_inode b) c mtime d |}.
Proof.
  unfold append, has_data, entry_bytes. cbv zeta. destruct (Z.ltb_spec (Z.of_nat (length (c_name c)) + 1) (2 ^ 32)) as [Hn|Hn]; cbn [negb].
  2:{ split; [discriminate|]. intros (d & _ & X & _). lia. }
  destruct (c_source c) as [s|]; cbn [file_size body bind].
  - unfold source_is. destruct (s_meta s) as [n|]; cbn [bind].
    2:{ split; [discriminate|]. intros (d & (X & _) & _). discriminate X. }
    destruct (Z.ltb_spec n (2 ^ 32)) as [Hs|Hs]; cbn [bind].
    2:{ split; [discriminate|]. intros (d & (X & _ & Y) & _). apply some_inj in X. lia. }
    destruct (s_data s) as [d|]; cbn [bind].
    2:{ split; [discriminate|]. intros (d & (_ & X & _) & _). discriminate X. }
    destruct (Z.eqb_spec (Z.of_nat (length d)) n) as [<-|Ne]; cbn [bind].
    2:{ split; [discriminate|]. intros (d' & (X & Y & _) & _). apply some_inj in X, Y. subst. congruence. }
    destruct (Z.ltb_spec (b_inode b + 1) (2 ^ 32)) as [Hi|Hi].
    + split.
      * intros X. apply ok_inj in X. subst b'. exists d. repeat split; auto.
      * intros (d' & (_ & Y & _) & _ & _ & ->). apply some_inj in Y. subst d'. reflexivity.
    + split; [discriminate|]. intros (d' & _ & _ & X & _). lia.
  - destruct (Z.ltb_spec (b_inode b + 1) (2 ^ 32)) as [Hi|Hi].
    + split.
      * intros X. apply ok_inj in X. subst b'. exists []. repeat split; auto.
      * intros (d' & -> & _ & _ & ->). reflexivity.
    + split; [discriminate|]. intros (d' & _ & _ & X & _). lia.
Qed.

Definition call_ok (c : call) : Prop := in32 (Z.lor (c_type c) (c_mode c)) /\ in32 (c_nlink c).
Lemma entry_len ino c mtime d : in32 ino -> call_ok c -> in32 mtime -> in32 (Z.of_nat (length d)) -> in32 (Z.of_nat (length (c_name c)) + 1) ->
  Z.of_nat (length (entry_bytes ino c mtime d)) = round4 (round4 (110 + (Z.of_nat (length (c_name c)) + 1)) + Z.of_nat (length d)).
Proof.
  intros Hi (Hm & Hk) Ht Hd Hn. unfold entry_bytes. rewrite !app_length, (proj1 (header_ok _ _ _ _ _ _ [] Hi Hm Hk Ht Hd Hn)). cbn [length].
  pose proof (padding_round (110 + (Z.of_nat (length (c_name c)) + 1)) ltac:(lia)) as P1.
  pose proof (padding_round (Z.of_nat (length d)) ltac:(lia)) as P2.
  rewrite (round4_shift (round4 (110 + (Z.of_nat (length (c_name c)) + 1)))) by apply round4_mod. lia.
Qed.
Lemma read_entry fuel pos ino c mtime d rest : 0 <= pos -> pos mod 4 = 0 -> in32 ino -> call_ok c -> in32 mtime -> in32 (Z.of_nat (length d)) ->
  in32 (Z.of_nat (length (c_name c)) + 1) ->
  read_newc (S fuel) pos (entry_bytes ino c mtime d ++ rest) =
    if str_eqb (c_name c) (txt "TRAILER!!!") then Some []
    else match read_newc fuel (pos + Z.of_nat (length (entry_bytes ino c mtime d))) rest with
         | None => None
         | Some l => if 4096 <? Z.of_nat (length (c_name c)) + 1 then Some l else Some (item_of ino c mtime d :: l)
         end.
Proof.
  intros Hp Hp4 Hi Hc Ht Hd Hn. pose proof (entry_len ino c mtime d Hi Hc Ht Hd Hn) as EL. destruct Hc as (Hm & Hk).
  set (e := entry_bytes ino c mtime d) in *. set (nl := Z.of_nat (length (c_name c)) + 1) in *.
  set (tail := c_name c ++ [0] ++ padding (110 + nl) ++ d ++ padding (Z.of_nat (length d)) ++ rest).
  set (h := header ino (Z.lor (c_type c) (c_mode c)) (c_nlink c) mtime (Z.of_nat (length d)) nl).
  assert (Es : e ++ rest = h ++ tail) by (unfold e, entry_bytes, h, tail, nl; rewrite <- !app_assoc; reflexivity).
  destruct (header_ok ino _ _ mtime _ nl tail Hi Hm Hk Ht Hd Hn) as (HL & HM & HF). fold h in HL, HM, HF.
  cbn [read_newc]. rewrite Es, HM, HF, str_eqb_same. cbn [negb].
  replace (pos + 110 + nl) with (pos + (110 + nl)) by lia. rewrite (round4_shift pos (110 + nl) Hp4).
  set (a := round4 (110 + nl)) in *. set (n := Z.of_nat (length d)) in *.
  replace (pos + a + n) with (pos + (a + n)) by lia. rewrite (round4_shift pos (a + n) Hp4). rewrite <- EL.
  replace (pos + 110 - pos) with 110 by lia. replace (pos + a - pos) with a by lia.
  replace (pos + Z.of_nat (length e) - pos) with (Z.of_nat (length e)) by lia.
  replace (pos + (110 + nl) - 1 - pos) with (110 + nl - 1) by lia. replace (pos + (a + n) - pos) with (a + n) by lia.
  pose proof (padding_round (110 + nl) ltac:(unfold nl; lia)) as P1. fold a in P1.
  assert (Hl : a + n <= Z.of_nat (length (h ++ tail))). { rewrite <- Es, app_length. pose proof (round4_le (a + n)). lia. }
  destruct (Z.leb_spec 1 nl) as [_|X]; [|unfold nl in X; lia]. destruct (Z.leb_spec (a + n) (Z.of_nat (length (h ++ tail)))) as [_|X]; [|lia]. cbn [negb orb].
  assert (F1 : from 110 (h ++ tail) = tail) by (unfold from; apply skipn_len; rewrite HL; lia).
  assert (F2 : from (110 + nl - 1) (h ++ tail) = [0] ++ padding (110 + nl) ++ d ++ padding n ++ rest).
  { unfold from, tail. rewrite app_assoc. apply skipn_len. rewrite app_length, HL. unfold nl. lia. }
  assert (F3 : from a (h ++ tail) = d ++ padding n ++ rest).
  { unfold from, tail. replace (h ++ c_name c ++ [0] ++ padding (110 + nl) ++ d ++ padding n ++ rest) with ((h ++ c_name c ++ [0] ++ padding (110 + nl)) ++ d ++ padding n ++ rest) by (rewrite <- !app_assoc; reflexivity).
    apply skipn_len. rewrite !app_length, HL. cbn [length]. unfold nl in *. lia. }
  assert (F4 : from (Z.of_nat (length e)) (h ++ tail) = rest) by (unfold from; rewrite <- Es; apply skipn_len; lia).
  rewrite F1, F2, F3, F4. unfold take. rewrite (firstn_len (Z.to_nat 1) [0]) by reflexivity. rewrite str_eqb_same. cbn [negb].
  unfold tail. rewrite (firstn_len (Z.to_nat (nl - 1))) by (unfold nl; lia). rewrite (firstn_len (Z.to_nat n)) by (unfold n; lia).
  reflexivity.
Qed.
