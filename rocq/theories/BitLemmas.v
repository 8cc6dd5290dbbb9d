(* Facts about bit lists, bytes and machine integers. *)
From Coq Require Import ZArith List Bool Lia.
From Coq Require Import ZifyBool ZifyNat ZifyN.
Require Import Verif.Base Verif.Spec.
Import ListNotations.
Open Scope Z_scope.

Lemma zlen_nonneg {A} (l : list A) : 0 <= zlen l.
Proof. unfold zlen; lia. Qed.
Lemma zlen_nil {A} : zlen (@nil A) = 0.
Proof. reflexivity. Qed.
Lemma zlen_cons {A} (x : A) l : zlen (x :: l) = 1 + zlen l.
Proof. unfold zlen; cbn [length]; lia. Qed.
Lemma zlen_app {A} (a b : list A) : zlen (a ++ b) = zlen a + zlen b.
Proof. unfold zlen; rewrite app_length; lia. Qed.
Lemma zlen_repeat {A} (x : A) n : zlen (repeat x n) = Z.of_nat n.
Proof. unfold zlen; rewrite repeat_length; reflexivity. Qed.
Lemma to_nat_zlen {A} (l : list A) : Z.to_nat (zlen l) = length l.
Proof. unfold zlen; lia. Qed.
Lemma zlen_zero {A} (l : list A) : zlen l = 0 -> l = [].
Proof. destruct l; [reflexivity | rewrite zlen_cons; pose proof (zlen_nonneg l); lia]. Qed.

Lemma pow2_pos n : 0 <= n -> 0 < 2 ^ n.
Proof. intros; apply Z.pow_pos_nonneg; lia. Qed.

(* ---- slices ---- *)
Lemma slice_mid {A} (p e s : list A) : slice (p ++ e ++ s) (zlen p) (zlen e) = e.
Proof.
  unfold slice. rewrite !to_nat_zlen, skipn_app, skipn_all, Nat.sub_diag. cbn [app skipn].
  rewrite firstn_app, Nat.sub_diag, firstn_all. cbn [firstn]. apply app_nil_r.
Qed.

Lemma slice_mid' {A} (p e s : list A) o n :
  o = zlen p -> n = zlen e -> slice (p ++ e ++ s) o n = e.
Proof. intros -> ->; apply slice_mid. Qed.

Lemma slice_split {A} (p b : list A) n :
  0 <= n -> n <= zlen b ->
  exists e t, b = e ++ t /\ zlen e = n /\ slice (p ++ b) (zlen p) n = e.
Proof.
  intros H0 H. exists (firstn (Z.to_nat n) b), (skipn (Z.to_nat n) b).
  assert (Hl : zlen (firstn (Z.to_nat n) b) = n).
  { unfold zlen in *. rewrite firstn_length. lia. }
  split; [symmetry; apply firstn_skipn |]. split; [assumption |].
  rewrite <- (firstn_skipn (Z.to_nat n) b) at 1.
  apply slice_mid'; auto.
Qed.

Lemma zlen_slice {A} (l : list A) o n :
  0 <= o -> 0 <= n -> o + n <= zlen l -> zlen (slice l o n) = n.
Proof.
  intros. unfold slice, zlen in *. rewrite firstn_length, skipn_length. lia.
Qed.

(* ---- value of bit lists ---- *)
Lemma bits_val_range l : 0 <= bits_val l < 2 ^ zlen l.
Proof.
  induction l as [|b l IH]; cbn [bits_val].
  - change (0 <= 0 < 1); lia.
  - rewrite zlen_cons, Z.pow_add_r, Z.pow_1_r by (try lia; apply zlen_nonneg).
    destruct b; lia.
Qed.

Lemma bits_val_app a b : bits_val (a ++ b) = bits_val a * 2 ^ zlen b + bits_val b.
Proof.
  induction a as [|x a IH]; cbn [bits_val app]; [lia|].
  rewrite IH, zlen_app, Z.pow_add_r by apply zlen_nonneg. destruct x; lia.
Qed.

Lemma length_low_bits n z : length (low_bits n z) = n.
Proof. induction n; cbn [low_bits length]; auto. Qed.
Lemma zlen_low_bits n z : zlen (low_bits n z) = Z.of_nat n.
Proof. unfold zlen; now rewrite length_low_bits. Qed.

Lemma bits_val_low_bits n z : bits_val (low_bits n z) = z mod 2 ^ Z.of_nat n.
Proof.
  induction n as [|n IH]; cbn [low_bits bits_val].
  - cbn [Z.of_nat]. rewrite Z.pow_0_r, Z.mod_1_r; reflexivity.
  - rewrite IH, zlen_low_bits.
    rewrite Nat2Z.inj_succ, Z.pow_succ_r by lia.
    pose proof (pow2_pos (Z.of_nat n) ltac:(lia)) as Hp.
    rewrite (Z.mul_comm 2), Z.rem_mul_r by lia.
    rewrite <- Z.testbit_spec' by lia.
    destruct (Z.testbit z (Z.of_nat n)); cbn [Z.b2z]; lia.
Qed.

Lemma low_bits_ext n a b :
  (forall i, 0 <= i < Z.of_nat n -> Z.testbit a i = Z.testbit b i) -> low_bits n a = low_bits n b.
Proof.
  induction n as [|n IH]; intros H; cbn [low_bits]; [reflexivity|].
  f_equal; [apply H; lia | apply IH; intros; apply H; lia].
Qed.

Lemma low_bits_mod n w z : Z.of_nat n <= w -> low_bits n (z mod 2 ^ w) = low_bits n z.
Proof.
  intros. apply low_bits_ext. intros. apply Z.mod_pow2_bits_low. lia.
Qed.

Lemma low_bits_skipn n k z : (k <= n)%nat -> skipn (n - k) (low_bits n z) = low_bits k z.
Proof.
  induction n as [|n IH]; intros.
  - replace k with O by lia; reflexivity.
  - destruct (Nat.eq_dec k (S n)) as [->|].
    + rewrite Nat.sub_diag; reflexivity.
    + replace (S n - k)%nat with (S (n - k)) by lia. cbn [low_bits skipn]. apply IH; lia.
Qed.

Lemma low_bits_of_bits_val l : low_bits (length l) (bits_val l) = l.
Proof.
  induction l as [|b l IH]; [reflexivity|]. cbn [length low_bits].
  pose proof (bits_val_range l) as R. unfold zlen in R.
  f_equal.
  - rewrite Z.testbit_odd, Z.shiftr_div_pow2 by lia. cbn [bits_val]. unfold zlen.
    destruct b.
    + rewrite <- (Z.mul_1_l (2 ^ Z.of_nat (length l))) at 1.
      rewrite Z.div_add_l by lia. rewrite Z.div_small by lia. reflexivity.
    + rewrite Z.add_0_l, Z.div_small by lia. reflexivity.
  - transitivity (low_bits (length l) (bits_val l)); [|exact IH].
    rewrite <- (low_bits_mod _ (Z.of_nat (length l)) (bits_val (b :: l))) by lia.
    f_equal. cbn [bits_val]. unfold zlen. destruct b.
    + replace (2 ^ Z.of_nat (length l) + bits_val l) with (bits_val l + 1 * 2 ^ Z.of_nat (length l)) by lia.
      rewrite Z.mod_add by lia. now rewrite Z.mod_small.
    + now rewrite Z.add_0_l, Z.mod_small.
Qed.

Lemma bits_val_inj a b : length a = length b -> bits_val a = bits_val b -> a = b.
Proof.
  intros L V. rewrite <- (low_bits_of_bits_val a), <- (low_bits_of_bits_val b). congruence.
Qed.

Lemma low_bits_app n m z :
  low_bits (n + m) z = low_bits n (z / 2 ^ Z.of_nat m) ++ low_bits m z.
Proof.
  induction n as [|n IH]; [reflexivity|]. cbn [Nat.add low_bits app]. f_equal; [|apply IH].
  rewrite <- Z.shiftr_div_pow2, Z.shiftr_spec by lia. f_equal; lia.
Qed.

(* ---- bytes ---- *)
Lemma length_be_bytes n z : length (be_bytes n z) = n.
Proof. induction n; cbn [be_bytes length]; auto. Qed.

Lemma skipn_be_bytes n k z : (k <= n)%nat -> skipn (n - k) (be_bytes n z) = be_bytes k z.
Proof.
  induction n as [|n IH]; intros.
  - replace k with O by lia; reflexivity.
  - destruct (Nat.eq_dec k (S n)) as [->|].
    + rewrite Nat.sub_diag; reflexivity.
    + replace (S n - k)%nat with (S (n - k)) by lia. cbn [be_bytes skipn]. apply IH; lia.
Qed.

Lemma be_bytes_range n z x : In x (be_bytes n z) -> 0 <= x < 256.
Proof.
  induction n; cbn [be_bytes In]; [tauto|]. intros [<-|]; auto.
  apply Z.mod_pos_bound; lia.
Qed.

Lemma bytes_bits_be_bytes n z : bytes_bits (be_bytes n z) = low_bits (8 * n) z.
Proof.
  induction n as [|n IH]; [reflexivity|].
  cbn [be_bytes]. unfold bytes_bits in *. cbn [flat_map]. rewrite IH.
  replace (8 * S n)%nat with (8 + 8 * n)%nat by lia.
  rewrite low_bits_app. f_equal.
  change 256 with (2 ^ 8). rewrite low_bits_mod by lia.
  replace (Z.of_nat (8 * n)) with (8 * Z.of_nat n) by lia. reflexivity.
Qed.

Lemma bytes_bits_app a b : bytes_bits (a ++ b) = bytes_bits a ++ bytes_bits b.
Proof. unfold bytes_bits; apply flat_map_app. Qed.

Lemma length_bytes_bits bs : length (bytes_bits bs) = (8 * length bs)%nat.
Proof.
  induction bs as [|b bs IH]; [reflexivity|].
  unfold bytes_bits in *. cbn [flat_map]. rewrite app_length, IH, length_low_bits.
  cbn [length]. lia.
Qed.
Lemma zlen_bytes_bits bs : zlen (bytes_bits bs) = 8 * zlen bs.
Proof. unfold zlen; rewrite length_bytes_bits; lia. Qed.


Lemma bits_val_byte b : 0 <= b < 256 -> bits_val (low_bits 8 b) = b.
Proof. intros. rewrite bits_val_low_bits. change (2 ^ Z.of_nat 8) with 256. now apply Z.mod_small. Qed.

Lemma firstn_pad_ge {A} (l : list A) x n : (n <= length l)%nat -> firstn n (l ++ x) = firstn n l.
Proof.
  intros. rewrite firstn_app. replace (n - length l)%nat with O by lia. cbn [firstn]. apply app_nil_r.
Qed.

Lemma pack_fuel_bytes fuel bs :
  bytes_ok bs -> (8 * length bs <= fuel)%nat -> pack_fuel fuel (bytes_bits bs) = bs.
Proof.
  revert bs. induction fuel as [|f IH]; intros bs Hb Hf.
  - destruct bs; [reflexivity | cbn [length] in Hf; lia].
  - destruct bs as [|b bs]; [reflexivity|].
    inversion Hb as [|? ? Hb1 Hb2]; subst.
    unfold bytes_bits. cbn [flat_map]. fold (bytes_bits bs).
    cbn [pack_fuel].
    assert (E8 : forall r : list bool, exists x y, low_bits 8 b ++ r = x :: y) by (intros; cbn; eauto).
    destruct (E8 (bytes_bits bs)) as (x & y & Exy).
    rewrite Exy. rewrite <- Exy.
    rewrite <- app_assoc, firstn_pad_ge by (rewrite length_low_bits; lia).
    rewrite firstn_all2 by (rewrite length_low_bits; lia).
    rewrite bits_val_byte by assumption. f_equal.
    rewrite skipn_app, length_low_bits, Nat.sub_diag.
    rewrite skipn_all2 by (rewrite length_low_bits; lia). cbn [app skipn].
    apply IH; [assumption | cbn [length] in Hf; lia].
Qed.

Lemma pack_bytes_bits bs : bytes_ok bs -> pack (bytes_bits bs) = bs.
Proof.
  intros. unfold pack. apply pack_fuel_bytes; [assumption|]. rewrite length_bytes_bits; lia.
Qed.

(* pack adds only zero padding *)
Lemma bytes_bits_pack_fuel fuel l :
  (length l <= fuel)%nat ->
  exists z, bytes_bits (pack_fuel fuel l) = l ++ repeat false z /\ (z < 8)%nat.
Proof.
  revert l. induction fuel as [|f IH]; intros l Hf.
  - destruct l; [|cbn [length] in Hf; lia]. exists O; split; [reflexivity|lia].
  - destruct l as [|x l']; [exists O; split; [reflexivity|lia]|].
    set (l := x :: l') in *. assert (Hl : l = x :: l') by reflexivity.
    assert (Hpk : pack_fuel (S f) l = bits_val (firstn 8 (l ++ repeat false 8)) :: pack_fuel f (skipn 8 l)).
    { rewrite Hl; reflexivity. }
    rewrite Hpk. unfold bytes_bits. cbn [flat_map]. fold (bytes_bits (pack_fuel f (skipn 8 l))).
    assert (Hb : low_bits 8 (bits_val (firstn 8 (l ++ repeat false 8))) = firstn 8 (l ++ repeat false 8)).
    { assert (L8 : length (firstn 8 (l ++ repeat false 8)) = 8%nat).
      { rewrite firstn_length, app_length, repeat_length. lia. }
      rewrite <- L8 at 1. apply low_bits_of_bits_val. }
    rewrite Hb.
    destruct (le_lt_dec 8 (length l)) as [H8|H8].
    + destruct (IH (skipn 8 l)) as (z & Hz & Hz8).
      { rewrite skipn_length. lia. }
      exists z. rewrite Hz. rewrite firstn_pad_ge by assumption.
      rewrite app_assoc, firstn_skipn. auto.
    + exists (8 - length l)%nat.
      rewrite skipn_all2 by lia.
      destruct f; cbn [pack_fuel bytes_bits flat_map]; rewrite app_nil_r;
        (rewrite firstn_app, firstn_all2 by lia; split;
         [ f_equal; rewrite <- (firstn_all (repeat false (8 - length l))) at 1;
           rewrite repeat_length;
           replace (repeat false 8) with (repeat false (8 - length l) ++ repeat false (length l))
             by (rewrite <- repeat_app; f_equal; lia);
           rewrite firstn_app, repeat_length, Nat.sub_diag; cbn [firstn];
           apply app_nil_r
         | rewrite Hl in *; cbn [length] in *; lia ]).
Qed.

Lemma bytes_bits_pack l :
  exists z, bytes_bits (pack l) = l ++ repeat false z /\ (z < 8)%nat.
Proof. unfold pack. apply bytes_bits_pack_fuel. lia. Qed.

Lemma pack_fuel_bytes_ok fuel l : bytes_ok (pack_fuel fuel l).
Proof.
  revert l. induction fuel as [|f IH]; intros l; cbn [pack_fuel]; [constructor|].
  destruct l as [|x l']; [constructor|]. constructor; [|apply IH].
  pose proof (bits_val_range (firstn 8 ((x :: l') ++ repeat false 8))) as R.
  assert (L8 : zlen (firstn 8 ((x :: l') ++ repeat false 8)) = 8).
  { unfold zlen. rewrite firstn_length, app_length, repeat_length. lia. }
  rewrite L8 in R. change (2 ^ 8) with 256 in R. lia.
Qed.
Lemma pack_bytes_ok l : bytes_ok (pack l).
Proof. apply pack_fuel_bytes_ok. Qed.

Lemma zlen_pack l : zlen (pack l) = (zlen l + 7) / 8.
Proof.
  destruct (bytes_bits_pack l) as (z & Hz & Hlt).
  assert (Hl : zlen (bytes_bits (pack l)) = zlen l + Z.of_nat z).
  { rewrite Hz, zlen_app, zlen_repeat. reflexivity. }
  rewrite zlen_bytes_bits in Hl.
  apply Z.div_unique with (r := zlen l + 7 - 8 * zlen (pack l)); lia.
Qed.

(* ---- chunks ---- *)
Lemma chunks8_bytes_bits_fuel fuel bs :
  (8 * length bs <= fuel)%nat -> chunks8_fuel fuel (bytes_bits bs) = map (low_bits 8) bs.
Proof.
  revert bs. induction fuel as [|f IH]; intros bs Hf.
  - destruct bs; [reflexivity|cbn [length] in Hf; lia].
  - destruct bs as [|b bs]; [reflexivity|].
    cbn [chunks8_fuel]. rewrite length_bytes_bits.
    replace (Z.of_nat (8 * length (b :: bs)) <? 8) with false by (cbn [length]; lia).
    unfold bytes_bits. cbn [flat_map map]. fold (bytes_bits bs).
    rewrite firstn_pad_ge by (rewrite length_low_bits; lia).
    rewrite firstn_all2 by (rewrite length_low_bits; lia). f_equal.
    rewrite skipn_app, length_low_bits, Nat.sub_diag.
    rewrite skipn_all2 by (rewrite length_low_bits; lia). cbn [app skipn].
    apply IH. cbn [length] in Hf; lia.
Qed.
Lemma chunks8_bytes_bits bs : chunks8 (bytes_bits bs) = map (low_bits 8) bs.
Proof. unfold chunks8. apply chunks8_bytes_bits_fuel. rewrite length_bytes_bits. lia. Qed.

Lemma map_bits_val_low_bits bs : bytes_ok bs -> map bits_val (map (low_bits 8) bs) = bs.
Proof.
  induction 1 as [|b bs Hb _ IH]; [reflexivity|]. cbn [map]. now rewrite IH, bits_val_byte.
Qed.

(* ---- casts ---- *)
Lemma wrap_u_small w z : 0 <= z < 2 ^ w -> wrap_u w z = z.
Proof. intros; unfold wrap_u; now apply Z.mod_small. Qed.

Lemma wrap_s_small w z : 0 < w -> - 2 ^ (w - 1) <= z < 2 ^ (w - 1) -> wrap_s w z = z.
Proof.
  intros Hw H. unfold wrap_s.
  assert (E : 2 ^ w = 2 * 2 ^ (w - 1)).
  { rewrite <- Z.pow_succ_r by lia. f_equal; lia. }
  destruct (Z_lt_dec z 0).
  - rewrite <- (Z.mod_add z 1) by lia. rewrite Z.mul_1_l, Z.mod_small by lia.
    destruct (z + 2 ^ w <? 2 ^ (w - 1)) eqn:C; lia.
  - rewrite Z.mod_small by lia. destruct (z <? 2 ^ (w - 1)) eqn:C; lia.
Qed.

Lemma wrap_s_mod w z : 0 < w -> wrap_s w (z mod 2 ^ w) = wrap_s w z.
Proof. intros. unfold wrap_s. rewrite Z.mod_mod by lia. reflexivity. Qed.

Lemma wrap_s_range w z : 0 < w -> - 2 ^ (w - 1) <= wrap_s w z < 2 ^ (w - 1).
Proof.
  intros Hw. unfold wrap_s.
  assert (E : 2 ^ w = 2 * 2 ^ (w - 1)).
  { rewrite <- Z.pow_succ_r by lia. f_equal; lia. }
  pose proof (pow2_pos (w - 1) ltac:(lia)).
  pose proof (Z.mod_pos_bound z (2 ^ w) ltac:(lia)).
  destruct (z mod 2 ^ w <? 2 ^ (w - 1)) eqn:C; lia.
Qed.

(* ---- bit length ---- *)
Lemma bitlen_spec z : 0 < z -> 2 ^ (bitlen z - 1) <= z < 2 ^ bitlen z.
Proof.
  intros. unfold bitlen. replace (z <=? 0) with false by lia.
  pose proof (Z.log2_spec z H). replace (Z.log2 z + 1 - 1) with (Z.log2 z) by lia.
  rewrite <- Z.add_1_r in H0. lia.
Qed.
Lemma bitlen_nonneg z : 0 <= bitlen z.
Proof. unfold bitlen. destruct (z <=? 0) eqn:C; [lia|]. pose proof (Z.log2_nonneg z). lia. Qed.
Lemma bitlen_zero z : z <= 0 -> bitlen z = 0.
Proof. intros. unfold bitlen. replace (z <=? 0) with true by lia. reflexivity. Qed.
Lemma bitlen_pos z : 0 < z -> 0 < bitlen z.
Proof. intros. unfold bitlen. replace (z <=? 0) with false by lia. pose proof (Z.log2_nonneg z). lia. Qed.
Lemma bitlen_lt z n : 0 <= n -> z < 2 ^ n -> bitlen z <= n.
Proof.
  intros. unfold bitlen. destruct (z <=? 0) eqn:C; [lia|].
  assert (Z.log2 z < n) by (apply Z.log2_lt_pow2; lia). lia.
Qed.
Lemma bitlen_le_lt z n : 0 <= z -> bitlen z <= n -> z < 2 ^ n.
Proof.
  intros Hz Hb. destruct (Z.eq_dec z 0) as [->|].
  - apply pow2_pos. pose proof (bitlen_nonneg 0). lia.
  - pose proof (bitlen_spec z ltac:(lia)).
    pose proof (Z.pow_le_mono_r 2 (bitlen z) n ltac:(lia) Hb). lia.
Qed.
