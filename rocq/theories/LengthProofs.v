(* Signed fields and length determinants. *)
From Coq Require Import ZArith List Bool Lia.
From Coq Require Import ZifyBool ZifyNat ZifyN.
Require Import Verif.Base Verif.CodecModel Verif.BitLemmas Verif.Spec Verif.Combinators.
Import ListNotations.
Open Scope Z_scope.
Ltac Zify.zify_post_hook ::= Z.div_mod_to_equations.

Lemma lor_add_disjoint n v h : 0 <= n -> 0 <= v < 2 ^ n -> Z.lor v (h * 2 ^ n) = v + h * 2 ^ n.
Proof.
  intros Hn Hv.
  assert (L : Z.land v (h * 2 ^ n) = 0).
  { apply Z.bits_inj'. intros i Hi. rewrite Z.land_spec, Z.bits_0.
    destruct (Z_lt_dec i n) as [H|H].
    - rewrite Z.mul_pow2_bits_low by lia. apply andb_false_r.
    - assert (T : Z.testbit v i = false); [|now rewrite T].
      apply Z.testbit_false; [lia|].
      rewrite Z.div_small; [reflexivity|].
      split; [lia|]. apply Z.lt_le_trans with (2 ^ n); [lia|]. apply Z.pow_le_mono_r; lia. }
  rewrite Z.add_nocarry_lxor by assumption. symmetry. now apply Z.lxor_lor.
Qed.

(* Sign extension as written in decode_bits_as_integer. *)
Lemma sign_ext n w e (b : bool) e' :
  e = b :: e' -> zlen e = n -> 0 < n -> n < w ->
  wrap_s w (if b then Z.lor (bits_val e) (2 ^ w - 2 ^ n) else Z.land (bits_val e) (2 ^ n - 1))
  = wrap_s n (bits_val e).
Proof.
  intros He Hn Hn0 Hw.
  pose proof (bits_val_range e) as R. rewrite Hn in R.
  pose proof (bits_val_range e') as R'.
  assert (Hn' : zlen e' = n - 1) by (rewrite He, zlen_cons in Hn; lia).
  rewrite Hn' in R'.
  assert (P1 : 2 ^ n = 2 * 2 ^ (n - 1)) by (rewrite <- Z.pow_succ_r by lia; f_equal; lia).
  assert (P2 : 2 ^ w = 2 ^ (w - n) * 2 ^ n) by (rewrite <- Z.pow_add_r by lia; f_equal; lia).
  assert (P3 : 2 ^ n <= 2 ^ (w - 1)) by (apply Z.pow_le_mono_r; lia).
  assert (P4 : 2 ^ w = 2 * 2 ^ (w - 1)) by (rewrite <- Z.pow_succ_r by lia; f_equal; lia).
  assert (Hv : bits_val e = (if b then 2 ^ (n - 1) else 0) + bits_val e').
  { rewrite He. cbn [bits_val]. rewrite Hn'. reflexivity. }
  assert (Hr : wrap_s n (bits_val e) = if b then bits_val e - 2 ^ n else bits_val e).
  { unfold wrap_s. rewrite Z.mod_small by lia.
    destruct b; [destruct (bits_val e <? 2 ^ (n - 1)) eqn:C; lia
                | destruct (bits_val e <? 2 ^ (n - 1)) eqn:C; lia]. }
  rewrite Hr. destruct b.
  - replace (2 ^ w - 2 ^ n) with ((2 ^ (w - n) - 1) * 2 ^ n) by lia.
    rewrite lor_add_disjoint by lia.
    replace (bits_val e + (2 ^ (w - n) - 1) * 2 ^ n) with ((bits_val e - 2 ^ n) + 1 * 2 ^ w) by lia.
    unfold wrap_s. rewrite Z.mod_add by lia.
    apply (wrap_s_small w (bits_val e - 2 ^ n)); lia.
  - replace (2 ^ n - 1) with (Z.ones n) by (rewrite Z.ones_equiv; lia).
    rewrite Z.land_ones, Z.mod_small by lia. apply wrap_s_small; lia.
Qed.

Definition signed_width (n : Z) : Prop :=
  n = 8 \/ n = 16 \/ n = 24 \/ n = 32 \/ n = 40 \/ n = 48 \/ n = 56 \/ n = 64 \/ n = 128.

Lemma reads_sint E a n e :
  n = zlen e -> signed_width n ->
  reads (decode_bits_as_integer E n true) a e (wrap_s n (bits_val e)).
Proof.
  intros -> Hn p s k Hp Hf. unfold decode_bits_as_integer. unfold bind at 1. unfold get_bits. cbn [bits].
  unfold bind at 1. unfold get_off. cbn [off]. unfold bind at 1. unfold lift.
  pose proof Hf as Hf'. unfold fits in Hf'. rewrite !zlen_app in Hf'.
  pose proof (zlen_nonneg p); pose proof (zlen_nonneg e); pose proof (zlen_nonneg s).
  rewrite arith_usize_ok by (rewrite !zlen_app; lia).
  replace (zlen (p ++ e ++ s) - zlen p <? zlen e) with false by (rewrite !zlen_app; lia).
  cbn [negb].
  destruct e as [|b e']; [unfold signed_width in Hn; change (zlen (@nil bool)) with 0 in Hn; lia|].
  remember (b :: e') as e eqn:He.
  assert (Hbit : bit_at_off (mkD (p ++ e ++ s) (zlen p) k) = (Ok b, mkD (p ++ e ++ s) (zlen p) k)).
  { rewrite He. change (p ++ (b :: e') ++ s) with (p ++ b :: (e' ++ s)). apply bit_at_off_app. }
  pose proof (sign_ext 24 32 e b e' He) as S24.
  pose proof (sign_ext 40 64 e b e' He) as S40.
  pose proof (sign_ext 48 64 e b e' He) as S48.
  pose proof (sign_ext 56 64 e b e' He) as S56.
  pose proof (slice_at_off_app p e s k) as Hsl.
  pose proof (fun ig => advance_app E p e s k (zlen e) ig eq_refl Hf) as Hadv.
  remember (zlen e) as n eqn:Hz. clear He.
  unfold signed_width in Hn.
  destruct Hn as [->|[->|[->|[->|[->|[->|[->|[->| ->]]]]]]]];
    cbn [Z.eqb Pos.eqb]; unfold bind, load_be; rewrite Hsl, <- Hz;
    cbn [Z.leb Z.compare Pos.compare Pos.compare_cont andb]; unfold ret; try rewrite Hbit;
    rewrite Hadv; try reflexivity.
  - do 2 f_equal. now apply S24.
  - do 2 f_equal. now apply S40.
  - do 2 f_equal. now apply S48.
  - do 2 f_equal. now apply S56.
Qed.

Lemma reads_sint_val E a n v :
  signed_width (Z.of_nat n) -> - 2 ^ (Z.of_nat n - 1) <= v < 2 ^ (Z.of_nat n - 1) ->
  reads (decode_bits_as_integer E (Z.of_nat n) true) a (low_bits n v) v.
Proof.
  intros Hn Hv.
  assert (0 < Z.of_nat n) by (unfold signed_width in Hn; lia).
  replace v with (wrap_s (Z.of_nat n) (bits_val (low_bits n v))) at 2.
  - apply reads_sint; [now rewrite zlen_low_bits | assumption].
  - rewrite bits_val_low_bits, wrap_s_mod, wrap_s_small by lia. reflexivity.
Qed.

(* ---- indefinite length ---- *)
Definition indef_bits (a v : Z) : list bool :=
  pad a ++ (if v <? 128 then false :: low_bits 7 v else true :: false :: low_bits 14 v).

Lemma low_bits_16_mark v : 0 <= v < 16384 ->
  low_bits 16 (Z.lor v 0x8000) = true :: false :: low_bits 14 v.
Proof.
  intros. replace (Z.lor v 0x8000) with (v + 2 * 2 ^ 14).
  2:{ change 0x8000 with (2 * 2 ^ 14). symmetry. apply lor_add_disjoint; lia. }
  change 16%nat with (2 + 14)%nat. rewrite low_bits_app.
  replace ((v + 2 * 2 ^ 14) / 2 ^ Z.of_nat 14) with 2
    by (change (2 ^ Z.of_nat 14) with 16384; lia).
  cbn [low_bits app]. change (Z.testbit 2 (Z.of_nat 1)) with true.
  change (Z.testbit 2 (Z.of_nat 0)) with false. do 2 f_equal.
  change (low_bits 14 (v + 2 * 2 ^ 14) = low_bits 14 v).
  rewrite <- (low_bits_mod 14 14 (v + _)) by lia. rewrite Z.mod_add by lia.
  apply low_bits_mod. lia.
Qed.

Lemma writes_indef a v : 0 <= v < 16384 ->
  writes (encode_indefinite_length_determinent v) a (indef_bits a v).
Proof.
  intros Hv. unfold encode_indefinite_length_determinent, indef_bits.
  apply writes_bind; [apply writes_align|].
  destruct (v <? 128) eqn:C.
  - eapply writes_eq; [apply writes_append|].
    rewrite wrap_u_small by lia. cbn [low_bits]. f_equal.
    apply Z.bits_above_log2; [lia|]. destruct (Z.eq_dec v 0) as [->|]; [cbn; lia|].
    apply Z.log2_lt_pow2; lia.
  - replace (v <? 16384) with true by lia.
    eapply writes_eq; [apply writes_append|].
    rewrite bytes_bits_be_bytes. rewrite wrap_u_small by lia.
    change (8 * 2)%nat with 16%nat. now apply low_bits_16_mark.
Qed.

Lemma to_usize_ok z : 0 <= z < 2 ^ 64 -> to_usize z = ret z.
Proof.
  intros. unfold to_usize, in_usize.
  replace ((0 <=? z) && (z <? 2 ^ 64)) with true by lia. reflexivity.
Qed.

Lemma reads_indef E a v : 0 <= v < 16384 ->
  reads (decode_indefinite_length_determinent E) a (indef_bits a v) v.
Proof.
  intros Hv. unfold decode_indefinite_length_determinent, indef_bits.
  eapply reads_bind; [apply reads_align|].
  destruct (v <? 128) eqn:C.
  - change (false :: low_bits 7 v) with ([false] ++ low_bits 7 v).
    eapply reads_bind; [apply reads_bool|]. cbn [negb].
    apply reads_app_nil. eapply reads_bind.
    + apply reads_uint_val with (v := v); [now rewrite zlen_low_bits | lia | | lia].
      rewrite bits_val_low_bits. apply Z.mod_small. lia.
    + rewrite to_usize_ok by lia. apply reads_ret.
  - change (true :: false :: low_bits 14 v) with ([true] ++ [false] ++ low_bits 14 v).
    eapply reads_bind; [apply reads_bool|]. cbn [negb].
    apply reads_app_nil. eapply reads_bind.
    + eapply reads_bind; [apply reads_bool|]. cbn [negb].
      apply reads_uint_val with (v := v); [now rewrite zlen_low_bits | lia | | lia].
      rewrite bits_val_low_bits. apply Z.mod_small. lia.
    + rewrite to_usize_ok by lia. apply reads_ret.
Qed.

(* ---- normally small length ---- *)
Definition small_bits (a v : Z) : list bool :=
  if v <=? 32 then false :: low_bits 6 (v - 1) else true :: indef_bits (a + 1) v.

Lemma writes_small E a v : 1 <= v < 16384 ->
  writes (encode_normally_small_length_determinent E v) a (small_bits a v).
Proof.
  intros Hv. unfold encode_normally_small_length_determinent, small_bits.
  destruct (v <=? 32) eqn:C.
  - eapply writes_lift; [apply arith_usize_ok; lia|].
    change (false :: low_bits 6 (v - 1)) with ([false] ++ low_bits 6 (v - 1)).
    apply writes_bind; [apply writes_append|].
    eapply writes_eq; [apply writes_append|].
    rewrite wrap_u_small by lia. reflexivity.
  - change (true :: indef_bits (a + 1) v) with ([true] ++ indef_bits (a + 1) v).
    apply writes_bind; [apply writes_append|]. apply writes_indef; lia.
Qed.

Lemma reads_small E a v : 1 <= v < 16384 ->
  reads (decode_normally_small_length_determinent E) a (small_bits a v) v.
Proof.
  intros Hv. unfold decode_normally_small_length_determinent, small_bits.
  destruct (v <=? 32) eqn:C.
  - change (false :: low_bits 6 (v - 1)) with ([false] ++ low_bits 6 (v - 1)).
    eapply reads_bind; [apply reads_bool|]. cbn [negb].
    apply reads_app_nil. eapply reads_bind.
    + apply reads_uint_val with (v := v - 1); [now rewrite zlen_low_bits | lia | | lia].
      rewrite bits_val_low_bits. apply Z.mod_small. lia.
    + apply reads_lift_end. rewrite wrap_u_small by lia.
      rewrite arith_usize_ok by lia. f_equal; lia.
  - change (true :: indef_bits (a + 1) v) with ([true] ++ indef_bits (a + 1) v).
    eapply reads_bind; [apply reads_bool|]. cbn [negb]. apply reads_indef; lia.
Qed.
