(* The code against X.691. *)
From Coq Require Import ZArith List Bool Lia.
From Coq Require Import ZifyBool ZifyNat ZifyN.
Require Import Verif.Base Verif.CodecModel Verif.BitLemmas Verif.Spec Verif.Combinators.
Require Import Verif.LengthProofs Verif.IntegerProofs Verif.StringProofs Verif.Local Verif.Ranges Verif.Loops Verif.Frame Verif.Safety Verif.Api Verif.ApiProofs Verif.AcceptProofs Verif.ApiSpec Verif.MiscProofs Verif.CodecFacts.
Require Import Verif.X691 Verif.X691Spec.
Import ListNotations.
Open Scope Z_scope.
Ltac Zify.zify_post_hook ::= Z.div_mod_to_equations.

Lemma x_pad_pad a : x_pad a = pad a.
Proof. unfold x_pad, pad. do 2 f_equal. lia. Qed.
Lemma least_unique P n m : least P n -> least P m -> n = m.
Proof. intros [H1 H2] [H3 H4]. specialize (H2 _ H3). specialize (H4 _ H1). lia. Qed.

Lemma x_field_bits w v e : x_field w v e -> e = low_bits (Z.to_nat w) v.
Proof.
  intros [L V]. rewrite <- (low_bits_of_bits_val e), V. f_equal. unfold zlen in L. lia.
Qed.
Lemma x_field_range w v e : x_field w v e -> 0 <= w /\ 0 <= v < 2 ^ w.
Proof. intros [<- <-]. split; [apply zlen_nonneg|apply bits_val_range]. Qed.
Lemma x_field_intro w v : 0 <= w -> 0 <= v < 2 ^ w -> x_field w v (low_bits (Z.to_nat w) v).
Proof.
  intros Hw Hv. split; [rewrite zlen_low_bits; lia|]. rewrite bits_val_low_bits, Z2Nat.id by lia. now apply Z.mod_small.
Qed.
Lemma x_field_iff w v e : 0 <= w -> 0 <= v < 2 ^ w -> x_field w v e <-> e = low_bits (Z.to_nat w) v.
Proof. intros Hw Hv. split; [apply x_field_bits|intros ->; now apply x_field_intro]. Qed.
Lemma x_signed_iff w v e : 0 < w -> - 2 ^ (w - 1) <= v < 2 ^ (w - 1) -> x_signed_field w v e <-> e = low_bits (Z.to_nat w) v.
Proof.
  intros Hw Hv. assert (2 ^ w = 2 * 2 ^ (w - 1)) by (rewrite <- Z.pow_succ_r by lia; f_equal; lia).
  assert (v mod 2 ^ w = if v <? 0 then v + 2 ^ w else v) as M.
  { destruct (v <? 0) eqn:C; [|apply Z.mod_small; lia].
    rewrite <- (Z.mod_add v 1) by lia. rewrite Z.mul_1_l. apply Z.mod_small; lia. }
  split.
  - intros [L V]. rewrite <- (low_bits_of_bits_val e), V, <- M.
    replace (length e) with (Z.to_nat w) by (unfold zlen in L; lia). apply low_bits_mod. lia.
  - intros ->. split; [rewrite zlen_low_bits; lia|]. now rewrite bits_val_low_bits, Z2Nat.id by lia.
Qed.

Lemma dec_range_bits_least r : 1 <= r <= 256 -> x_width r (dec_range_bits r).
Proof.
  intros H. pose proof (range_bits_bound r H) as [B1 B2]. split; [lia|]. intros w [Hw Hr].
  destruct (Z_le_dec (dec_range_bits r) w) as [|N]; [assumption|exfalso].
  assert (2 ^ w <= 2 ^ (dec_range_bits r - 1)) as P by (apply Z.pow_le_mono_r; lia).
  assert (2 ^ (dec_range_bits r - 1) < r); [|lia].
  clear B2 Hr P. revert N. unfold dec_range_bits.
  repeat match goal with |- context [if ?c then _ else _] => destruct c eqn:? end; intros N; try (change (2 ^ (1 - 1)) with 1); try lia;
    match goal with |- ?p < _ => let q := eval vm_compute in p in change p with q end; lia.
Qed.
Lemma x_width_bits r w : 1 <= r <= 256 -> x_width r w <-> w = dec_range_bits r.
Proof.
  intros H. split.
  - intros Hw. exact (least_unique _ _ _ Hw (dec_range_bits_least r H)).
  - intros ->. now apply dec_range_bits_least.
Qed.

Definition xo (x : Z) : Z := Z.max 1 (octets x).
Lemma xo_least x : 0 <= x -> x_octets x (xo x).
Proof.
  intros H. split.
  - split; [unfold xo; lia|]. replace 256 with (2 ^ 8) by reflexivity. rewrite <- Z.pow_mul_r by (unfold xo; lia).
    pose proof (octets_lt x H). assert (2 ^ (8 * octets x) <= 2 ^ (8 * xo x)) by (apply Z.pow_le_mono_r; unfold xo; lia). lia.
  - intros m [Hm HL]. unfold xo. replace 256 with (2 ^ 8) in HL by reflexivity. rewrite <- Z.pow_mul_r in HL by lia.
    pose proof (octets_le x m ltac:(lia) HL). lia.
Qed.
Lemma x_octets_iff x n : 0 <= x -> x_octets x n <-> n = xo x.
Proof. intros H. split; [intros Hn; exact (least_unique _ _ _ Hn (xo_least x H))|intros ->; now apply xo_least]. Qed.
Lemma soctets_least v : x_signed_octets v (soctets v).
Proof.
  assert (0 <= bitlen v) as B1 by (unfold bitlen; destruct (v <=? 0); [lia|pose proof (Z.log2_nonneg v); lia]).
  assert (0 <= bitlen (- v - 1)) as B2 by (unfold bitlen; destruct (- v - 1 <=? 0); [lia|pose proof (Z.log2_nonneg (- v - 1)); lia]).
  split.
  - split; [unfold soctets; destruct (v <? 0); lia|apply soctets_fits].
  - intros m [Hm HL]. unfold soctets. destruct (v <? 0) eqn:C.
    + assert (bitlen (- v - 1) <= 8 * m - 1); [|lia].
      unfold bitlen. destruct (- v - 1 <=? 0) eqn:D; [lia|].
      assert (Z.log2 (- v - 1) < 8 * m - 1); [|lia]. apply Z.log2_lt_pow2; lia.
    + assert (bitlen v <= 8 * m - 1); [|lia]. unfold bitlen. destruct (v <=? 0) eqn:D; [lia|].
      assert (Z.log2 v < 8 * m - 1); [|lia]. apply Z.log2_lt_pow2; lia.
Qed.
Lemma x_signed_octets_iff v n : x_signed_octets v n <-> n = soctets v.
Proof. split; [intros Hn; exact (least_unique _ _ _ Hn (soctets_least v))|intros ->; apply soctets_least]. Qed.

(* ---- constrained whole numbers ---- *)
Lemma x_con_range lb ub v a e : x_constrained lb ub v a e -> lb <= v <= ub.
Proof. destruct 1; lia. Qed.
Lemma x_con_small lb ub v a e : ub - lb + 1 <= 65536 ->
  x_constrained lb ub v a e <-> lb <= v <= ub /\ e = small_range_bits a (ub - lb + 1) (v - lb).
Proof.
  intros Hr. unfold small_range_bits. split.
  - intros H. split; [eapply x_con_range; eauto|]. destruct H as [lb a|lb ub v a w e Hv HR HW HF|lb ub v a e Hv HR HF|lb ub v a e Hv HR HF|]; try lia.
    + replace (lb - lb + 1) with 1 by lia. reflexivity.
    + replace (ub - lb + 1 <? 256) with true by lia. apply x_width_bits in HW; [subst w|lia]. now apply x_field_bits.
    + rewrite HR. cbn. rewrite x_pad_pad. f_equal. apply (x_field_bits 8 _ _ HF).
    + replace (ub - lb + 1 <? 256) with false by lia. replace (ub - lb + 1 =? 256) with false by lia.
      rewrite x_pad_pad. f_equal. apply (x_field_bits 16 _ _ HF).
  - intros [Hv ->]. destruct (ub - lb + 1 <? 256) eqn:C.
    + destruct (Z.eq_dec ub lb) as [->|N].
      * replace (lb - lb + 1) with 1 by lia. assert (v = lb) as -> by lia. apply xc_single.
      * pose proof (range_bits_bound (ub - lb + 1) ltac:(lia)) as [B1 B2].
        eapply xc_bit_field; [lia|lia|apply dec_range_bits_least; lia|apply x_field_intro; lia].
    + destruct (ub - lb + 1 =? 256) eqn:D; rewrite <- x_pad_pad.
      * apply xc_one_octet; [lia|lia|]. apply (x_field_intro 8); [lia|]. change (2 ^ 8) with 256. lia.
      * apply xc_two_octets; [lia|lia|]. apply (x_field_intro 16); [lia|]. change (2 ^ 16) with 65536. lia.
Qed.
Definition x_long_bits (a r x : Z) : list bool :=
  let l := small_range_bits a (xo (r - 1)) (xo x - 1) in
  l ++ pad (a + zlen l) ++ low_bits (Z.to_nat (8 * xo x)) x.
Lemma xo_lt x : 0 <= x -> x < 2 ^ (8 * xo x).
Proof.
  intros H. pose proof (octets_lt x H). assert (2 ^ (8 * octets x) <= 2 ^ (8 * xo x)) by (apply Z.pow_le_mono_r; unfold xo; lia). lia.
Qed.
Lemma xo_big r : 65536 < r < 2 ^ 127 -> 3 <= xo (r - 1) <= 16.
Proof.
  intros H. unfold xo. assert (3 <= octets (r - 1)); [|assert (octets (r - 1) <= 16); [|lia]].
  - apply (octets_ge (r - 1) 2); [lia|]. change (2 ^ (8 * 2)) with 65536. lia.
  - apply octets_le; [lia|]. change (2 ^ (8 * 16)) with (2 * 2 ^ 127). lia.
Qed.
Lemma xo_mono x y : x <= y -> xo x <= xo y.
Proof. intros H. pose proof (octets_mono x y H). unfold xo. lia. Qed.
Lemma x_con_long lb ub v a e : 65536 < ub - lb + 1 < 2 ^ 127 ->
  x_constrained lb ub v a e <-> lb <= v <= ub /\ e = x_long_bits a (ub - lb + 1) (v - lb).
Proof.
  intros Hr. unfold x_long_bits. replace (ub - lb + 1 - 1) with (ub - lb) by lia.
  pose proof (xo_big (ub - lb + 1) Hr) as HB. replace (ub - lb + 1 - 1) with (ub - lb) in HB by lia. split.
  - intros H. split; [eapply x_con_range; eauto|].
    destruct H as [lb a|lb ub v a w e Hv HR HW HF|lb ub v a e Hv HR HF|lb ub v a e Hv HR HF|lb ub v a m n e1 e2 Hv HR HM HN HC HF]; try lia.
    apply x_octets_iff in HM; [subst m|lia]. apply x_octets_iff in HN; [subst n|lia].
    apply x_con_small in HC; [|lia]. destruct HC as [HC ->]. replace (xo (ub - lb) - 1 + 1) with (xo (ub - lb)) by lia.
    cbv zeta. rewrite x_pad_pad. do 2 f_equal. now apply x_field_bits.
  - intros [Hv ->]. cbv zeta. rewrite <- x_pad_pad.
    pose proof (xo_mono (v - lb) (ub - lb) ltac:(lia)). assert (1 <= xo (v - lb)) by (unfold xo; lia).
    eapply xc_indefinite; [lia|lia|apply xo_least; lia|apply xo_least; lia| |].
    + apply x_con_small; [lia|]. split; [lia|]. f_equal. lia.
    + apply x_field_intro; [lia|]. split; [lia|]. apply xo_lt. lia.
Qed.

Lemma field_width_same r : 65536 < r < 2 ^ 127 -> r <> 2 ^ 32 -> r <> 2 ^ 64 ->
  dec_range_bits (octets r) = dec_range_bits (xo (r - 1)).
Proof.
  intros Hr H32 H64. pose proof (xo_big r Hr) as HB. pose proof (octets_big_range r Hr) as HO.
  assert (octets (r - 1) = xo (r - 1)) as Q by (unfold xo in *; lia). rewrite <- Q in *.
  set (k := octets (r - 1)) in *. pose proof (octets_mono (r - 1) r ltac:(lia)) as HM. fold k in HM.
  pose proof (octets_lt (r - 1) ltac:(lia)) as HL. fold k in HL.
  destruct (Z.eq_dec (octets r) k) as [->|N]; [reflexivity|].
  assert (r = 2 ^ (8 * k)) as HR.
  { destruct (Z_lt_dec r (2 ^ (8 * k))) as [L|L]; [|lia]. pose proof (octets_le r k ltac:(lia) L). lia. }
  assert (octets r <= k + 1) as HK.
  { apply octets_le; [lia|]. rewrite HR. apply Z.pow_lt_mono_r; lia. }
  assert (octets r = k + 1) as -> by lia.
  assert (k = 3 \/ k = 4 \/ k = 5 \/ k = 6 \/ k = 7 \/ k = 8 \/ k = 9 \/ k = 10 \/ k = 11 \/ k = 12 \/ k = 13 \/ k = 14 \/ k = 15) as D by lia.
  clearbody k. destruct D as [D|[D|[D|[D|[D|[D|[D|[D|[D|[D|[D|[D|D]]]]]]]]]]]]; rewrite D in *; try reflexivity; exfalso.
  - now apply H32.
  - now apply H64.
Qed.
Lemma length_field_same a r n : 65536 < r < 2 ^ 127 -> r <> 2 ^ 32 -> r <> 2 ^ 64 ->
  small_range_bits a (octets r) n = small_range_bits a (xo (r - 1)) n.
Proof.
  intros Hr H32 H64. pose proof (xo_big r Hr) as HB. pose proof (octets_big_range r Hr) as HO. unfold small_range_bits.
  replace (octets r <? 256) with true by lia. replace (xo (r - 1) <? 256) with true by lia.
  now rewrite field_width_same.
Qed.
Lemma con_conforms lb ub v a e : lb <= v <= ub -> ub - lb + 1 < 2 ^ 127 -> (ub - lb + 1 <= 65536 \/ v <> lb) -> x_regular lb ub ->
  x_constrained lb ub v a e <-> e = con_bits a (ub - lb + 1) (v - lb).
Proof.
  intros Hv Hr Hx [H32 H64]. unfold con_bits. destruct (ub - lb + 1 <=? 65536) eqn:C.
  - rewrite x_con_small by lia. tauto.
  - rewrite x_con_long by lia. unfold x_long_bits.
    rewrite length_field_same by lia.
    assert (xo (v - lb) = octets (v - lb)) as -> by (pose proof (octets_pos (v - lb) ltac:(lia)); unfold xo; lia). tauto.
Qed.

Lemma reads_long E a lb ub x n : 0 <= x <= ub - lb -> - 2 ^ 127 <= lb -> ub < 2 ^ 127 ->
  65536 < ub - lb + 1 < 2 ^ 127 -> 1 <= n <= octets (ub - lb + 1) -> x < 2 ^ (8 * n) ->
  let l := small_range_bits a (octets (ub - lb + 1)) (n - 1) in
  reads (decode_constrained_whole_number E lb ub) a (l ++ pad (a + zlen l) ++ low_bits (Z.to_nat (8 * n)) x) (x + lb).
Proof.
  intros Hx Hl Hu Hr Hn HX. cbv zeta. unfold decode_constrained_whole_number. set (r := ub - lb + 1) in *.
  pose proof (octets_big_range r ltac:(lia)) as HO.
  cbn [decode_constrained_fuel].
  eapply reads_lift; [apply arith_i128_ok; lia|].
  eapply reads_lift; [apply arith_i128_ok; fold r; lia|].
  fold r. replace (r <=? 0) with false by lia.
  replace (r <? 256) with false by lia. replace (r =? 256) with false by lia. replace (r <=? 65536) with false by lia.
  rewrite bytes_needed_octets by lia. cbv zeta.
  apply reads_app_nil. eapply reads_bind with (v := x).
  - eapply reads_bind with (v := n).
    + eapply reads_lift; [apply arith_usize_ok; lia|].
      eapply reads_lift; [apply arith_usize_ok; lia|].
      replace (octets r - 1 + 1 <=? 65536) with true by lia.
      apply reads_app_nil. eapply reads_bind.
      * pose proof (reads_con_small E 0 a 1 (octets r) n ltac:(lia)) as R.
        replace (octets r - 1 + 1) with (octets r) in R by lia. apply R; lia.
      * rewrite wrap_u_small by lia. apply reads_ret.
    + eapply reads_bind; [apply reads_align|].
      eapply reads_lift; [apply arith_usize_ok; lia|].
      apply reads_uint_val; [rewrite zlen_low_bits; lia | lia | | lia].
      rewrite bits_val_low_bits, Z2Nat.id by lia. apply Z.mod_small. lia.
  - apply reads_lift_end. rewrite arith_i128_ok by lia. f_equal; lia.
Qed.
Lemma x_con_reads E lb ub v a e : i128 lb -> i128 ub -> ub - lb + 1 < 2 ^ 127 -> x_regular lb ub ->
  x_constrained lb ub v a e -> reads (decode_constrained_whole_number E lb ub) a e v.
Proof.
  unfold i128. intros Hl Hu Hr [H32 H64] H. pose proof (x_con_range _ _ _ _ _ H) as Hv.
  destruct (Z_le_dec (ub - lb + 1) 65536) as [C|C].
  - apply x_con_small in H; [|assumption]. destruct H as [_ ->]. apply reads_con_small; lia.
  - apply x_con_long in H; [|lia]. destruct H as [_ ->]. unfold x_long_bits. rewrite <- length_field_same by lia.
    assert (octets (ub - lb) <= octets (ub - lb + 1)) by (apply octets_mono; lia).
    pose proof (xo_mono (v - lb) (ub - lb) ltac:(lia)). pose proof (octets_big_range (ub - lb + 1) ltac:(lia)).
    assert (1 <= xo (v - lb) <= octets (ub - lb + 1)) as HN by (unfold xo in *; lia).
    pose proof (reads_long E a lb ub (v - lb) (xo (v - lb)) ltac:(lia) ltac:(lia) ltac:(lia) ltac:(lia) HN (xo_lt (v - lb) ltac:(lia))) as R.
    cbv zeta in R. replace (v - lb + lb) with v in R by lia. exact R.
Qed.

(* ---- lengths ---- *)
Lemma x_long_length_iff n a e : x_long_length n a e <-> 0 <= n < 16384 /\ e = indef_bits a n.
Proof.
  unfold indef_bits. split.
  - destruct 1 as [n a e Hn HF|n a e Hn HF]; (split; [lia|]); rewrite x_pad_pad; f_equal.
    + replace (n <? 128) with true by lia. cbn [app]. f_equal. apply (x_field_bits 7 _ _ HF).
    + replace (n <? 128) with false by lia. cbn [app]. do 2 f_equal. apply (x_field_bits 14 _ _ HF).
  - intros [Hn ->]. rewrite <- x_pad_pad. destruct (n <? 128) eqn:C.
    + apply (xl_short n a (low_bits 7 n)); [lia|]. apply (x_field_intro 7); [lia|]. change (2 ^ 7) with 128. lia.
    + apply (xl_medium n a (low_bits 14 n)); [lia|]. apply (x_field_intro 14); [lia|]. change (2 ^ 14) with 16384. lia.
Qed.
Lemma x_long_reads E n a e : x_long_length n a e -> reads (decode_indefinite_length_determinent E) a e n.
Proof. intros H. apply x_long_length_iff in H as [Hn ->]. now apply reads_indef. Qed.
Lemma x_length_ok lb ub n a e : size_sane lb ub -> x_length lb ub n a e -> length_ok lb ub false n /\ e = len_bits a lb ub false n.
Proof.
  intros [HL HU] H. unfold length_ok, len_bits.
  destruct H as [lb u n a e Hu HC|lb ub n a e HB Hlo Hhi H].
  - pose proof (x_con_range _ _ _ _ _ HC) as Hv.
    assert (0 <= x_lower lb <= n) by (destruct lb; cbn in *; lia).
    split.
    + split; [lia|]. split; [destruct lb; cbn in *; lia|lia].
    + replace (u <? 65536) with true by lia. unfold con_bits. change (opt0 lb) with (x_lower lb).
      replace (u - x_lower lb + 1 <=? 65536) with true by lia.
      apply x_con_small in HC; [|lia]. tauto.
  - apply x_long_length_iff in H as [Hn ->]. split.
    + split; [lia|]. split; [destruct lb; cbn in *; lia|]. destruct ub; [|lia]. lia.
    + destruct ub; [|reflexivity]. cbn in HB. now rewrite HB.
Qed.
Lemma len_conforms lb ub n a : size_sane lb ub -> length_ok lb ub false n -> x_length lb ub n a (len_bits a lb ub false n).
Proof.
  intros [HL HU] (H0 & H1 & H2). unfold len_bits. destruct ub as [u|].
  - destruct (u <? 65536) eqn:C.
    + apply xl_constrained; [lia|]. change (x_lower lb) with (opt0 lb).
      assert (0 <= opt0 lb <= n) by (destruct lb; cbn in *; lia).
      unfold con_bits. replace (u - opt0 lb + 1 <=? 65536) with true by lia.
      apply x_con_small; [lia|]. split; [lia|reflexivity].
    + apply xl_unbounded; [cbn; lia|destruct lb; cbn in *; lia|lia|]. apply x_long_length_iff. split; [lia|reflexivity].
  - apply xl_unbounded; [reflexivity|destruct lb; cbn in *; lia|exact I|]. apply x_long_length_iff. split; [lia|reflexivity].
Qed.
Lemma x_length_reads E lb ub n a e : size_sane lb ub -> x_length lb ub n a e -> reads (decode_length_determinent E lb ub false) a e n.
Proof. intros HS H. destruct (x_length_ok _ _ _ _ _ HS H) as [HO ->]. now apply reads_len. Qed.
Lemma small_conforms n a : 1 <= n < 16384 -> n <= 32 \/ 64 < n -> x_small_length n a (small_bits a n).
Proof.
  intros Hn Hd. unfold small_bits. destruct (n <=? 32) eqn:C.
  - apply xsl_small; [lia|]. apply (x_field_intro 6); [lia|]. change (2 ^ 6) with 64. lia.
  - apply xsl_large; [lia|]. apply x_long_length_iff. split; [lia|reflexivity].
Qed.
Lemma x_small_reads E n a e : x_small_length n a e -> reads (decode_normally_small_length_determinent E) a e n.
Proof.
  intros H. unfold decode_normally_small_length_determinent. destruct H as [n a e Hn HF|n a e Hn H].
  - change (false :: e) with ([false] ++ e). eapply reads_bind; [apply reads_bool|]. cbn [negb].
    destruct HF as [HL HV]. apply reads_app_nil. eapply reads_bind.
    + apply reads_uint_val with (v := n - 1); [lia|lia|assumption|lia].
    + apply reads_lift_end. rewrite wrap_u_small by lia. rewrite arith_usize_ok by lia. f_equal. lia.
  - change (true :: e) with ([true] ++ e). eapply reads_bind; [apply reads_bool|]. cbn [negb].
    change (zlen [true]) with 1. now apply x_long_reads.
Qed.

(* ---- semi-constrained and unconstrained ---- *)
Lemma x_unc_iff v a e : i128 v -> x_unconstrained v a e <-> e = unc_bits a v.
Proof.
  intros Hv. unfold unc_bits. pose proof (soctets_range v Hv) as HS. pose proof (soctets_fits v) as HF. split.
  - destruct 1 as [v a n e1 e2 HN HL HE]. apply x_signed_octets_iff in HN. subst n.
    apply x_long_length_iff in HL as [_ ->]. apply x_signed_iff in HE; [now subst|lia|assumption].
  - intros ->. eapply xu; [apply soctets_least|apply x_long_length_iff; split; [lia|reflexivity]|].
    apply x_signed_iff; [lia|assumption|reflexivity].
Qed.
Lemma x_semi_iff lb v a e : lb <= v -> v - lb < 2 ^ 127 ->
  x_semi_constrained lb v a e <-> e = indef_bits a (xo (v - lb)) ++ low_bits (Z.to_nat (8 * xo (v - lb))) (v - lb).
Proof.
  intros Hv HB. assert (1 <= xo (v - lb) <= 16) as HX.
  { unfold xo. pose proof (octets_le (v - lb) 16 ltac:(lia)) as Q. change (2 ^ (8 * 16)) with (2 * 2 ^ 127) in Q. lia. }
  split.
  - destruct 1 as [lb v a n e1 e2 Hv' HN HL HE]. apply x_octets_iff in HN; [subst n|lia].
    apply x_long_length_iff in HL as [_ ->]. f_equal. now apply x_field_bits.
  - intros ->. eapply xs; [lia|apply xo_least; lia|apply x_long_length_iff; split; [lia|reflexivity]|].
    apply x_field_intro; [lia|]. split; [lia|]. apply xo_lt; lia.
Qed.
Lemma x_semi_reads E lb v a e : i128 v -> v - lb < 2 ^ 127 -> x_semi_constrained lb v a e ->
  reads (decode_semi_constrained_whole_number E lb) a e v.
Proof.
  unfold i128. intros Hv HB H. assert (lb <= v) as Hlo by (destruct H; lia).
  apply x_semi_iff in H; [|assumption..]. subst e.
  assert (1 <= xo (v - lb) <= 16) as HX.
  { unfold xo. pose proof (octets_le (v - lb) 16 ltac:(lia)) as Q. change (2 ^ (8 * 16)) with (2 * 2 ^ 127) in Q. lia. }
  unfold decode_semi_constrained_whole_number. eapply reads_bind.
  - apply (reads_len E a None None false (xo (v - lb))). unfold length_ok. lia.
  - eapply reads_lift; [apply arith_usize_ok; lia|].
    apply reads_app_nil. eapply reads_bind.
    + apply reads_uint_val with (v := v - lb); [rewrite zlen_low_bits; lia | lia | | lia].
      rewrite bits_val_low_bits, Z2Nat.id by lia. apply Z.mod_small. split; [lia|]. apply xo_lt; lia.
    + apply reads_lift_end. rewrite arith_i128_ok by lia. f_equal. lia.
Qed.
(* The code uses one octet more than X.691 exactly when the top bit of the
   offset is the top bit of an octet. *)
Lemma soctets_xo x : 0 <= x -> soctets x = xo x + (if (0 <? x) && (bitlen x mod 8 =? 0) then 1 else 0).
Proof.
  intros H. unfold soctets, xo, octets. replace (x <? 0) with false by lia.
  assert (0 <= bitlen x) by (unfold bitlen; destruct (x <=? 0); [lia|pose proof (Z.log2_nonneg x); lia]).
  destruct (0 <? x) eqn:C; cbn [andb].
  - assert (1 <= bitlen x) by (unfold bitlen; replace (x <=? 0) with false by lia; pose proof (Z.log2_nonneg x); lia).
    destruct (bitlen x mod 8 =? 0) eqn:D; lia.
  - assert (x = 0) as -> by lia. reflexivity.
Qed.
Lemma top_bit_clear_soctets x : 0 <= x -> x_top_bit_clear x -> soctets x = xo x.
Proof.
  intros H HT. rewrite soctets_xo by assumption. destruct ((0 <? x) && (bitlen x mod 8 =? 0)) eqn:C; [exfalso|lia].
  assert (0 < x) by lia. assert (bitlen x mod 8 = 0) as M by lia. unfold bitlen in M. replace (x <=? 0) with false in M by lia.
  pose proof (Z.log2_spec x ltac:(lia)) as [L1 L2]. pose proof (Z.log2_nonneg x).
  apply (HT ((Z.log2 x + 1) / 8)); [lia|]. replace (8 * ((Z.log2 x + 1) / 8)) with (Z.log2 x + 1) by lia.
  replace (Z.log2 x + 1 - 1) with (Z.log2 x) by lia. unfold Z.succ in L2. lia.
Qed.
Lemma semi_conforms lb v a : lb <= v -> v - lb < 2 ^ 127 -> x_top_bit_clear (v - lb) ->
  x_semi_constrained lb v a (unc_bits a (v - lb)).
Proof.
  intros H1 H2 HT. apply x_semi_iff; [assumption..|]. unfold unc_bits. rewrite top_bit_clear_soctets by (assumption || lia). reflexivity.
Qed.
Lemma semi_deviates lb v a : lb <= v -> v - lb < 2 ^ 127 -> ~ x_top_bit_clear (v - lb) ->
  ~ x_semi_constrained lb v a (unc_bits a (v - lb)).
Proof.
  intros H1 H2 HT HX. apply HT. intros n Hn HR. apply x_semi_iff in HX; [|assumption..]. unfold unc_bits in HX.
  assert (0 < v - lb) by (assert (0 < 2 ^ (8 * n - 1)) by (apply Z.pow_pos_nonneg; lia); lia).
  assert (Z.log2 (v - lb) = 8 * n - 1) as HL.
  { apply Z.log2_unique; [lia|]. unfold Z.succ. replace (8 * n - 1 + 1) with (8 * n) by lia. lia. }
  assert (soctets (v - lb) = xo (v - lb) + 1) as Q.
  { rewrite soctets_xo by lia. unfold bitlen. replace (v - lb <=? 0) with false by lia. rewrite HL.
    replace ((0 <? v - lb) && ((8 * n - 1 + 1) mod 8 =? 0)) with true by lia. reflexivity. }
  rewrite Q in HX. apply (f_equal zlen) in HX. unfold indef_bits in HX.
  assert (1 <= xo (v - lb) <= 16) as HX2.
  { unfold xo. pose proof (octets_le (v - lb) 16 ltac:(lia)) as Q2. change (2 ^ (8 * 16)) with (2 * 2 ^ 127) in Q2. lia. }
  replace (xo (v - lb) + 1 <? 128) with true in HX by lia. replace (xo (v - lb) <? 128) with true in HX by lia.
  rewrite !zlen_app, !zlen_cons, !zlen_low_bits in HX. lia.
Qed.
Lemma x_nsnn_reads E v a e : v < 2 ^ 127 -> x_small_number v a e -> reads (decode_normally_small_non_negative_whole_number E) a e v.
Proof.
  intros Hv H. unfold decode_normally_small_non_negative_whole_number. destruct H as [v a e Hn HF|v a e Hn H].
  - change (false :: e) with ([false] ++ e). eapply reads_bind; [apply reads_bool|]. cbn [negb].
    destruct HF as [HL HV]. apply reads_uint_val; lia.
  - change (true :: e) with ([true] ++ e). eapply reads_bind; [apply reads_bool|]. cbn [negb]. change (zlen [true]) with 1.
    apply x_semi_reads; [unfold i128; lia|lia|assumption].
Qed.

(* ---- the calls ---- *)
Definition int_readable (lb ub : option Z) (v : Z) : Prop :=
  i128 v /\
  match lb, ub with
  | Some _, Some _ => True
  | Some l, None => v - l < 2 ^ 127
  | None, _ => readable_octets (soctets v)
  end.
Lemma x_root_int_reads E lb ub v a e : int_regular lb ub -> int_readable lb ub v -> x_root_integer lb ub v a e ->
  reads (match lb with
       | None => decode_unconstrained_whole_number E
       | Some l =>
         match ub with
         | None => decode_semi_constrained_whole_number E l
         | Some u => decode_constrained_whole_number E l u
         end
       end) a e v.
Proof.
  intros HR [Hv HD] H. destruct H as [l u v a e H|l v a e H|ub v a e H]; cbn in HR.
  - apply x_con_reads; tauto.
  - now apply x_semi_reads.
  - apply x_unc_iff in H; [|assumption]. subst e. destruct ub; now apply reads_unc.
Qed.
Lemma x_root_reads {A} E ext (P : Z -> list bool -> Prop) (f : bool -> M A) v a e :
  (forall a e, P a e -> reads (f false) a e v) -> x_root ext P a e -> reads (bind (decode_ext_bit E ext) f) a e v.
Proof.
  intros H HX. destruct HX as [a e -> HP|a e -> HP]; unfold decode_ext_bit.
  - change e with ([] ++ e). eapply reads_bind; [apply reads_ret|]. change (zlen (@nil bool)) with 0. rewrite Z.add_0_r. auto.
  - change (false :: e) with ([false] ++ e). eapply reads_bind; [apply reads_bool|]. change (zlen [false]) with 1. auto.
Qed.
Lemma x_int_reads E lb ub ext v a e : int_regular lb ub -> int_readable lb ub v ->
  x_root ext (x_root_integer lb ub v) a e -> reads (decode_integer E lb ub ext) a e (v, false).
Proof.
  intros HR HD. unfold decode_integer. apply x_root_reads. intros a' e' H.
  apply reads_app_nil. eapply (reads_bind _ _ _ _ _ v); [apply x_root_int_reads; assumption|apply reads_ret].
Qed.
Lemma x_int_ext_reads E lb ub v a e : i128 v -> readable_octets (soctets v) -> x_unconstrained v (a + 1) e ->
  reads (decode_integer E lb ub true) a (true :: e) (v, true).
Proof.
  intros Hv HD H. apply x_unc_iff in H; [|assumption]. subst e. unfold decode_integer, decode_ext_bit.
  change (true :: unc_bits (a + 1) v) with ([true] ++ unc_bits (a + 1) v).
  eapply reads_bind; [apply reads_bool|]. change (zlen [true]) with 1.
  apply reads_app_nil. apply (reads_bind _ _ _ _ _ v); [apply reads_unc; assumption|apply reads_ret].
Qed.
Lemma x_enum_reads E lb ub ext v a e : int_regular lb ub -> int_readable lb ub v ->
  x_root ext (x_root_integer lb ub v) a e -> reads (decode_enumerated E lb ub ext) a e (v, false).
Proof.
  intros HR HD. unfold decode_enumerated. apply x_root_reads. intros a' e' H. cbn [negb].
  apply reads_app_nil. apply (reads_bind _ _ _ _ _ v); [|apply reads_ret].
  apply reads_app_nil. apply (reads_bind _ _ _ _ _ (v, false)); [|apply reads_ret].
  apply x_int_reads; auto. now apply xr_plain.
Qed.
Lemma x_enum_ext_reads E lb ub v a e : v < 2 ^ 127 -> x_small_number v (a + 1) e ->
  reads (decode_enumerated E lb ub true) a (true :: e) (v, true).
Proof.
  intros Hv H. unfold decode_enumerated, decode_ext_bit. change (true :: e) with ([true] ++ e).
  eapply reads_bind; [apply reads_bool|]. change (zlen [true]) with 1. cbn [negb].
  apply reads_app_nil. apply (reads_bind _ _ _ _ _ v); [apply x_nsnn_reads; assumption|apply reads_ret].
Qed.
Lemma x_choice_reads E lb ub ext v a e : int_regular (Some lb) (Some ub) ->
  x_root ext (x_constrained lb ub v) a e -> reads (decode_choice_idx E lb ub ext) a e (v, false).
Proof.
  intros HR HX. cbn in HR.
  assert (forall a e, x_constrained lb ub v a e -> reads (decode_integer E (Some lb) (Some ub) false) a e (v, false)) as HI.
  { intros a' e' H'. pose proof (x_con_range _ _ _ _ _ H'). apply x_int_reads; auto.
    - unfold int_readable, i128 in *. lia.
    - apply xr_plain; [reflexivity|]. now constructor. }
  unfold decode_choice_idx. destruct HX as [a e -> HP|a e -> HP].
  - apply reads_app_nil. apply (reads_bind _ _ _ _ _ (v, false)); [apply HI; assumption|apply reads_ret].
  - change (false :: e) with ([false] ++ e). eapply reads_bind; [apply reads_bool|]. change (zlen [false]) with 1. cbn [negb].
    apply reads_app_nil. apply (reads_bind _ _ _ _ _ (v, false)); [apply HI; assumption|apply reads_ret].
Qed.
Lemma x_choice_ext_reads E lb ub v a e : v < 2 ^ 127 -> x_small_number v (a + 1) e ->
  reads (decode_choice_idx E lb ub true) a (true :: e) (v, true).
Proof.
  intros Hv H. unfold decode_choice_idx. change (true :: e) with ([true] ++ e).
  eapply reads_bind; [apply reads_bool|]. change (zlen [true]) with 1. cbn [negb].
  apply reads_app_nil. apply (reads_bind _ _ _ _ _ v); [apply x_nsnn_reads; assumption|apply reads_ret].
Qed.
Lemma x_seqhdr_ext_reads E n bm a : zlen bm = n -> reads (decode_sequence_header E true n) a (true :: bm) (bm, true).
Proof.
  intros H. unfold decode_sequence_header, decode_ext_bit. change (true :: bm) with ([true] ++ bm).
  eapply reads_bind; [apply reads_bool|]. apply reads_app_nil. apply (reads_bind _ _ _ _ _ bm); [|apply reads_ret].
  destruct (0 <? n) eqn:C; [now apply reads_bitvec|].
  assert (bm = []) as -> by (apply zlen_zero; pose proof (zlen_nonneg bm); lia). apply reads_ret.
Qed.

(* ---- strings ---- *)
Lemma reads_indef_fragment E a k e : 1 <= k <= 4 -> x_field 6 k e ->
  reads (decode_indefinite_length_determinent E) a (x_pad a ++ [true; true] ++ e) (k * 16384).
Proof.
  intros Hk [HL HV]. rewrite x_pad_pad. unfold decode_indefinite_length_determinent.
  eapply reads_bind; [apply reads_align|]. change ([true; true] ++ e) with ([true] ++ [true] ++ e).
  eapply reads_bind; [apply reads_bool|]. cbn [negb].
  apply reads_app_nil. eapply reads_bind.
  - eapply reads_bind; [apply reads_bool|]. cbn [negb]. apply reads_app_nil. eapply reads_bind.
    + apply reads_uint_val with (v := k); lia.
    + cbv beta. replace ((1 <=? k) && (k <=? 4)) with true by lia. cbn [negb].
      apply reads_lift_end. apply arith_i128_ok. lia.
  - rewrite to_usize_ok by lia. apply reads_ret.
Qed.
Lemma zero_fragment_rejected E a k e : (k = 0 \/ 4 < k) -> x_field 6 k e ->
  forall p s key, zlen p mod 8 = a mod 8 -> fits (p ++ (x_pad a ++ [true; true] ++ e) ++ s) ->
  fst (decode_indefinite_length_determinent E (mkD (p ++ (x_pad a ++ [true; true] ++ e) ++ s) (zlen p) key)) = Err.
Proof.
  intros Hk [HL HV] p s key Hp F. rewrite x_pad_pad in *. unfold decode_indefinite_length_determinent.
  unfold bind at 1.
  pose proof (reads_align a p (([true; true] ++ e) ++ s) key Hp) as R1.
  rewrite <- !app_assoc in *. rewrite R1 by assumption.
  unfold bind at 1.
  assert (forall (q : list bool) x t o, o = zlen q -> fits (q ++ [x] ++ t) -> data_decode_bool E (mkD (q ++ [x] ++ t) o key) = (Ok x, mkD (q ++ [x] ++ t) (o + 1) key)) as RB.
  { intros q x t o -> Fq. exact (reads_bool E (zlen q) x q t key eq_refl Fq). }
  replace (p ++ pad a ++ [true; true] ++ e ++ s) with ((p ++ pad a) ++ [true] ++ [true] ++ e ++ s) by now rewrite <- app_assoc.
  replace (p ++ pad a ++ [true; true] ++ e ++ s) with ((p ++ pad a) ++ [true] ++ [true] ++ e ++ s) in F by now rewrite <- app_assoc.
  rewrite RB by (assumption || now rewrite zlen_app). cbn [negb].
  unfold bind at 1. unfold bind at 1.
  replace ((p ++ pad a) ++ [true] ++ [true] ++ e ++ s) with ((p ++ pad a ++ [true]) ++ [true] ++ e ++ s) by now rewrite <- !app_assoc.
  replace ((p ++ pad a) ++ [true] ++ [true] ++ e ++ s) with ((p ++ pad a ++ [true]) ++ [true] ++ e ++ s) in F by now rewrite <- !app_assoc.
  rewrite RB by (assumption || (rewrite !zlen_app; change (zlen [true]) with 1; lia)). cbn [negb].
  unfold bind at 1.
  replace ((p ++ pad a ++ [true]) ++ [true] ++ e ++ s) with ((p ++ pad a ++ [true; true]) ++ e ++ s) by now rewrite <- !app_assoc.
  replace ((p ++ pad a ++ [true]) ++ [true] ++ e ++ s) with ((p ++ pad a ++ [true; true]) ++ e ++ s) in F by now rewrite <- !app_assoc.
  pose proof (reads_uint_val E 0 6 e k (eq_sym HL) ltac:(lia) HV ltac:(pose proof (bits_val_range e); rewrite HL in *; change (2 ^ 6) with 64 in *; lia)) as RU.
  specialize (RU (p ++ pad a ++ [true; true]) s key).
  assert (zlen p + zlen (pad a) + 1 + 1 = zlen (p ++ pad a ++ [true; true])) as -> by (rewrite !zlen_app; change (zlen [true; true]) with 2; lia).
  assert (zlen (p ++ pad a ++ [true; true]) mod 8 = 2) as HM.
  { rewrite !zlen_app, zlen_pad. change (zlen [true; true]) with 2. lia. }
  assert (reads (decode_bits_as_integer E 6 false) 2 e k) as RU2 by (apply reads_uint_val; try lia; pose proof (bits_val_range e); rewrite HL in *; change (2 ^ 6) with 64 in *; lia).
  rewrite (RU2 (p ++ pad a ++ [true; true]) s key) by (assumption || (rewrite HM; reflexivity)).
  cbv beta. replace ((1 <=? k) && (k <=? 4)) with false by lia. reflexivity.
Qed.

Lemma reads_loop_fuel_ge {A} (g : nat -> M A) a e v n : (n <= S (length e))%nat ->
  (forall f, (n <= f)%nat -> reads (g f) a e v) -> reads (bind loop_fuel g) a e v.
Proof.
  intros Hn H p s k Hp Hf. unfold bind, loop_fuel. cbn [bits]. apply H; auto. rewrite !app_length. lia.
Qed.

Lemma pad_nil b : b mod 8 = 0 -> pad b = [].
Proof. intros H. unfold pad. replace ((- b) mod 8) with 0 by lia. reflexivity. Qed.
Lemma if_pad_nil (c : bool) b : b mod 8 = 0 -> (if c then pad b else []) = [].
Proof. intros. destruct c; auto using pad_nil. Qed.
Lemma indef_aligned n a : 0 <= n < 16384 -> (a + zlen (indef_bits a n)) mod 8 = 0.
Proof.
  intros H. unfold indef_bits. rewrite zlen_app, zlen_pad. destruct (n <? 128); rewrite ?zlen_cons, zlen_low_bits; lia.
Qed.

Section Strings.
  Context {A : Type} (E : env) (ser : list A -> list bool) (get : Z -> M (list A)) (short : Z) (good : list A -> Prop).
  Context (loop : nat -> bool -> option Z -> option Z -> list A -> M (list A)).
  Hypothesis short_ok : 0 < short <= 16.
  Hypothesis loop_S : forall f x lb ub acc, loop (S f) x lb ub acc =
    (length <- decode_frag_length E x lb ub ;;
     acc' <- (if 0 <? length then (if short <? length then decode_align else ret tt) ;; piece <- get length ;; ret (acc ++ piece)
              else ret acc) ;;
     if 16384 <=? length then loop f x lb ub acc' else ret acc').
  Hypothesis get_reads : forall a l, good l -> reads (get (zlen l)) a (ser l) l.
  Hypothesis good_app : forall l1 l2, good (l1 ++ l2) -> good l1 /\ good l2.
  Hypothesis ser_nil : ser [] = [].

  Lemma reads_if_align (c : bool) a : (c = true -> True) -> reads (if c then decode_align else ret tt) a (if c then pad a else []) tt.
  Proof. intros _. destruct c; [apply reads_align|apply reads_ret]. Qed.

  (* one round of the loop *)
  Lemma loop_round f x lb ub acc a e1 l a2 e3 v : good l ->
    reads (decode_frag_length E x lb ub) a e1 (zlen l) ->
    (if 16384 <=? zlen l then reads (loop f x lb ub (acc ++ l)) a2 e3 v else v = acc ++ l /\ e3 = []) ->
    forall e2, e2 = (if short <? zlen l then pad (a + zlen e1) else []) ++ ser l ->
    a2 mod 8 = (a + zlen (e1 ++ e2)) mod 8 ->
    reads (loop (S f) x lb ub acc) a (e1 ++ e2 ++ e3) v.
  Proof.
    intros HG HL HN e2 He2 Ha2. rewrite loop_S. eapply reads_bind; [exact HL|].
    apply (reads_bind _ _ _ _ _ (acc ++ l)).
    - destruct (0 <? zlen l) eqn:C.
      + rewrite He2. eapply reads_bind; [now apply reads_if_align|].
        apply reads_app_nil. eapply reads_bind; [now apply get_reads|apply reads_ret].
      + assert (l = []) as -> by (apply zlen_zero; pose proof (zlen_nonneg l); lia).
        rewrite He2. change (zlen (@nil A)) with 0. replace (short <? 0) with false by lia. rewrite ser_nil, (app_nil_r acc). apply reads_ret.
    - destruct (16384 <=? zlen l).
      + eapply reads_cong; [|exact HN]. rewrite zlen_app in Ha2. lia.
      + destruct HN as [-> ->]. apply reads_ret.
  Qed.
  Lemma frag_unbounded x lb ub : (x = false -> size_sane lb ub /\ x_small_bound ub = false) ->
    forall a e n, reads (decode_indefinite_length_determinent E) a e n -> reads (decode_frag_length E x lb ub) a e n.
  Proof.
    intros H a e n R. unfold decode_frag_length. destruct x.
    - unfold decode_length_determinent. change e with ([] ++ e). eapply reads_bind; [apply reads_ret|].
      change (zlen (@nil bool)) with 0. now rewrite Z.add_0_r.
    - destruct (H eq_refl) as [[HL HU] HB]. unfold decode_length_determinent. change e with ([] ++ e).
      apply (reads_bind _ _ _ _ _ (opt0 lb)).
      + destruct lb; [rewrite to_usize_ok by lia|]; apply reads_ret.
      + change (zlen (@nil bool)) with 0. rewrite Z.add_0_r. destruct ub as [u|]; [|exact R].
        change e with ([] ++ e). eapply reads_bind.
        * rewrite to_usize_ok; [apply reads_ret|]. cbn in HB. lia.
        * cbn in HB. rewrite HB. change (zlen (@nil bool)) with 0. now rewrite Z.add_0_r.
  Qed.
  Lemma fragments_read x lb ub l a e : (x = false -> size_sane lb ub /\ x_small_bound ub = false) -> good l ->
    x_fragments ser l a e ->
    exists n, (n <= S (length e))%nat /\ forall f acc, (n <= f)%nat -> reads (loop f x lb ub acc) a e (acc ++ l).
  Proof.
    intros HX HG H. revert HG. induction H as [l a e HL|k l1 l2 a e1 e2 Hk HZ HF H IH]; intros HG.
    - exists 1%nat. split; [lia|]. intros [|f] acc Hf; [lia|].
      apply x_long_length_iff in HL as [Hn ->].
      rewrite <- (app_nil_r (indef_bits a (zlen l) ++ ser l)), <- app_assoc.
      apply (loop_round f x lb ub acc a (indef_bits a (zlen l)) l (a + zlen (indef_bits a (zlen l) ++ ser l))); auto.
      + apply frag_unbounded; [assumption|]. now apply reads_indef.
      + replace (16384 <=? zlen l) with false by lia. auto.
      + now rewrite if_pad_nil by now apply indef_aligned.
    - apply good_app in HG as [G1 G2]. destruct (IH G2) as (n & Hn & HR). exists (S n). split.
      { assert (1 <= length e1)%nat by (destruct HF as [HF _]; unfold zlen in HF; lia). rewrite !app_length. cbn [length]. lia. }
      intros [|f] acc Hf; [lia|].
      set (h := x_pad a ++ [true; true] ++ e1).
      replace (x_pad a ++ [true; true] ++ e1 ++ ser l1 ++ e2) with (h ++ ser l1 ++ e2) by (unfold h; now rewrite <- !app_assoc).
      assert ((a + zlen h) mod 8 = 0) as HA.
      { unfold h. rewrite x_pad_pad, !zlen_app, zlen_pad. destruct HF as [-> _]. change (zlen [true; true]) with 2. lia. }
      eapply (loop_round f x lb ub acc a h l1 _ e2 _ G1).
      + apply frag_unbounded; [assumption|]. rewrite HZ. unfold h. now apply reads_indef_fragment.
      + replace (16384 <=? zlen l1) with true by lia. rewrite app_assoc. apply HR. lia.
      + now rewrite if_pad_nil.
      + unfold h. now rewrite <- !app_assoc.
  Qed.

  Lemma frag_unbounded_fails x lb ub : (x = false -> size_sane lb ub /\ x_small_bound ub = false) ->
    forall a e, fails (decode_indefinite_length_determinent E) a e -> fails (decode_frag_length E x lb ub) a e.
  Proof.
    intros H a e R. unfold decode_frag_length. destruct x.
    - unfold decode_length_determinent. change e with ([] ++ e). eapply fails_bind; [apply reads_ret|].
      change (zlen (@nil bool)) with 0. now rewrite Z.add_0_r.
    - destruct (H eq_refl) as [[HL HU] HB]. unfold decode_length_determinent. change e with ([] ++ e).
      apply (fails_bind _ _ _ _ _ (opt0 lb)).
      + destruct lb; [rewrite to_usize_ok by lia|]; apply reads_ret.
      + change (zlen (@nil bool)) with 0. rewrite Z.add_0_r. destruct ub as [u|]; [|exact R].
        change e with ([] ++ e). eapply fails_bind.
        * rewrite to_usize_ok; [apply reads_ret|]. cbn in HB. lia.
        * cbn in HB. rewrite HB. change (zlen (@nil bool)) with 0. now rewrite Z.add_0_r.
  Qed.
  Lemma fails_cong {B} (m : M B) a a' e : a mod 8 = a' mod 8 -> fails m a e -> fails m a' e.
  Proof. intros H F p s k Hp. apply F. lia. Qed.
  Lemma bad_fragments_fail item x lb ub a e : (forall l, Forall item l -> good l) -> (x = false -> size_sane lb ub /\ x_small_bound ub = false) ->
    x_bad_fragments item ser a e ->
    exists n, (n <= S (length e))%nat /\ forall f acc, (n <= f)%nat -> fails (loop f x lb ub acc) a e.
  Proof.
    intros HI HX H. induction H as [k a e Hk HF|k l1 a e1 e2 Hk HG HZ HF H IH].
    - exists 1%nat. split; [lia|]. intros [|f] acc Hf; [lia|]. rewrite loop_S. apply fails_bind_l.
      apply frag_unbounded_fails; [assumption|]. intros p s key. now apply (zero_fragment_rejected E a k e).
    - destruct IH as (n & Hn & HR). exists (S n). split.
      { assert (1 <= length e1)%nat by (destruct HF as [HF _]; unfold zlen in HF; lia). rewrite !app_length. cbn [length]. lia. }
      intros [|f] acc Hf; [lia|].
      set (h := x_pad a ++ [true; true] ++ e1).
      replace (x_pad a ++ [true; true] ++ e1 ++ ser l1 ++ e2) with (h ++ (ser l1 ++ e2)) by (unfold h; now rewrite <- !app_assoc).
      assert ((a + zlen h) mod 8 = 0) as HA.
      { unfold h. rewrite x_pad_pad, !zlen_app, zlen_pad. destruct HF as [-> _]. change (zlen [true; true]) with 2. lia. }
      rewrite loop_S. eapply fails_bind.
      { apply frag_unbounded; [assumption|]. unfold h. now apply reads_indef_fragment. }
      eapply (fails_bind _ _ _ _ _ (acc ++ l1)).
      + replace (0 <? k * 16384) with true by lia. change (ser l1) with ([] ++ ser l1). eapply reads_bind.
        * replace (@nil bool) with (if short <? k * 16384 then pad (a + zlen h) else []) by now apply if_pad_nil. now apply reads_if_align.
        * apply reads_app_nil. eapply reads_bind; [|apply reads_ret]. rewrite <- HZ. apply get_reads. now apply HI.
      + replace (16384 <=? k * 16384) with true by lia.
        eapply fails_cong; [|apply HR; lia]. unfold h. rewrite <- Z.add_assoc, <- zlen_app, <- !app_assoc. reflexivity.
  Qed.
  Lemma bounded_aligned lb u n a e : u < 65536 -> 255 <= u - opt0 lb -> x_length lb (Some u) n a e -> (a + zlen e) mod 8 = 0.
  Proof.
    intros Hu HR H. inversion H; subst; [|cbn in *; lia].
    match goal with H : x_constrained _ _ _ _ _ |- _ => rename H into HC end. change (x_lower lb) with (opt0 lb) in HC.
    destruct (Z_le_dec (u - opt0 lb + 1) 65536) as [C|C].
    - apply x_con_small in HC; [|assumption]. destruct HC as [_ ->]. unfold small_range_bits.
      replace (u - opt0 lb + 1 <? 256) with false by lia.
      destruct (u - opt0 lb + 1 =? 256); rewrite zlen_app, zlen_pad, zlen_low_bits; lia.
    - inversion HC; subst; try lia.
      match goal with H : x_field _ _ _ |- _ => destruct H as [HF _] end.
      rewrite !zlen_app, x_pad_pad, zlen_pad. lia.
  Qed.
  Lemma single_length a lb u : x_lower lb = u -> u < 65536 -> x_length lb (Some u) u a [].
  Proof. intros <- H. apply xl_constrained; [assumption|]. apply xc_single. Qed.
  Lemma string_reads lb ub l a e : str_regular short lb ub l -> good l -> x_string ser short lb ub l a e ->
    reads (fuel <- loop_fuel ;; loop fuel false lb ub []) a e l.
  Proof.
    intros [HS HR] HG H.
    destruct H as [lb n l a HLo HZ Hn|lb n l a HLo HZ Hn|lb u l a e Hu Hlo HL N|lb u a e Hu Hlo HL|lb ub l a e HB H].
    - apply (reads_loop_fuel_ge _ _ _ _ 1); [lia|]. intros [|f] Hf; [lia|].
      replace (ser l) with ([] ++ ser l ++ []) by (cbn [app]; apply app_nil_r).
      apply (loop_round f false lb (Some n) [] a [] l (a + zlen ([] ++ ser l))); auto.
      + rewrite HZ. unfold decode_frag_length. apply x_length_reads; [assumption|]. apply single_length; [assumption|lia].
      + replace (16384 <=? zlen l) with false by lia. auto.
      + replace (short <? zlen l) with false by lia. reflexivity.
    - destruct HR as [HR _]; [lia|]. apply (reads_loop_fuel_ge _ _ _ _ 1); [lia|]. intros [|f] Hf; [lia|].
      replace (x_pad a ++ ser l) with ([] ++ (x_pad a ++ ser l) ++ []) by (cbn [app]; apply app_nil_r).
      apply (loop_round f false lb (Some n) [] a [] l (a + zlen ([] ++ x_pad a ++ ser l))); auto.
      + rewrite HZ. unfold decode_frag_length. apply x_length_reads; [assumption|]. apply single_length; [assumption|lia].
      + replace (16384 <=? zlen l) with false by lia. auto.
      + replace (short <? zlen l) with true by lia. change (zlen (@nil bool)) with 0. now rewrite Z.add_0_r, x_pad_pad.
    - apply (reads_loop_fuel_ge _ _ _ _ 1); [lia|]. intros [|f] Hf; [lia|].
      destruct HR as [HR1 HR2]; [lia|].
      replace (x_pad (a + zlen e) ++ ser l) with ((x_pad (a + zlen e) ++ ser l) ++ []) by apply app_nil_r.
      apply (loop_round f false lb (Some u) [] a e l (a + zlen (e ++ x_pad (a + zlen e) ++ ser l))); auto.
      + unfold decode_frag_length. now apply x_length_reads.
      + replace (16384 <=? zlen l) with false by lia. auto.
      + f_equal. rewrite x_pad_pad. destruct HR2 as [->|[Q|[Q|Q]]].
        * change (x_lower lb) with (opt0 lb) in Hlo. lia.
        * exfalso. apply N. now apply zlen_zero.
        * replace (short <? zlen l) with true by lia. reflexivity.
        * pose proof (bounded_aligned lb u (zlen l) a e Hu Q HL) as HA. rewrite if_pad_nil by assumption. now apply pad_nil.
    - apply (reads_loop_fuel_ge _ _ _ _ 1); [lia|]. intros [|f] Hf; [lia|].
      replace e with (e ++ [] ++ []) by apply app_nil_r.
      apply (loop_round f false lb (Some u) [] a e [] (a + zlen (e ++ []))); auto.
      + unfold decode_frag_length. now apply x_length_reads.
      + change (zlen (@nil A)) with 0. replace (16384 <=? 0) with false by lia. auto.
      + change (zlen (@nil A)) with 0. replace (short <? 0) with false by lia. now rewrite ser_nil.
    - destruct (fragments_read false lb ub l a e) as (n & Hn & HF); auto.
      apply (reads_loop_fuel_ge _ _ _ _ n); [assumption|]. intros f Hf. exact (HF f [] Hf).
  Qed.
  Lemma string_ext_reads lb ub l a e : good l -> x_fragments ser l a e ->
    reads (fuel <- loop_fuel ;; loop fuel true lb ub []) a e l.
  Proof.
    intros HG H. destruct (fragments_read true lb ub l a e) as (n & Hn & HF); auto; [discriminate|].
    apply (reads_loop_fuel_ge _ _ _ _ n); [assumption|]. intros f Hf. exact (HF f [] Hf).
  Qed.
  (* what the encoder writes *)
  Lemma string_conforms lb ub l a : str_regular short lb ub l -> length_ok lb ub false (zlen l) -> zlen l < 16384 ->
    x_string ser short lb ub l a
      (len_bits a lb ub false (zlen l) ++ (if short <? zlen l then pad (a + zlen (len_bits a lb ub false (zlen l))) else []) ++ ser l).
  Proof.
    intros [HS HR] HO HN. pose proof (len_conforms lb ub (zlen l) a HS HO) as HL. pose proof (zlen_nonneg l) as N0.
    destruct ub as [u|]; [destruct (Z_lt_dec u 65536) as [HB|HB]|].
    - destruct (HR HB) as [_ HD].
      destruct (Z.eq_dec (opt0 lb) u) as [Q|Q].
      + assert (zlen l = u) as HZ by (destruct HO as (_ & H1 & H2); destruct lb; cbn in *; lia).
        assert (len_bits a lb (Some u) false (zlen l) = []) as ->.
        { unfold len_bits. replace (u <? 65536) with true by lia. unfold con_bits.
          replace (u - opt0 lb + 1) with 1 by lia. reflexivity. }
        change (zlen (@nil bool)) with 0. rewrite Z.add_0_r. cbn [app]. destruct (short <? zlen l) eqn:C.
        * rewrite <- x_pad_pad. apply xt_fixed_long; [exact Q|lia|lia].
        * cbn [app]. apply xt_fixed_short; [exact Q|lia|lia].
      + remember (len_bits a lb (Some u) false (zlen l)) as h eqn:Hh. clear Hh.
        assert (x_lower lb < u) as Hlo by (destruct HO as (_ & H1 & H2); destruct lb; cbn in *; lia).
        destruct l as [|y l'].
        * change (zlen (@nil A)) with 0. replace (short <? 0) with false by lia. rewrite ser_nil, !app_nil_r. apply xt_bounded_empty; auto.
        * remember (y :: l') as l eqn:El. assert (zlen l <> 0) as NZ by (rewrite El, zlen_cons; pose proof (zlen_nonneg l'); lia).
          replace (if short <? zlen l then pad (a + zlen h) else []) with (x_pad (a + zlen h)).
          -- apply xt_bounded; [assumption|assumption|assumption|]. intros ->. discriminate.
          -- rewrite x_pad_pad. destruct HD as [D|[D|[D|D]]]; [lia|lia| |].
             ++ replace (short <? zlen l) with true by lia. reflexivity.
             ++ pose proof (bounded_aligned lb u (zlen l) a h HB D HL) as HA. rewrite if_pad_nil by assumption. now apply pad_nil.
    - assert (len_bits a lb (Some u) false (zlen l) = indef_bits a (zlen l)) as ->.
      { unfold len_bits. replace (u <? 65536) with false by lia. reflexivity. }
      rewrite if_pad_nil by (apply indef_aligned; lia). cbn [app]. apply xt_unbounded; [cbn; lia|]. apply xf_last.
      apply x_long_length_iff. split; [lia|reflexivity].
    - assert (len_bits a lb None false (zlen l) = indef_bits a (zlen l)) as -> by reflexivity.
      rewrite if_pad_nil by (apply indef_aligned; lia). cbn [app]. apply xt_unbounded; [reflexivity|]. apply xf_last.
      apply x_long_length_iff. split; [lia|reflexivity].
  Qed.
End Strings.

Lemma bitstring_loop_eq E f x lb ub acc : bitstring_loop (S f) E x lb ub acc =
    (length <- decode_frag_length E x lb ub ;;
     acc' <- (if 0 <? length then (if 16 <? length then decode_align else ret tt) ;; piece <- get_bitvec E length ;; ret (acc ++ piece)
              else ret acc) ;;
     if 16384 <=? length then bitstring_loop f E x lb ub acc' else ret acc').
Proof. reflexivity. Qed.
Lemma octetstring_loop_eq E f x lb ub acc : octetstring_loop (S f) E x lb ub acc =
    (length <- decode_frag_length E x lb ub ;;
     acc' <- (if 0 <? length then (if 2 <? length then decode_align else ret tt) ;; piece <- get_bytes E length ;; ret (acc ++ piece)
              else ret acc) ;;
     if 16384 <=? length then octetstring_loop f E x lb ub acc' else ret acc').
Proof. reflexivity. Qed.
Definition any_list {A} (l : list A) : Prop := True.

Lemma x_bitstring_reads E lb ub ext l a e : str_regular 16 lb ub l -> x_root ext (x_string bits_id 16 lb ub l) a e ->
  reads (decode_bitstring E lb ub ext) a e l.
Proof.
  intros HR. unfold decode_bitstring. apply x_root_reads. intros a' e' H.
  apply (string_reads E bits_id (get_bitvec E) 16 any_list (fun f => bitstring_loop f E)); try assumption; try (intros; apply bitstring_loop_eq); try easy.
  - intros a0 l0 _. now apply reads_bitvec.
Qed.
Lemma x_octetstring_reads E lb ub ext l a e : str_regular 2 lb ub l -> bytes_ok l -> x_root ext (x_string bytes_bits 2 lb ub l) a e ->
  reads (decode_octetstring E lb ub ext) a e l.
Proof.
  intros HR HB. unfold decode_octetstring. apply x_root_reads. intros a' e' H.
  apply (string_reads E bytes_bits (get_bytes E) 2 bytes_ok (fun f => octetstring_loop f E)); try assumption; try (intros; apply octetstring_loop_eq); try easy.
  - intros a0 l0 H0. now apply reads_bytes.
  - intros l1 l2 H0. now apply Forall_app in H0.
Qed.
Lemma x_bitstring_ext_reads E lb ub l a e : x_fragments bits_id l (a + 1) e ->
  reads (decode_bitstring E lb ub true) a (true :: e) l.
Proof.
  intros H. unfold decode_bitstring, decode_ext_bit. change (true :: e) with ([true] ++ e).
  eapply reads_bind; [apply reads_bool|].
  apply (string_ext_reads E bits_id (get_bitvec E) 16 any_list (fun f => bitstring_loop f E)); try assumption; try (intros; apply bitstring_loop_eq); try easy.
  - intros a0 l0 _. now apply reads_bitvec.
Qed.
Lemma x_octetstring_ext_reads E lb ub l a e : bytes_ok l -> x_fragments bytes_bits l (a + 1) e ->
  reads (decode_octetstring E lb ub true) a (true :: e) l.
Proof.
  intros HB H. unfold decode_octetstring, decode_ext_bit. change (true :: e) with ([true] ++ e).
  eapply reads_bind; [apply reads_bool|].
  apply (string_ext_reads E bytes_bits (get_bytes E) 2 bytes_ok (fun f => octetstring_loop f E)); try assumption; try (intros; apply octetstring_loop_eq); try easy.
  - intros a0 l0 H0. now apply reads_bytes.
  - intros l1 l2 H0. now apply Forall_app in H0.
Qed.
Lemma x_root_intro ext (P : Z -> list bool -> Prop) a e : P (a + zlen (ext_bits ext)) e -> x_root ext P a (ext_bits ext ++ e).
Proof.
  destruct ext; cbn [ext_bits app]; intros H.
  - now apply xr_marked.
  - apply xr_plain; [reflexivity|]. change (zlen (@nil bool)) with 0 in H. now rewrite Z.add_0_r in H.
Qed.
Lemma str_bits_split a lb ub ext n thr c : str_bits a lb ub ext n thr c =
  ext_bits ext ++ len_bits (a + zlen (ext_bits ext)) lb ub false n ++
    (if thr <? n then pad (a + zlen (ext_bits ext) + zlen (len_bits (a + zlen (ext_bits ext)) lb ub false n)) else []) ++ c.
Proof. unfold str_bits. cbv zeta. rewrite <- app_assoc, zlen_app, Z.add_assoc. reflexivity. Qed.
Definition release_env : env := {| overflow_checks := false; little_endian := true |}.
Lemma bitstring_conforms lb ub ext l a : str_regular 16 lb ub l -> length_ok lb ub false (zlen l) -> zlen l < 16384 ->
  x_root ext (x_string bits_id 16 lb ub l) a (str_bits a lb ub ext (zlen l) 16 l).
Proof.
  intros HR HO HN. rewrite str_bits_split. apply x_root_intro. 
  apply (string_conforms bits_id (get_bitvec release_env) 16 any_list); try assumption; try easy.
  intros a0 l0 _. now apply reads_bitvec.
Qed.
Lemma octetstring_conforms lb ub ext l a : str_regular 2 lb ub l -> length_ok lb ub false (zlen l) -> zlen l < 16384 ->
  x_root ext (x_string bytes_bits 2 lb ub l) a (str_bits a lb ub ext (zlen l) 2 (bytes_bits l)).
Proof.
  intros HR HO HN. rewrite str_bits_split. apply x_root_intro.
  apply (string_conforms bytes_bits (get_bytes release_env) 2 bytes_ok); try assumption; try easy.
  - intros a0 l0 H0. now apply reads_bytes.
  - intros l1 l2 H0. now apply Forall_app in H0.
Qed.

Lemma bitstring_bad_fails E lb ub a e : size_sane lb ub -> x_small_bound ub = false ->
  x_bad_fragments (fun _ => True) bits_id a e -> fails (decode_bitstring E lb ub false) a e.
Proof.
  intros HS HB H. destruct (bad_fragments_fail E bits_id (get_bitvec E) 16 any_list (fun f => bitstring_loop f E)) with (item := fun _ : bool => True) (x := false) (lb := lb) (ub := ub) (a := a) (e := e) as (n & Hn & HF);
    try assumption; try (intros; apply bitstring_loop_eq); try easy.
  { intros a0 l0 _. now apply reads_bitvec. }
  intros p s k Hp Hf. unfold decode_bitstring, decode_ext_bit, bind, ret, loop_fuel. cbn [bits].
  apply HF; [|assumption..]. rewrite !app_length. lia.
Qed.
Lemma octetstring_bad_fails E lb ub a e : size_sane lb ub -> x_small_bound ub = false ->
  x_bad_fragments (fun b => 0 <= b < 256) bytes_bits a e -> fails (decode_octetstring E lb ub false) a e.
Proof.
  intros HS HB H. destruct (bad_fragments_fail E bytes_bits (get_bytes E) 2 bytes_ok (fun f => octetstring_loop f E)) with (item := fun b : Z => 0 <= b < 256) (x := false) (lb := lb) (ub := ub) (a := a) (e := e) as (n & Hn & HF);
    try assumption; try (intros; apply octetstring_loop_eq); try easy.
  { intros a0 l0 H0. now apply reads_bytes. }
  { intros l1 l2 H0. now apply Forall_app in H0. }
  intros p s k Hp Hf. unfold decode_octetstring, decode_ext_bit, bind, ret, loop_fuel. cbn [bits].
  apply HF; [|assumption..]. rewrite !app_length. lia.
Qed.

(* ---- UTF-8 ---- *)
Ltac split_and := repeat match goal with H : _ && _ = true |- _ => apply andb_true_iff in H as [? ?] end.
Lemma utf8_text_cons c l : scalar_value c -> utf8_text l -> utf8_text (utf8_bytes c ++ l).
Proof. intros Hc (t & HF & ->). exists (c :: t). split; [now constructor|reflexivity]. Qed.
Lemma utf8_sound_fuel f : forall l, (length l <= f)%nat -> utf8_valid_fuel f l = true -> utf8_text l.
Proof.
  induction f as [|f IH]; intros l Hl HV.
  { destruct l; [|cbn in Hl; lia]. exists []. split; [constructor|reflexivity]. }
  destruct l as [|a r]; [exists []; split; [constructor|reflexivity]|].
  cbn [utf8_valid_fuel length] in *. unfold cont in HV.
  destruct ((0 <=? a) && (a <=? 0x7F)) eqn:C1.
  { change (a :: r) with ([a] ++ r). replace [a] with (utf8_bytes a) by (unfold utf8_bytes; replace (a <? 0x80) with true by lia; reflexivity).
    apply utf8_text_cons; [left; lia|]. apply IH; [lia|assumption]. }
  destruct ((0xC2 <=? a) && (a <=? 0xDF)) eqn:C2.
  { destruct r as [|b r]; [discriminate|]. split_and. cbn [length] in Hl.
    change (a :: b :: r) with ([a; b] ++ r).
    replace [a; b] with (utf8_bytes ((a - 0xC0) * 64 + (b - 0x80))).
    - apply utf8_text_cons; [left; lia|]. apply IH; [lia|assumption].
    - unfold utf8_bytes. replace ((a - 0xC0) * 64 + (b - 0x80) <? 0x80) with false by lia.
      replace ((a - 0xC0) * 64 + (b - 0x80) <? 0x800) with true by lia. repeat (f_equal; try lia). }
  destruct ((0xE0 <=? a) && (a <=? 0xEF)) eqn:C3.
  { destruct r as [|b [|c r]]; [discriminate..|]. split_and. cbn [length] in Hl.
    change (a :: b :: c :: r) with ([a; b; c] ++ r).
    assert (0x800 <= (a - 0xE0) * 4096 + (b - 0x80) * 64 + (c - 0x80)) by (destruct (a =? 0xE0) eqn:?; lia).
    replace [a; b; c] with (utf8_bytes ((a - 0xE0) * 4096 + (b - 0x80) * 64 + (c - 0x80))).
    - apply utf8_text_cons; [|apply IH; [lia|assumption]]. unfold scalar_value.
      destruct (a =? 0xED) eqn:?; lia.
    - unfold utf8_bytes. rewrite 2 (proj2 (Z.ltb_ge _ _)) by lia. rewrite (proj2 (Z.ltb_lt _ _)) by lia.
      repeat (f_equal; try lia). }
  destruct ((0xF0 <=? a) && (a <=? 0xF4)) eqn:C4; [|discriminate].
  destruct r as [|b [|c [|d r]]]; [discriminate..|]. split_and. cbn [length] in Hl.
  change (a :: b :: c :: d :: r) with ([a; b; c; d] ++ r).
  assert (0x10000 <= (a - 0xF0) * 262144 + (b - 0x80) * 4096 + (c - 0x80) * 64 + (d - 0x80)) by (destruct (a =? 0xF0) eqn:?; lia).
  replace [a; b; c; d] with (utf8_bytes ((a - 0xF0) * 262144 + (b - 0x80) * 4096 + (c - 0x80) * 64 + (d - 0x80))).
  - apply utf8_text_cons; [|apply IH; [lia|assumption]]. unfold scalar_value.
    destruct (a =? 0xF4) eqn:?; lia.
  - unfold utf8_bytes. rewrite 3 (proj2 (Z.ltb_ge _ _)) by lia. repeat (f_equal; try lia).
Qed.
Lemma utf8_valid_fuel_app f c l : scalar_value c -> utf8_valid_fuel (S f) (utf8_bytes c ++ l) = utf8_valid_fuel f l.
Proof.
  intros H. unfold scalar_value, utf8_bytes in *.
  destruct (c <? 0x80) eqn:C1; [|destruct (c <? 0x800) eqn:C2; [|destruct (c <? 0x10000) eqn:C3]]; cbn [app utf8_valid_fuel]; unfold cont.
  - replace ((0 <=? c) && (c <=? 127)) with true by lia. reflexivity.
  - replace ((0 <=? 192 + c / 64) && (192 + c / 64 <=? 127)) with false by lia.
    replace ((194 <=? 192 + c / 64) && (192 + c / 64 <=? 223)) with true by lia.
    replace ((128 <=? 128 + c mod 64) && (128 + c mod 64 <=? 191)) with true by lia. reflexivity.
  - replace ((0 <=? 224 + c / 4096) && (224 + c / 4096 <=? 127)) with false by lia.
    replace ((194 <=? 224 + c / 4096) && (224 + c / 4096 <=? 223)) with false by lia.
    replace ((224 <=? 224 + c / 4096) && (224 + c / 4096 <=? 239)) with true by lia.
    replace ((128 <=? 128 + c mod 64) && (128 + c mod 64 <=? 191)) with true by lia.
    replace ((128 <=? 128 + c / 64 mod 64) && (128 + c / 64 mod 64 <=? 191)) with true by lia.
    replace (if 224 + c / 4096 =? 224 then 160 <=? 128 + c / 64 mod 64 else true) with true by (destruct (224 + c / 4096 =? 224) eqn:?; lia).
    replace (if 224 + c / 4096 =? 237 then 128 + c / 64 mod 64 <=? 159 else true) with true by (destruct (224 + c / 4096 =? 237) eqn:?; lia).
    reflexivity.
  - replace ((0 <=? 240 + c / 262144) && (240 + c / 262144 <=? 127)) with false by lia.
    replace ((194 <=? 240 + c / 262144) && (240 + c / 262144 <=? 223)) with false by lia.
    replace ((224 <=? 240 + c / 262144) && (240 + c / 262144 <=? 239)) with false by lia.
    replace ((240 <=? 240 + c / 262144) && (240 + c / 262144 <=? 244)) with true by lia.
    replace ((128 <=? 128 + c mod 64) && (128 + c mod 64 <=? 191)) with true by lia.
    replace ((128 <=? 128 + c / 64 mod 64) && (128 + c / 64 mod 64 <=? 191)) with true by lia.
    replace ((128 <=? 128 + c / 4096 mod 64) && (128 + c / 4096 mod 64 <=? 191)) with true by lia.
    replace (if 240 + c / 262144 =? 240 then 144 <=? 128 + c / 4096 mod 64 else true) with true by (destruct (240 + c / 262144 =? 240) eqn:?; lia).
    replace (if 240 + c / 262144 =? 244 then 128 + c / 4096 mod 64 <=? 143 else true) with true by (destruct (240 + c / 262144 =? 244) eqn:?; lia).
    reflexivity.
Qed.
Lemma utf8_bytes_length c : (1 <= length (utf8_bytes c))%nat.
Proof. unfold utf8_bytes. destruct (c <? 128), (c <? 2048), (c <? 65536); cbn; lia. Qed.
Lemma utf8_complete_fuel t : Forall scalar_value t -> forall f, (length (flat_map utf8_bytes t) <= f)%nat ->
  utf8_valid_fuel f (flat_map utf8_bytes t) = true.
Proof.
  induction 1 as [|c t Hc Ht IH]; intros f Hf; [destruct f; reflexivity|].
  cbn [flat_map] in *. rewrite app_length in Hf. pose proof (utf8_bytes_length c). destruct f as [|f]; [lia|].
  rewrite utf8_valid_fuel_app by assumption. apply IH. lia.
Qed.
Lemma utf8_valid_iff l : utf8_valid l = true <-> utf8_text l.
Proof.
  split.
  - apply utf8_sound_fuel. lia.
  - intros (t & HF & ->). apply utf8_complete_fuel; [assumption|lia].
Qed.
