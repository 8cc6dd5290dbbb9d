(* Constrained, unconstrained and semi-constrained whole numbers; length
   determinants with bounds. *)
From Coq Require Import ZArith List Bool Lia.
From Coq Require Import ZifyBool ZifyNat ZifyN.
Require Import Verif.Base Verif.CodecModel Verif.BitLemmas Verif.Spec Verif.Combinators.
Require Import Verif.LengthProofs.
Import ListNotations.
Open Scope Z_scope.
Ltac Zify.zify_post_hook ::= Z.div_mod_to_equations.

(* number of octets of a non-negative number without leading zero octets *)
Definition octets (x : Z) : Z := (bitlen x + 7) / 8.

Lemma octets_nonneg x : 0 <= octets x.
Proof. unfold octets. pose proof (bitlen_nonneg x). lia. Qed.
Lemma octets_pos x : 0 < x -> 1 <= octets x.
Proof. intros. unfold octets. pose proof (bitlen_pos x H). lia. Qed.
Lemma octets_zero x : x <= 0 -> octets x = 0.
Proof. intros. unfold octets. now rewrite bitlen_zero. Qed.
Lemma octets_lt x : 0 <= x -> x < 2 ^ (8 * octets x).
Proof. intros. apply bitlen_le_lt; [assumption|]. unfold octets. lia. Qed.
Lemma octets_le x k : 0 <= k -> x < 2 ^ (8 * k) -> octets x <= k.
Proof. intros. unfold octets. pose proof (bitlen_lt x (8 * k) ltac:(lia) H0). lia. Qed.
Lemma octets_ge x k : 0 <= k -> 2 ^ (8 * k) <= x -> k + 1 <= octets x.
Proof.
  intros Hk Hx. destruct (Z_le_dec (k + 1) (octets x)); [assumption|].
  assert (x < 2 ^ (8 * octets x)).
  { apply octets_lt. pose proof (pow2_pos (8 * k) ltac:(lia)). lia. }
  assert (2 ^ (8 * octets x) <= 2 ^ (8 * k)) by (apply Z.pow_le_mono_r; lia). lia.
Qed.
Lemma octets_mono x y : x <= y -> octets x <= octets y.
Proof.
  intros. destruct (Z_le_dec x 0) as [H0|H0].
  - rewrite octets_zero by assumption. apply octets_nonneg.
  - apply octets_le; [apply octets_nonneg|]. pose proof (octets_lt y ltac:(lia)). lia.
Qed.

Lemma position_be_bytes n x :
  0 <= x < 2 ^ (8 * Z.of_nat n) ->
  position (fun b => negb (b =? 0)) (be_bytes n x)
  = if x =? 0 then None else Some (Z.to_nat (Z.of_nat n - octets x)).
Proof.
  induction n as [|n IH]; intros Hx.
  - replace x with 0 by (change (8 * Z.of_nat 0) with 0 in Hx; lia). reflexivity.
  - cbn [be_bytes position].
    assert (P : 2 ^ (8 * Z.of_nat (S n)) = 256 * 2 ^ (8 * Z.of_nat n)).
    { replace (8 * Z.of_nat (S n)) with (8 + 8 * Z.of_nat n) by lia.
      rewrite Z.pow_add_r by lia. reflexivity. }
    pose proof (pow2_pos (8 * Z.of_nat n) ltac:(lia)) as PP.
    assert (Hq : 0 <= x / 2 ^ (8 * Z.of_nat n) < 256).
    { split; [apply Z.div_pos; lia | apply Z.div_lt_upper_bound; lia]. }
    rewrite Z.mod_small by assumption.
    destruct (x / 2 ^ (8 * Z.of_nat n) =? 0) eqn:C; cbn [negb].
    + assert (Hs : x < 2 ^ (8 * Z.of_nat n)).
      { apply Z.eqb_eq in C. destruct (Z_lt_dec x (2 ^ (8 * Z.of_nat n))); [assumption|].
        assert (1 <= x / 2 ^ (8 * Z.of_nat n)) by (apply Z.div_le_lower_bound; lia). lia. }
      rewrite IH by lia. destruct (x =? 0) eqn:C0; [reflexivity|].
      cbn [option_map]. f_equal.
      pose proof (octets_le x (Z.of_nat n) ltac:(lia) Hs). lia.
    + assert (Hs : 2 ^ (8 * Z.of_nat n) <= x).
      { destruct (Z_lt_dec x (2 ^ (8 * Z.of_nat n))); [|lia].
        rewrite Z.div_small in C by lia. discriminate. }
      pose proof (octets_ge x (Z.of_nat n) ltac:(lia) Hs).
      assert (octets x <= Z.of_nat n + 1).
      { apply octets_le; [lia|]. replace (8 * (Z.of_nat n + 1)) with (8 * Z.of_nat (S n)) by lia. lia. }
      replace (x =? 0) with false by lia. f_equal. lia.
Qed.

Lemma bytes_needed_octets r : 0 < r < 2 ^ 127 -> bytes_needed_for_range r = octets r.
Proof.
  intros. unfold bytes_needed_for_range, leading_zeros128, octets.
  replace (r <? 0) with false by lia. pose proof (bitlen_nonneg r).
  replace (128 - (128 - bitlen r)) with (bitlen r) by lia.
  destruct (bitlen r mod 8 =? 0) eqn:C; lia.
Qed.

Lemma range_bits_bound r : 1 <= r <= 256 -> 0 <= dec_range_bits r <= 8 /\ r <= 2 ^ dec_range_bits r.
Proof.
  intros. unfold dec_range_bits.
  repeat match goal with |- context [if ?c then _ else _] => destruct c eqn:? end;
    (split; [lia | cbn; lia]).
Qed.

Lemma enc_table_small r : 1 <= r <= 255 -> enc_range_table r = Some (dec_range_bits r, false).
Proof.
  intros. unfold enc_range_table, dec_range_bits.
  repeat match goal with |- context [if ?c then _ else _] => destruct c eqn:? end;
    try reflexivity; exfalso; lia.
Qed.

(* Bits written for x = value - lb in a range of size r, starting at a. *)
Definition small_range_bits (a r x : Z) : list bool :=
  if r <? 256 then low_bits (Z.to_nat (dec_range_bits r)) x
  else if r =? 256 then pad a ++ low_bits 8 x
  else pad a ++ low_bits 16 x.
Definition con_bits (a r x : Z) : list bool :=
  if r <=? 65536 then small_range_bits a r x
  else
    let l := small_range_bits a (octets r) (octets x - 1) in
    l ++ pad (a + zlen l) ++ low_bits (Z.to_nat (8 * octets x)) x.

Lemma skipn_low_bits8 n x : 0 <= n <= 8 ->
  skipn (Z.to_nat (8 - n)) (low_bits 8 (wrap_u 8 x)) = low_bits (Z.to_nat n) x.
Proof.
  intros. replace (Z.to_nat (8 - n)) with (8 - Z.to_nat n)%nat by lia.
  rewrite low_bits_skipn by lia. unfold wrap_u. apply low_bits_mod. lia.
Qed.

Lemma writes_con_small E f a lb ub v :
  lb <= v <= ub -> - 2 ^ 127 <= lb -> ub < 2 ^ 127 -> ub - lb + 1 <= 65536 ->
  writes (encode_constrained_fuel (S f) E lb ub v) a (small_range_bits a (ub - lb + 1) (v - lb)).
Proof.
  intros Hv Hl Hu Hr. cbn [encode_constrained_fuel].
  replace (v <? lb) with false by lia. replace (ub <? v) with false by lia.
  eapply writes_lift; [apply arith_i128_ok; lia|].
  eapply writes_lift; [apply arith_i128_ok; lia|].
  eapply writes_lift; [apply arith_i128_ok; lia|].
  unfold small_range_bits.
  destruct (ub - lb + 1 <=? 256) eqn:C256.
  - destruct (ub - lb + 1 =? 256) eqn:C.
    + replace (ub - lb + 1 <? 256) with false by lia.
      replace (ub - lb + 1) with 256 by lia.
      cbn [enc_range_table Z.eqb Pos.eqb Z.leb Z.compare Pos.compare Pos.compare_cont andb].
      apply writes_bind; [apply writes_align|].
      eapply writes_eq; [apply writes_append|]. now rewrite skipn_low_bits8 by lia.
    + replace (ub - lb + 1 <? 256) with true by lia.
      rewrite enc_table_small by lia.
      pose proof (range_bits_bound (ub - lb + 1) ltac:(lia)).
      match goal with |- writes _ _ ?e => change e with ([] ++ e) end.
      apply writes_bind; [apply writes_ret|].
      eapply writes_eq; [apply writes_append|]. now rewrite skipn_low_bits8 by lia.
  - replace (ub - lb + 1 <=? 65536) with true by lia.
    replace (ub - lb + 1 <? 256) with false by lia.
    replace (ub - lb + 1 =? 256) with false by lia.
    apply writes_bind; [apply writes_align|].
    eapply writes_eq; [apply writes_append|].
    rewrite bytes_bits_be_bytes. change (8 * 2)%nat with 16%nat.
    unfold wrap_u. apply low_bits_mod. lia.
Qed.

Lemma octets_big_range r : 65536 < r < 2 ^ 127 -> 3 <= octets r <= 16.
Proof.
  intros. split.
  - apply (octets_ge r 2); [lia|]. change (2 ^ (8 * 2)) with 65536. lia.
  - apply octets_le; [lia|]. change (8 * 16) with 128.
    assert (2 ^ 127 < 2 ^ 128) by (apply Z.pow_lt_mono_r; lia). lia.
Qed.

Lemma writes_con E a lb ub v :
  lb <= v <= ub -> - 2 ^ 127 <= lb -> ub < 2 ^ 127 -> ub - lb + 1 < 2 ^ 127 ->
  (ub - lb + 1 <= 65536 \/ v <> lb) ->
  writes (encode_constrained_whole_number E lb ub v) a (con_bits a (ub - lb + 1) (v - lb)).
Proof.
  intros Hv Hl Hu Hr Hx. unfold encode_constrained_whole_number, con_bits.
  destruct (ub - lb + 1 <=? 65536) eqn:C.
  { apply writes_con_small; lia. }
  destruct Hx as [Hx|Hx]; [lia|].
  cbv zeta. set (r := ub - lb + 1) in *. set (x := v - lb).
  assert (Hx0 : 0 < x < r) by (unfold x, r; lia).
  pose proof (octets_big_range r ltac:(lia)) as HO.
  assert (HOx : 1 <= octets x <= octets r).
  { split; [apply octets_pos; lia | apply octets_mono; lia]. }
  cbn [encode_constrained_fuel].
  replace (v <? lb) with false by lia. replace (ub <? v) with false by lia.
  eapply writes_lift; [apply arith_i128_ok; lia|].
  eapply writes_lift; [apply arith_i128_ok; fold r; lia|].
  eapply writes_lift; [apply arith_i128_ok; lia|].
  fold r x. replace (r <=? 256) with false by lia. rewrite C.
  rewrite bytes_needed_octets by lia.
  assert (Hp : 2 ^ 127 < 2 ^ (8 * Z.of_nat 16)) by (apply Z.pow_lt_mono_r; lia).
  rewrite position_be_bytes by lia.
  replace (x =? 0) with false by lia.
  rewrite Z2Nat.id by lia.
  replace (16 - (Z.of_nat 16 - octets x)) with (octets x) by lia.
  apply writes_bind.
  { pose proof (writes_con_small E 0 a 1 (octets r) (octets x) ltac:(lia)) as W.
    replace (octets r - 1 + 1) with (octets r) in W by lia. apply W; lia. }
  apply writes_bind; [apply writes_align|].
  eapply writes_eq; [apply writes_append|].
  replace (Z.to_nat (Z.of_nat 16 - octets x)) with (16 - Z.to_nat (octets x))%nat by lia.
  rewrite skipn_be_bytes by lia. rewrite bytes_bits_be_bytes. f_equal. lia.
Qed.

Lemma reads_small_range E a r x :
  0 <= x < r -> r <= 65536 ->
  reads (if r <? 256 then decode_bits_as_integer E (dec_range_bits r) false
         else if r =? 256 then decode_align ;; decode_bits_as_integer E 8 false
         else if r <=? 65536 then decode_align ;; decode_bits_as_integer E 16 false
         else err) a (small_range_bits a r x) x.
Proof.
  intros Hx Hr. unfold small_range_bits. destruct (r <? 256) eqn:C.
  - pose proof (range_bits_bound r ltac:(lia)) as [B1 B2].
    apply reads_uint_val; [rewrite zlen_low_bits; lia | lia | | lia].
    rewrite bits_val_low_bits, Z2Nat.id by lia. apply Z.mod_small. lia.
  - destruct (r =? 256) eqn:C2.
    + eapply reads_bind; [apply reads_align|].
      apply reads_uint_val; [rewrite zlen_low_bits; lia | lia | | lia].
      rewrite bits_val_low_bits. apply Z.mod_small. change (2 ^ Z.of_nat 8) with 256. lia.
    + replace (r <=? 65536) with true by lia.
      eapply reads_bind; [apply reads_align|].
      apply reads_uint_val; [rewrite zlen_low_bits; lia | lia | | lia].
      rewrite bits_val_low_bits. apply Z.mod_small. change (2 ^ Z.of_nat 16) with 65536. lia.
Qed.

Lemma reads_con_small E f a lb ub v :
  lb <= v <= ub -> - 2 ^ 127 <= lb -> ub < 2 ^ 127 -> ub - lb + 1 <= 65536 ->
  reads (decode_constrained_fuel (S f) E lb ub) a (small_range_bits a (ub - lb + 1) (v - lb)) v.
Proof.
  intros Hv Hl Hu Hr. cbn [decode_constrained_fuel].
  eapply reads_lift; [apply arith_i128_ok; lia|].
  eapply reads_lift; [apply arith_i128_ok; lia|].
  replace (ub - lb + 1 <=? 0) with false by lia.
  apply reads_app_nil. eapply reads_bind.
  - pose proof (reads_small_range E a (ub - lb + 1) (v - lb) ltac:(lia) ltac:(lia)) as R.
    destruct (ub - lb + 1 <? 256); [exact R|].
    destruct (ub - lb + 1 =? 256); [exact R|].
    destruct (ub - lb + 1 <=? 65536) eqn:C; [exact R | lia].
  - apply reads_lift_end. rewrite arith_i128_ok by lia. f_equal; lia.
Qed.

Lemma reads_con E a lb ub v :
  lb <= v <= ub -> - 2 ^ 127 <= lb -> ub < 2 ^ 127 -> ub - lb + 1 < 2 ^ 127 ->
  (ub - lb + 1 <= 65536 \/ v <> lb) ->
  reads (decode_constrained_whole_number E lb ub) a (con_bits a (ub - lb + 1) (v - lb)) v.
Proof.
  intros Hv Hl Hu Hr Hx. unfold decode_constrained_whole_number, con_bits.
  destruct (ub - lb + 1 <=? 65536) eqn:C.
  { apply reads_con_small; lia. }
  destruct Hx as [Hx|Hx]; [lia|].
  cbv zeta. set (r := ub - lb + 1) in *. set (x := v - lb).
  assert (Hx0 : 0 < x < r) by (unfold x, r; lia).
  pose proof (octets_big_range r ltac:(lia)) as HO.
  assert (HOx : 1 <= octets x <= octets r).
  { split; [apply octets_pos; lia | apply octets_mono; lia]. }
  cbn [decode_constrained_fuel].
  eapply reads_lift; [apply arith_i128_ok; lia|].
  eapply reads_lift; [apply arith_i128_ok; fold r; lia|].
  fold r. replace (r <=? 0) with false by lia.
  replace (r <? 256) with false by lia. replace (r =? 256) with false by lia. rewrite C.
  rewrite bytes_needed_octets by lia. cbv zeta.
  apply reads_app_nil. eapply reads_bind with (v := x).
  - eapply reads_bind with (v := octets x).
    + eapply reads_lift; [apply arith_usize_ok; lia|].
      eapply reads_lift; [apply arith_usize_ok; lia|].
      replace (octets r - 1 + 1 <=? 65536) with true by lia.
      apply reads_app_nil. eapply reads_bind.
      * pose proof (reads_con_small E 0 a 1 (octets r) (octets x) ltac:(lia)) as R.
        replace (octets r - 1 + 1) with (octets r) in R by lia. apply R; lia.
      * rewrite wrap_u_small by lia. apply reads_ret.
    + eapply reads_bind; [apply reads_align|].
      eapply reads_lift; [apply arith_usize_ok; lia|].
      apply reads_uint_val; [rewrite zlen_low_bits; lia | lia | | lia].
      rewrite bits_val_low_bits, Z2Nat.id by lia. apply Z.mod_small.
      split; [lia|]. apply octets_lt. lia.
  - apply reads_lift_end. rewrite arith_i128_ok by lia. f_equal; lia.
Qed.

(* ---- length determinants with bounds ---- *)
(* Lengths for which an encoder with these parameters succeeds. *)
Definition length_ok (lb ub : option Z) (ns : bool) (n : Z) : Prop :=
  if ns then 1 <= n < 16384
  else
    0 <= n /\
    match lb with Some l => 0 <= l < 2 ^ 64 /\ l <= n | None => True end /\
    match ub with
    | Some u => n <= u < 2 ^ 64 /\ (u < 65536 \/ n < 16384)
    | None => n < 16384
    end.

Definition len_bits (a : Z) (lb ub : option Z) (ns : bool) (n : Z) : list bool :=
  if ns then small_bits a n
  else
    match ub with
    | Some u => if u <? 65536 then con_bits a (u - opt0 lb + 1) (n - opt0 lb) else indef_bits a n
    | None => indef_bits a n
    end.

Lemma writes_len E a lb ub ns n :
  length_ok lb ub ns n -> writes (encode_length_determinent E lb ub ns n) a (len_bits a lb ub ns n).
Proof.
  unfold length_ok, encode_length_determinent, len_bits. destruct ns.
  { intros. now apply writes_small. }
  intros (Hn & Hl & Hu). cbv zeta.
  assert (P : 2 ^ 64 < 2 ^ 127) by (apply Z.pow_lt_mono_r; lia).
  destruct ub as [u|].
  - destruct (u <? 65536) eqn:C.
    + change (match lb with Some l => l | None => 0 end) with (opt0 lb).
      apply writes_con; destruct lb; cbn [opt0]; lia.
    + rewrite wrap_u_small by lia. replace (u <? n) with false by lia.
      destruct lb as [l|].
      * rewrite wrap_u_small by lia. replace (n <? l) with false by lia.
        apply writes_indef. lia.
      * apply writes_indef. lia.
  - destruct lb as [l|].
    + rewrite wrap_u_small by lia. replace (n <? l) with false by lia.
      apply writes_indef. lia.
    + apply writes_indef. lia.
Qed.

Lemma reads_len E a lb ub ns n :
  length_ok lb ub ns n -> reads (decode_length_determinent E lb ub ns) a (len_bits a lb ub ns n) n.
Proof.
  unfold length_ok, decode_length_determinent, len_bits. destruct ns.
  { intros. now apply reads_small. }
  intros (Hn & Hl & Hu).
  assert (P : 2 ^ 64 < 2 ^ 127) by (apply Z.pow_lt_mono_r; lia).
  match goal with |- reads _ _ ?e _ => change e with ([] ++ e) end.
  assert (Hlo : reads (match lb with Some l => to_usize l | None => ret 0 end) a [] (opt0 lb)).
  { destruct lb as [l|]; cbn [opt0]; [rewrite to_usize_ok by lia|]; apply reads_ret. }
  assert (Hl' : 0 <= opt0 lb <= n) by (destruct lb; cbn [opt0]; lia).
  eapply reads_bind; [exact Hlo|]. rewrite zlen_nil, Z.add_0_r.
  destruct ub as [u|].
  - match goal with |- reads _ _ ?e _ => change e with ([] ++ e) end.
    eapply reads_bind; [rewrite to_usize_ok by lia; apply reads_ret|].
    rewrite zlen_nil, Z.add_0_r.
    destruct (u <? 65536) eqn:C.
    + destruct (opt0 lb =? u) eqn:C2.
      * replace n with u by lia. replace (opt0 lb) with u by lia.
        replace (u - u + 1) with 1 by lia. replace (u - u) with 0 by lia. apply reads_ret.
      * unfold decode_constrained_length_determinent.
        eapply reads_lift; [apply arith_usize_ok; lia|].
        eapply reads_lift; [apply arith_usize_ok; lia|].
        replace (u - opt0 lb + 1 <=? 65536) with true by lia.
        apply reads_app_nil. eapply reads_bind; [apply reads_con; lia|].
        rewrite wrap_u_small by lia. apply reads_ret.
    + apply reads_indef. lia.
  - apply reads_indef. lia.
Qed.

(* ---- unconstrained ---- *)
(* Minimal number of octets of the two's complement form. *)
Definition soctets (v : Z) : Z := (if v <? 0 then bitlen (- v - 1) else bitlen v) / 8 + 1.

Lemma soctets_range v : - 2 ^ 127 <= v < 2 ^ 127 -> 1 <= soctets v <= 16.
Proof.
  intros. unfold soctets. destruct (v <? 0) eqn:C.
  - pose proof (bitlen_nonneg (- v - 1)). pose proof (bitlen_lt (- v - 1) 127 ltac:(lia) ltac:(lia)). lia.
  - pose proof (bitlen_nonneg v). pose proof (bitlen_lt v 127 ltac:(lia) ltac:(lia)). lia.
Qed.

Lemma soctets_fits v : - 2 ^ (8 * soctets v - 1) <= v < 2 ^ (8 * soctets v - 1).
Proof.
  unfold soctets. destruct (v <? 0) eqn:C.
  - pose proof (bitlen_nonneg (- v - 1)).
    assert (- v - 1 < 2 ^ (8 * (bitlen (- v - 1) / 8 + 1) - 1)) by (apply bitlen_le_lt; lia).
    pose proof (pow2_pos (8 * (bitlen (- v - 1) / 8 + 1) - 1) ltac:(lia)). lia.
  - pose proof (bitlen_nonneg v).
    assert (v < 2 ^ (8 * (bitlen v / 8 + 1) - 1)) by (apply bitlen_le_lt; lia).
    pose proof (pow2_pos (8 * (bitlen v / 8 + 1) - 1) ltac:(lia)). lia.
Qed.

Definition unc_bits (a v : Z) : list bool :=
  indef_bits a (soctets v) ++ low_bits (Z.to_nat (8 * soctets v)) v.

Lemma writes_unc E a v :
  - 2 ^ 127 <= v < 2 ^ 127 -> writes (encode_unconstrained_whole_number E v) a (unc_bits a v).
Proof.
  intros Hv. unfold encode_unconstrained_whole_number, unc_bits. cbv zeta.
  pose proof (soctets_range v Hv) as HS.
  set (lead := if v <? 0 then leading_ones128 v else leading_zeros128 v).
  assert (HB : (if lead mod 8 =? 0 then 16 - lead / 8 + 1 else 16 - lead / 8) = soctets v).
  { unfold lead, leading_ones128, leading_zeros128, soctets in *.
    destruct (v <? 0) eqn:C.
    - pose proof (bitlen_nonneg (- v - 1)).
      match goal with |- context [if ?c then _ else _] => destruct c eqn:? end; lia.
    - pose proof (bitlen_nonneg v).
      match goal with |- context [if ?c then _ else _] => destruct c eqn:? end; lia. }
  rewrite HB. apply writes_bind.
  - apply (writes_len E a None None false). unfold length_ok. lia.
  - eapply writes_eq; [apply writes_append|].
    replace (Z.to_nat (16 - soctets v)) with (16 - Z.to_nat (soctets v))%nat by lia.
    rewrite skipn_be_bytes by lia. rewrite bytes_bits_be_bytes. f_equal. lia.
Qed.

(* Octet counts the signed reader supports. *)
Definition readable_octets (n : Z) : Prop := 1 <= n <= 8 \/ n = 16.

Lemma reads_unc E a v :
  - 2 ^ 127 <= v < 2 ^ 127 -> readable_octets (soctets v) ->
  reads (decode_unconstrained_whole_number E) a (unc_bits a v) v.
Proof.
  intros Hv HR. unfold decode_unconstrained_whole_number, unc_bits.
  pose proof (soctets_range v Hv) as HS.
  eapply reads_bind.
  - apply (reads_len E a None None false (soctets v)). unfold length_ok. lia.
  - eapply reads_lift; [apply arith_usize_ok; lia|].
    replace (soctets v * 8) with (Z.of_nat (Z.to_nat (8 * soctets v))) by lia.
    pose proof (soctets_fits v).
    apply reads_sint_val; rewrite Z2Nat.id by lia.
    + unfold signed_width, readable_octets in *. lia.
    + assumption.
Qed.

(* ---- semi-constrained ---- *)
Lemma reads_unc_unsigned E a x lb :
  0 <= x < 2 ^ 127 -> - 2 ^ 127 <= x + lb < 2 ^ 127 ->
  reads (decode_semi_constrained_whole_number E lb) a (unc_bits a x) (x + lb).
Proof.
  intros Hx Hs. unfold decode_semi_constrained_whole_number, unc_bits.
  pose proof (soctets_range x ltac:(lia)) as HS.
  eapply reads_bind.
  - apply (reads_len E a None None false (soctets x)). unfold length_ok. lia.
  - eapply reads_lift; [apply arith_usize_ok; lia|].
    apply reads_app_nil. eapply reads_bind.
    + apply reads_uint_val with (v := x); [rewrite zlen_low_bits; lia | lia | | lia].
      rewrite bits_val_low_bits, Z2Nat.id by lia. apply Z.mod_small.
      split; [lia|]. pose proof (soctets_fits x) as SF.
      assert (2 ^ (8 * soctets x - 1) <= 2 ^ (8 * soctets x)) by (apply Z.pow_le_mono_r; lia). lia.
    + apply reads_lift_end. apply arith_i128_ok. lia.
Qed.

Lemma writes_semi E a lb v :
  lb <= v -> v - lb < 2 ^ 127 ->
  writes (encode_semi_constrained_whole_number E lb v) a (unc_bits a (v - lb)).
Proof.
  intros. unfold encode_semi_constrained_whole_number.
  replace (v <? lb) with false by lia.
  eapply writes_lift; [apply arith_i128_ok; lia|]. apply writes_unc. lia.
Qed.

Lemma reads_semi E a lb v :
  lb <= v -> v - lb < 2 ^ 127 -> - 2 ^ 127 <= v < 2 ^ 127 ->
  reads (decode_semi_constrained_whole_number E lb) a (unc_bits a (v - lb)) v.
Proof.
  intros. pose proof (reads_unc_unsigned E a (v - lb) lb ltac:(lia) ltac:(lia)) as R.
  replace (v - lb + lb) with v in R by lia. exact R.
Qed.

(* ---- extension bit ---- *)
Definition ext_bits (ext : bool) : list bool := if ext then [false] else [].
Lemma writes_ext ext a : writes (encode_ext_bit ext) a (ext_bits ext).
Proof. destruct ext; [apply writes_append | apply writes_ret]. Qed.
Lemma reads_ext E ext a : reads (decode_ext_bit E ext) a (ext_bits ext) false.
Proof. destruct ext; [apply reads_bool | apply reads_ret]. Qed.

(* ---- encode_integer / decode_integer ---- *)
(* Values of an INTEGER with these bounds that survive a round trip. *)
Definition int_ok (lb ub : option Z) (v : Z) : Prop :=
  i128 v /\
  match lb, ub with
  | None, _ => readable_octets (soctets v)
  | Some l, None => l <= v /\ v - l < 2 ^ 127
  | Some l, Some u =>
      i128 l /\ i128 u /\ l <= v <= u /\ u - l + 1 < 2 ^ 127
      /\ (u - l + 1 <= 65536 \/ v <> l)
  end.

Definition int_bits (a : Z) (lb ub : option Z) (v : Z) : list bool :=
  match lb, ub with
  | None, _ => unc_bits a v
  | Some l, None => unc_bits a (v - l)
  | Some l, Some u => con_bits a (u - l + 1) (v - l)
  end.

Lemma writes_int E a lb ub ext v :
  int_ok lb ub v ->
  writes (encode_integer E lb ub ext v false) a
         (ext_bits ext ++ int_bits (a + zlen (ext_bits ext)) lb ub v).
Proof.
  intros [Hv H]. unfold encode_integer, int_bits.
  apply writes_bind; [apply writes_ext|]. unfold i128 in *.
  destruct lb as [l|]; [destruct ub as [u|]|].
  - apply writes_con; tauto.
  - apply writes_semi; lia.
  - now apply writes_unc.
Qed.

Lemma reads_int E a lb ub ext v :
  int_ok lb ub v ->
  reads (decode_integer E lb ub ext) a
         (ext_bits ext ++ int_bits (a + zlen (ext_bits ext)) lb ub v) (v, false).
Proof.
  intros [Hv H]. unfold decode_integer, int_bits.
  eapply reads_bind; [apply reads_ext|]. unfold i128 in *. cbv iota.
  apply reads_app_nil. eapply reads_bind with (v := v); [|apply reads_ret].
  destruct lb as [l|]; [destruct ub as [u|]|].
  - apply reads_con; tauto.
  - apply reads_semi; lia.
  - now apply reads_unc.
Qed.
