(* Closure of [writes] and [reads] under the operations of the model. *)
From Coq Require Import ZArith List Bool Lia.
From Coq Require Import ZifyBool ZifyNat ZifyN.
Require Import Verif.Base Verif.CodecModel Verif.BitLemmas Verif.Spec.
Import ListNotations.
Open Scope Z_scope.
Ltac Zify.zify_post_hook ::= Z.div_mod_to_equations.

Lemma writes_bind m1 m2 a e1 e2 :
  writes m1 a e1 -> writes m2 (a + zlen e1) e2 -> writes (m1 ;; m2) a (e1 ++ e2).
Proof.
  intros H1 H2 p o k Hp. unfold bind. rewrite (H1 p o k Hp).
  rewrite H2.
  - now rewrite app_assoc.
  - rewrite zlen_app. lia.
Qed.

Lemma writes_ret a : writes (ret tt) a [].
Proof. intros p o k _. unfold ret. now rewrite app_nil_r. Qed.

Lemma writes_append a e : writes (append_bits e) a e.
Proof. intros p o k _. reflexivity. Qed.

Lemma zlen_pad a : zlen (pad a) = (- a) mod 8.
Proof. unfold pad. rewrite zlen_repeat. lia. Qed.

Lemma pad_mod a : (a + zlen (pad a)) mod 8 = 0.
Proof. rewrite zlen_pad. lia. Qed.

Lemma pad_cong a b : a mod 8 = b mod 8 -> pad a = pad b.
Proof. intros. unfold pad. do 2 f_equal. lia. Qed.

Lemma pad_zero a : a mod 8 = 0 -> pad a = [].
Proof. intros. unfold pad. replace ((- a) mod 8) with 0 by lia. reflexivity. Qed.

Lemma land7 z : Z.land z 7 = z mod 8.
Proof. change 7 with (Z.ones 3). now rewrite Z.land_ones by lia. Qed.

Lemma align_bits_pad p : align_bits p = p ++ pad (zlen p).
Proof.
  unfold align_bits. rewrite land7. cbv zeta.
  destruct (8 - zlen p mod 8 <? 8) eqn:C.
  - unfold pad. do 3 f_equal. lia.
  - rewrite pad_zero by lia. now rewrite app_nil_r.
Qed.

Lemma writes_align a : writes align a (pad a).
Proof.
  intros p o k Hp. unfold align. cbn [bits off key].
  rewrite align_bits_pad. do 3 f_equal. now apply pad_cong.
Qed.

Lemma writes_lift {A} (r : res A) v f a e :
  r = Ok v -> writes (f v) a e -> writes (bind (lift r) f) a e.
Proof. intros -> H. exact H. Qed.

Lemma writes_cong m a b e : a mod 8 = b mod 8 -> writes m a e -> writes m b e.
Proof. intros E H p o k Hp. apply H. lia. Qed.

Lemma writes_eq m a e e' : writes m a e -> e = e' -> writes m a e'.
Proof. now intros H <-. Qed.

Lemma reads_bind {A B} (m : M A) (f : A -> M B) a e1 e2 v w :
  reads m a e1 v -> reads (f v) (a + zlen e1) e2 w -> reads (bind m f) a (e1 ++ e2) w.
Proof.
  intros H1 H2 p s k Hp Hf. unfold bind.
  rewrite <- (app_assoc e1 e2 s) in *.
  rewrite (H1 p (e2 ++ s) k Hp Hf).
  specialize (H2 (p ++ e1) s k). rewrite zlen_app in H2.
  rewrite <- (app_assoc p e1 (e2 ++ s)) in H2.
  rewrite H2; [| lia | assumption].
  now rewrite zlen_app, Z.add_assoc.
Qed.

Lemma reads_ret {A} (v : A) a : reads (ret v) a [] v.
Proof. intros p s k _ _. unfold ret. rewrite zlen_nil, Z.add_0_r. reflexivity. Qed.

Lemma reads_lift {A B} (r : res A) v (f : A -> M B) a e w :
  r = Ok v -> reads (f v) a e w -> reads (bind (lift r) f) a e w.
Proof. intros -> H. exact H. Qed.

Lemma reads_lift_end {A} (r : res A) v a : r = Ok v -> reads (lift r) a [] v.
Proof. intros -> p s k _ _. unfold lift. rewrite zlen_nil, Z.add_0_r. reflexivity. Qed.

Lemma reads_cong {A} (m : M A) a b e v : a mod 8 = b mod 8 -> reads m a e v -> reads m b e v.
Proof. intros E H p s k Hp. apply H. lia. Qed.

Lemma reads_eq {A} (m : M A) a e e' v : reads m a e v -> e = e' -> reads m a e' v.
Proof. now intros H <-. Qed.

Lemma reads_app_nil {A} (m : M A) a e v : reads m a (e ++ []) v -> reads m a e v.
Proof. now rewrite app_nil_r. Qed.

Lemma arith_usize_ok E z : 0 <= z < 2 ^ 64 -> arith_usize E z = Ok z.
Proof.
  intros. unfold arith_usize, in_usize.
  replace ((0 <=? z) && (z <? 2 ^ 64)) with true by lia. reflexivity.
Qed.
Lemma arith_i128_ok E z : - 2 ^ 127 <= z < 2 ^ 127 -> arith_i128 E z = Ok z.
Proof.
  intros. unfold arith_i128, in_i128.
  replace ((- 2 ^ 127 <=? z) && (z <? 2 ^ 127)) with true by lia. reflexivity.
Qed.

(* ---- primitive readers ---- *)
Lemma slice_at_off_app p e s k :
  slice_at_off (zlen e) (mkD (p ++ e ++ s) (zlen p) k) = (Ok e, mkD (p ++ e ++ s) (zlen p) k).
Proof.
  unfold slice_at_off. cbn [off bits].
  pose proof (zlen_nonneg p); pose proof (zlen_nonneg e); pose proof (zlen_nonneg s).
  rewrite !zlen_app.
  replace ((0 <=? zlen p) && (0 <=? zlen e) && (zlen p + zlen e <=? zlen p + (zlen e + zlen s))) with true by lia.
  now rewrite slice_mid.
Qed.

Lemma advance_app E p e s k n ignore :
  n = zlen e -> fits (p ++ e ++ s) ->
  advance_maybe_err E n ignore (mkD (p ++ e ++ s) (zlen p) k)
  = (Ok tt, mkD (p ++ e ++ s) (zlen p + zlen e) k).
Proof.
  intros -> Hf. unfold fits in Hf. rewrite !zlen_app in Hf.
  pose proof (zlen_nonneg p); pose proof (zlen_nonneg e); pose proof (zlen_nonneg s).
  unfold advance_maybe_err, bind, get_bits, get_off, lift. cbn [off bits].
  rewrite arith_usize_ok by lia. rewrite !zlen_app.
  replace (zlen p + (zlen e + zlen s) <? zlen p + zlen e) with false by lia.
  reflexivity.
Qed.

Lemma reads_align a : reads decode_align a (pad a) tt.
Proof.
  intros p s k Hp Hf. unfold decode_align, bind, get_off. cbn [off].
  destruct (zlen p mod 8 =? 0) eqn:C.
  - rewrite pad_zero by lia. unfold ret. rewrite zlen_nil, Z.add_0_r. reflexivity.
  - cbv zeta. rewrite land7.
    replace (8 - zlen p mod 8) with (zlen (pad a)) by (rewrite zlen_pad; lia).
    rewrite slice_at_off_app.
    replace (forallb negb (pad a)) with true.
    + reflexivity.
    + unfold pad. generalize (Z.to_nat ((- a) mod 8)). intros n. induction n; [reflexivity|assumption].
Qed.

Lemma bit_at_off_app p b s k :
  bit_at_off (mkD (p ++ b :: s) (zlen p) k) = (Ok b, mkD (p ++ b :: s) (zlen p) k).
Proof.
  unfold bit_at_off. cbn [off bits]. rewrite zlen_app, zlen_cons.
  pose proof (zlen_nonneg p); pose proof (zlen_nonneg s).
  replace ((0 <=? zlen p) && (zlen p <? zlen p + (1 + zlen s))) with true by lia.
  rewrite to_nat_zlen, app_nth2 by lia. now rewrite Nat.sub_diag.
Qed.

Lemma reads_bool E a b : reads (data_decode_bool E) a [b] b.
Proof.
  intros p s k Hp Hf. unfold data_decode_bool, bind, get_bits, get_off. cbn [off bits].
  pose proof (zlen_nonneg p); pose proof (zlen_nonneg s).
  replace (zlen (p ++ [b] ++ s) =? zlen p) with false
    by (rewrite !zlen_app; change (zlen [b]) with 1; lia).
  change (p ++ [b] ++ s) with (p ++ b :: s). rewrite bit_at_off_app.
  change (p ++ b :: s) with (p ++ [b] ++ s).
  rewrite (advance_app E p [b] s k 1 true eq_refl Hf). reflexivity.
Qed.

Lemma reads_bitvec E a n e : n = zlen e -> reads (get_bitvec E n) a e e.
Proof.
  intros -> p s k Hp Hf. unfold get_bitvec, bind, get_bits, get_off, lift. cbn [off bits].
  pose proof Hf as Hf'. unfold fits in Hf'. rewrite !zlen_app in Hf'.
  pose proof (zlen_nonneg p); pose proof (zlen_nonneg e); pose proof (zlen_nonneg s).
  rewrite arith_usize_ok by lia.
  replace (zlen (p ++ e ++ s) <? zlen e + zlen p) with false by (rewrite !zlen_app; lia).
  rewrite slice_at_off_app, advance_app by auto. reflexivity.
Qed.

Lemma reads_bytes E a n bs :
  n = zlen bs -> bytes_ok bs -> reads (get_bytes E n) a (bytes_bits bs) bs.
Proof.
  intros -> Hb p s k Hp Hf. unfold get_bytes, bind, get_bits, get_off, lift. cbn [off bits].
  pose proof Hf as Hf'. unfold fits in Hf'. rewrite !zlen_app in Hf'.
  pose proof (zlen_nonneg p); pose proof (zlen_nonneg bs); pose proof (zlen_nonneg s).
  pose proof (zlen_bytes_bits bs) as HL.
  rewrite arith_usize_ok by lia.
  rewrite arith_usize_ok by lia.
  replace (zlen (p ++ bytes_bits bs ++ s) <? zlen bs * 8 + zlen p) with false by (rewrite !zlen_app; lia).
  replace (zlen bs * 8) with (zlen (bytes_bits bs)) by lia.
  rewrite slice_at_off_app, advance_app by auto. unfold ret. now rewrite pack_bytes_bits.
Qed.

(* Reading a field of n <= 128 bits as an unsigned number. *)
Lemma reads_uint E a n e :
  n = zlen e -> n <= 128 ->
  reads (decode_bits_as_integer E n false) a e (wrap_s 128 (bits_val e)).
Proof.
  intros -> Hn p s k Hp Hf. unfold decode_bits_as_integer. unfold bind at 1. unfold get_bits. cbn [bits].
  unfold bind at 1. unfold get_off. cbn [off]. unfold bind at 1. unfold lift.
  pose proof Hf as Hf'. unfold fits in Hf'. rewrite !zlen_app in Hf'.
  pose proof (zlen_nonneg p); pose proof (zlen_nonneg e); pose proof (zlen_nonneg s).
  rewrite arith_usize_ok by (rewrite !zlen_app; lia).
  replace (zlen (p ++ e ++ s) - zlen p <? zlen e) with false by (rewrite !zlen_app; lia).
  cbn [negb]. unfold bind at 1.
  destruct (zlen e =? 0) eqn:C.
  - assert (e = []) as -> by (apply zlen_zero; lia). unfold ret at 1.
    unfold bind at 1. rewrite advance_app by auto. reflexivity.
  - unfold bind at 1. rewrite slice_at_off_app. unfold bind at 1, load_be.
    replace ((1 <=? zlen e) && (zlen e <=? 128)) with true by lia.
    unfold ret at 1 2. unfold bind at 1. rewrite advance_app by auto. reflexivity.
Qed.

Lemma reads_uint_val E a n e v :
  n = zlen e -> n <= 128 -> bits_val e = v -> v < 2 ^ 127 ->
  reads (decode_bits_as_integer E n false) a e v.
Proof.
  intros Hn Hl Hv Hr. pose proof (bits_val_range e).
  replace v with (wrap_s 128 (bits_val e)); [now apply reads_uint|].
  rewrite Hv. apply wrap_s_small; [lia|]. split; [|exact Hr].
  change (2 ^ (128 - 1)) with (2 ^ 127). pose proof (pow2_pos 127). lia.
Qed.
