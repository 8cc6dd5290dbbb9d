(* Whatever an encoder accepts decodes back; what it does not accept. *)
From Coq Require Import ZArith List Bool Lia.
From Coq Require Import ZifyBool ZifyNat ZifyN.
Require Import Verif.Base Verif.CodecModel Verif.BitLemmas Verif.Spec Verif.Combinators.
Require Import Verif.LengthProofs Verif.IntegerProofs Verif.StringProofs Verif.Local Verif.Ranges Verif.Loops Verif.Frame Verif.Safety Verif.Api Verif.ApiProofs.
Import ListNotations.
Open Scope Z_scope.
Ltac Zify.zify_post_hook ::= Z.div_mod_to_equations.

(* the call does not return Ok, whatever the buffer *)
Definition refuses (m : M unit) : Prop := forall s, fst (m s) <> Ok tt.
Lemma writes_refuses m a e : writes m a e -> refuses m -> False.
Proof.
  intros W R. set (p := repeat false (Z.to_nat (a mod 8))).
  specialize (W p 0 None). specialize (R (mkD p 0 None)).
  rewrite W in R; [now apply R|]. unfold p. rewrite zlen_repeat. lia.
Qed.
Lemma rejects_refuses m e : rejects m e -> refuses m.
Proof. intros R [p o k]. rewrite R. discriminate. Qed.
Lemma refuses_err : refuses err. Proof. intros s; cbn; discriminate. Qed.
Lemma refuses_panic : refuses panic. Proof. intros s; cbn; discriminate. Qed.
Lemma refuses_bind {A} (m : M A) (f : A -> M unit) : (forall v, refuses (f v)) -> refuses (bind m f).
Proof. intros H s. unfold bind. destruct (m s) as [[| | |] s1]; try (cbn; discriminate). apply H. Qed.
Lemma refuses_bind_l (m : M unit) (f : unit -> M unit) : refuses m -> refuses (bind m f).
Proof.
  intros H s. specialize (H s). unfold bind. destruct (m s) as [[[]| | |] s1]; try (cbn; discriminate). now cbn in H.
Qed.
Lemma writes_det m a e e' : writes m a e -> writes m a e' -> e = e'.
Proof.
  intros W W'. set (p := repeat false (Z.to_nat (a mod 8))).
  specialize (W p 0 None). specialize (W' p 0 None).
  rewrite W in W' by (unfold p; rewrite zlen_repeat; lia).
  assert (H : (Ok tt, mkD (p ++ e) 0 None) = (Ok tt, mkD (p ++ e') 0 None))
    by (apply W'; unfold p; rewrite zlen_repeat; lia).
  injection H as H. now apply app_inv_head in H.
Qed.

(* range of 2^127 values or more: the encoder panics, in both profiles *)
Lemma con_huge_panics f E lb ub v s : i128 lb -> i128 ub -> lb <= v <= ub -> 2 ^ 127 <= ub - lb + 1 ->
  encode_constrained_fuel (S f) E lb ub v s = (Panic, s).
Proof.
  unfold i128. intros Hl Hu Hv Hr. cbn [encode_constrained_fuel].
  replace (v <? lb) with false by lia. replace (ub <? v) with false by lia.
  assert (W : forall z, 2 ^ 127 <= z < 2 ^ 128 -> wrap_s 128 z = z - 2 ^ 128).
  { intros z Hz. unfold wrap_s. replace (z mod 2 ^ 128) with z by (symmetry; apply Z.mod_small; lia).
    replace (z <? 2 ^ (128 - 1)) with false by lia. reflexivity. }
  assert (W0 : wrap_s 128 (2 ^ 128) = 0) by reflexivity.
  destruct (overflow_checks E) eqn:OC.
  - unfold bind, lift, arith_i128. rewrite OC.
    destruct (in_i128 (ub - lb)) eqn:C; [|reflexivity].
    destruct (in_i128 (ub - lb + 1)) eqn:C2; [|reflexivity]. unfold in_i128 in C2. lia.
  - assert (AR : forall z, arith_i128 E z = Ok (wrap_s 128 z)).
    { intros z. unfold arith_i128. rewrite OC. destruct (in_i128 z) eqn:C; [|reflexivity].
      unfold in_i128 in C. rewrite wrap_s_small by lia. reflexivity. }
    unfold bind, lift. rewrite AR. cbv iota beta. rewrite AR. cbv iota beta. rewrite AR. cbv iota beta.
    remember (wrap_s 128 (wrap_s 128 (ub - lb) + 1)) as r eqn:Er.
    assert (Hr0 : r <= 0).
    { destruct (Z_lt_dec (ub - lb) (2 ^ 127)) as [C|C].
      - rewrite (wrap_s_small 128 (ub - lb)) in Er by lia. rewrite W in Er by lia. lia.
      - rewrite (W (ub - lb)) in Er by lia. rewrite wrap_s_small in Er by lia. lia. }
    replace (r <=? 256) with true by lia.
    unfold enc_range_table.
    replace (r =? 1) with false by lia. replace (r =? 2) with false by lia.
    replace ((3 <=? r) && (r <=? 4)) with false by lia. replace ((5 <=? r) && (r <=? 8)) with false by lia.
    replace ((9 <=? r) && (r <=? 16)) with false by lia. replace ((17 <=? r) && (r <=? 32)) with false by lia.
    replace ((33 <=? r) && (r <=? 64)) with false by lia. replace ((65 <=? r) && (r <=? 128)) with false by lia.
    replace ((129 <=? r) && (r <=? 255)) with false by lia. replace (r =? 256) with false by lia.
    reflexivity.
Qed.

(* the lowest value of a range of more than 64K values is refused *)
Lemma position_zero16 : position (fun x => negb (x =? 0)) (be_bytes 16 0) = None.
Proof. reflexivity. Qed.
Lemma con_lowest_rejected E lb ub : i128 lb -> i128 ub -> 65536 <= ub - lb -> ub - lb + 1 < 2 ^ 127 ->
  rejects (encode_constrained_whole_number E lb ub lb) [].
Proof.
  unfold i128. intros Hl Hu Hr Hr2 p o k. unfold encode_constrained_whole_number.
  remember 1%nat as f eqn:Ef. cbn [encode_constrained_fuel].
  replace (lb <? lb) with false by lia. replace (ub <? lb) with false by lia.
  unfold bind at 1. rewrite arith_i128_ok by lia. unfold lift at 1.
  unfold bind at 1. rewrite arith_i128_ok by lia. unfold lift at 1.
  unfold bind at 1. rewrite arith_i128_ok by lia. unfold lift at 1.
  replace (ub - lb + 1 <=? 256) with false by lia. replace (ub - lb + 1 <=? 65536) with false by lia.
  cbv zeta. replace (lb - lb) with 0 by lia. rewrite position_zero16. subst f. cbn [encode_constrained_fuel].
  rewrite app_nil_r. reflexivity.
Qed.

Lemma refuses_ext ext (m : M unit) : refuses m -> refuses (encode_ext_bit ext ;; m).
Proof. intros H. apply refuses_bind. intros _. exact H. Qed.

Lemma con_refuses E lb ub v : i128 lb -> i128 ub ->
  ~ (lb <= v <= ub /\ ub - lb + 1 < 2 ^ 127 /\ (ub - lb + 1 <= 65536 \/ v <> lb)) ->
  refuses (encode_constrained_whole_number E lb ub v).
Proof.
  intros Hl Hu H.
  destruct (Z_lt_dec v lb) as [C1|C1]; [apply (rejects_refuses _ []), rejects_con; lia|].
  destruct (Z_lt_dec ub v) as [C2|C2]; [apply (rejects_refuses _ []), rejects_con; lia|].
  destruct (Z_lt_dec (ub - lb + 1) (2 ^ 127)) as [C3|C3].
  - assert (v = lb /\ 65536 <= ub - lb) as [-> ?] by lia.
    apply (rejects_refuses _ []), con_lowest_rejected; auto.
  - intros s. unfold encode_constrained_whole_number. rewrite con_huge_panics; auto; try lia. discriminate.
Qed.

Lemma con_accepted E lb ub v x ext a e : i128 lb -> i128 ub ->
  writes (encode_integer E (Some lb) (Some ub) ext v x) a e ->
  x = false /\ int_ok (Some lb) (Some ub) v.
Proof.
  intros Hl Hu W. destruct x; [exfalso; eapply writes_refuses; [exact W|apply refuses_err]|].
  split; [reflexivity|].
  assert (D : (lb <= v <= ub /\ ub - lb + 1 < 2 ^ 127 /\ (ub - lb + 1 <= 65536 \/ v <> lb))
    \/ ~ (lb <= v <= ub /\ ub - lb + 1 < 2 ^ 127 /\ (ub - lb + 1 <= 65536 \/ v <> lb))) by lia.
  destruct D as [D|D].
  - unfold int_ok, i128 in *. tauto || lia.
  - exfalso. eapply writes_refuses; [exact W|]. unfold encode_integer. apply refuses_ext. now apply con_refuses.
Qed.

Lemma con_accepted_reads E lb ub v x ext a e : i128 lb -> i128 ub ->
  writes (encode_integer E (Some lb) (Some ub) ext v x) a e ->
  reads (decode_integer E (Some lb) (Some ub) ext) a e (v, false).
Proof.
  intros Hl Hu W. destruct (con_accepted E lb ub v x ext a e Hl Hu W) as [-> OK].
  rewrite (writes_det _ _ _ _ W (writes_int E a _ _ ext v OK)). now apply reads_int.
Qed.
Lemma choice_accepted_reads E lb ub v x ext a e : i128 lb -> i128 ub ->
  writes (encode_choice_idx E lb ub ext v x) a e ->
  reads (decode_choice_idx E lb ub ext) a e (v, false).
Proof.
  intros Hl Hu W. destruct x; [exfalso; eapply writes_refuses; [exact W|apply refuses_err]|].
  assert (D : int_ok (Some lb) (Some ub) v \/ ~ int_ok (Some lb) (Some ub) v)
    by (unfold int_ok, i128; lia).
  destruct D as [D|D].
  - rewrite (writes_det _ _ _ _ W (writes_choice E a _ _ ext v D)). now apply reads_choice.
  - exfalso. eapply writes_refuses; [exact W|]. unfold encode_choice_idx, encode_integer.
    apply refuses_ext, refuses_ext, con_refuses; auto. unfold int_ok, i128 in *. lia.
Qed.
Lemma enum_accepted_reads E lb ub v x ext a e : i128 lb -> i128 ub ->
  writes (encode_enumerated E (Some lb) (Some ub) ext v x) a e ->
  reads (decode_enumerated E (Some lb) (Some ub) ext) a e (v, false).
Proof.
  intros Hl Hu W. destruct x; [exfalso; eapply writes_refuses; [exact W|apply refuses_err]|].
  assert (D : int_ok (Some lb) (Some ub) v \/ ~ int_ok (Some lb) (Some ub) v)
    by (unfold int_ok, i128; lia).
  destruct D as [D|D].
  - rewrite (writes_det _ _ _ _ W (writes_enum E a _ _ ext v D)). now apply reads_enum.
  - exfalso. eapply writes_refuses; [exact W|]. unfold encode_enumerated, encode_integer.
    apply refuses_ext, refuses_ext, con_refuses; auto. unfold int_ok, i128 in *. lia.
Qed.

(* ---- lengths ---- *)
Lemma indef_refuses v : 16384 <= v -> refuses (encode_indefinite_length_determinent v).
Proof.
  intros H. unfold encode_indefinite_length_determinent. apply refuses_bind. intros _.
  replace (v <? 128) with false by lia. replace (v <? 16384) with false by lia. apply refuses_err.
Qed.
Lemma len_refuses E lb ub ns n : size_sane lb ub -> 0 <= n -> (ns = true -> 0 < n) ->
  ~ length_ok lb ub ns n -> refuses (encode_length_determinent E lb ub ns n).
Proof.
  intros [HL HU] Hn Hns H. unfold length_ok in H. unfold encode_length_determinent. destruct ns.
  - assert (16384 <= n) by lia. unfold encode_normally_small_length_determinent.
    replace (n <=? 32) with false by lia. apply refuses_bind. intros _. now apply indef_refuses.
  - cbv zeta. destruct ub as [u|].
    + destruct (u <? 65536) eqn:C.
      * change (match lb with Some l => l | None => 0 end) with (opt0 lb).
        assert (0 <= opt0 lb) by (destruct lb; cbn [opt0] in *; lia).
        apply con_refuses; unfold i128; try lia.
        destruct lb; cbn [opt0] in *; lia.
      * destruct (wrap_u 64 u <? n) eqn:C1; [apply refuses_err|].
        destruct lb as [l|].
        -- destruct (n <? wrap_u 64 l) eqn:C2; [apply refuses_err|].
           apply indef_refuses. cbn [opt0] in *. rewrite wrap_u_small in * by lia. lia.
        -- apply indef_refuses. rewrite wrap_u_small in * by (cbn [opt0] in *; lia). lia.
    + destruct lb as [l|].
      * destruct (n <? wrap_u 64 l) eqn:C2; [apply refuses_err|].
        apply indef_refuses. rewrite wrap_u_small in * by lia. lia.
      * apply indef_refuses. lia.
Qed.
Lemma length_ok_dec lb ub ns n : length_ok lb ub ns n \/ ~ length_ok lb ub ns n.
Proof. unfold length_ok. destruct ns; [lia|]. destruct lb, ub; lia. Qed.

Lemma len_accepted_reads E lb ub ns n a e : size_sane lb ub -> 0 <= n -> (ns = true -> 0 < n) ->
  writes (encode_length_determinent E lb ub ns n) a e ->
  reads (decode_length_determinent E lb ub ns) a e n.
Proof.
  intros HS Hn Hns W. destruct (length_ok_dec lb ub ns n) as [D|D].
  - rewrite (writes_det _ _ _ _ W (writes_len E a lb ub ns n D)). now apply reads_len.
  - exfalso. eapply writes_refuses; [exact W|]. now apply len_refuses.
Qed.

Lemma bitstring_accepted E lb ub ext bs x a e : size_sane lb ub ->
  writes (encode_bitstring E lb ub ext bs x) a e ->
  x = false /\ length_ok lb ub false (zlen bs) /\ zlen bs < 16384.
Proof.
  intros HS W. destruct x; [exfalso; eapply writes_refuses; [exact W|apply refuses_err]|]. split; [reflexivity|].
  destruct (Z_lt_dec (zlen bs) 16384) as [C|C].
  2:{ exfalso. eapply writes_refuses; [exact W|]. eapply rejects_refuses, rejects_bitstring. right. lia. }
  split; [|assumption].
  destruct (length_ok_dec lb ub false (zlen bs)) as [D|D]; [assumption|].
  exfalso. eapply writes_refuses; [exact W|]. unfold encode_bitstring. apply refuses_ext. cbv zeta.
  replace (16384 <=? zlen bs) with false by lia.
  apply refuses_bind_l, len_refuses; auto; [apply zlen_nonneg|discriminate].
Qed.
Lemma bitstring_accepted_reads E lb ub ext bs x a e : size_sane lb ub ->
  writes (encode_bitstring E lb ub ext bs x) a e ->
  reads (decode_bitstring E lb ub ext) a e bs.
Proof.
  intros HS W. destruct (bitstring_accepted _ _ _ _ _ _ _ _ HS W) as (-> & OK & L).
  rewrite (writes_det _ _ _ _ W (writes_bitstring E a lb ub ext bs OK L)). now apply reads_bitstring.
Qed.
Lemma octetstring_accepted E lb ub ext bs x a e : size_sane lb ub ->
  writes (encode_octetstring E lb ub ext bs x) a e ->
  x = false /\ length_ok lb ub false (zlen bs) /\ zlen bs < 16384.
Proof.
  intros HS W. destruct x; [exfalso; eapply writes_refuses; [exact W|apply refuses_err]|]. split; [reflexivity|].
  destruct (Z_lt_dec (zlen bs) 16384) as [C|C].
  2:{ exfalso. eapply writes_refuses; [exact W|]. eapply rejects_refuses, rejects_octetstring. right. lia. }
  split; [|assumption].
  destruct (length_ok_dec lb ub false (zlen bs)) as [D|D]; [assumption|].
  exfalso. eapply writes_refuses; [exact W|]. unfold encode_octetstring. apply refuses_ext. cbv zeta.
  replace (16384 <=? zlen bs) with false by lia.
  apply refuses_bind_l, len_refuses; auto; [apply zlen_nonneg|discriminate].
Qed.
Lemma octetstring_accepted_reads E lb ub ext bs x a e : size_sane lb ub -> bytes_ok bs ->
  writes (encode_octetstring E lb ub ext bs x) a e ->
  reads (decode_octetstring E lb ub ext) a e bs.
Proof.
  intros HS HB W. destruct (octetstring_accepted _ _ _ _ _ _ _ _ HS W) as (-> & OK & L).
  rewrite (writes_det _ _ _ _ W (writes_octetstring E a lb ub ext bs OK L)). now apply reads_octetstring.
Qed.
Lemma string_accepted E lb ub ext bs x a e : size_sane lb ub ->
  writes (encode_string E lb ub ext bs x) a e -> x = false /\ length_ok lb ub false (zlen bs).
Proof.
  intros HS W. destruct x; [exfalso; eapply writes_refuses; [exact W|apply refuses_err]|]. split; [reflexivity|].
  destruct (length_ok_dec lb ub false (zlen bs)) as [D|D]; [assumption|].
  exfalso. eapply writes_refuses; [exact W|]. unfold encode_string. apply refuses_ext.
  apply refuses_bind_l, len_refuses; auto; [apply zlen_nonneg|discriminate].
Qed.
(* the content of a short string starts on a byte boundary *)
Lemma string_accepted_reads E lb ub ext bs x a e : size_sane lb ub -> bytes_ok bs -> utf8_valid bs = true ->
  (little_endian E = false \/ 2 < zlen bs \/ (a + zlen e) mod 8 = 0) ->
  writes (encode_string E lb ub ext bs x) a e ->
  reads (decode_string E lb ub ext) a e bs.
Proof.
  intros HS HB HU HE W. destruct (string_accepted _ _ _ _ _ _ _ _ HS W) as (-> & OK).
  pose proof (writes_det _ _ _ _ W (writes_string E a lb ub ext bs OK)) as ->.
  pose proof (zlen_nonneg bs).
  assert (zlen bs < 65536).
  { unfold length_ok in OK. destruct ub; lia. }
  apply reads_string; auto; [|lia].
  destruct HE as [HE|[HE|HE]]; [tauto|tauto|].
  destruct (2 <? zlen bs) eqn:C; [right; left; lia|].
  right; right; right. unfold str_content_pos, str_bits in *. cbv zeta in HE. rewrite C in HE. cbn [app] in HE.
  rewrite !zlen_app, zlen_bytes_bits in HE. lia.
Qed.

(* ---- unconstrained integers ---- *)
Lemma soctets_small v : - 2 ^ 63 <= v < 2 ^ 63 -> 1 <= soctets v <= 8.
Proof.
  intros H. unfold soctets. destruct (v <? 0) eqn:C.
  - pose proof (bitlen_nonneg (- v - 1)). pose proof (bitlen_lt (- v - 1) 63 ltac:(lia) ltac:(lia)). lia.
  - pose proof (bitlen_nonneg v). pose proof (bitlen_lt v 63 ltac:(lia) ltac:(lia)). lia.
Qed.
Lemma bitlen_ge x n : 0 <= n -> 2 ^ n <= x -> n < bitlen x.
Proof.
  intros Hn H. pose proof (pow2_pos n Hn). unfold bitlen. replace (x <=? 0) with false by lia.
  assert (n <= Z.log2 x) by (apply Z.log2_le_pow2; lia). lia.
Qed.
Lemma soctets_big v : i128 v -> v < - 2 ^ 119 \/ 2 ^ 119 <= v -> soctets v = 16.
Proof.
  intros Hi H. pose proof (soctets_range v Hi) as R. unfold soctets in *. destruct (v <? 0) eqn:C.
  - pose proof (bitlen_ge (- v - 1) 119 ltac:(lia) ltac:(lia)). lia.
  - pose proof (bitlen_ge v 119 ltac:(lia) ltac:(lia)). lia.
Qed.
Lemma soctets_gap v : (- 2 ^ 119 <= v < - 2 ^ 63 \/ 2 ^ 63 <= v < 2 ^ 119) -> 9 <= soctets v <= 15.
Proof.
  intros H. unfold soctets. destruct (v <? 0) eqn:C.
  - pose proof (bitlen_ge (- v - 1) 63 ltac:(lia) ltac:(lia)).
    pose proof (bitlen_lt (- v - 1) 119 ltac:(lia) ltac:(lia)). lia.
  - pose proof (bitlen_ge v 63 ltac:(lia) ltac:(lia)).
    pose proof (bitlen_lt v 119 ltac:(lia) ltac:(lia)). lia.
Qed.
Lemma readable_iff v : i128 v ->
  ((- 2 ^ 63 <= v < 2 ^ 63 \/ v < - 2 ^ 119 \/ 2 ^ 119 <= v) -> readable_octets (soctets v)).
Proof.
  intros Hi [H|H]; unfold readable_octets.
  - left. now apply soctets_small.
  - right. now apply soctets_big.
Qed.

(* at the given place decoding fails *)
Definition fails {A} (m : M A) (a : Z) (e : list bool) : Prop :=
  forall p s k, zlen p mod 8 = a mod 8 -> fits (p ++ e ++ s) ->
    fst (m (mkD (p ++ e ++ s) (zlen p) k)) = Err.
Lemma fails_bind {A B} (m : M A) (f : A -> M B) a e1 e2 v :
  reads m a e1 v -> fails (f v) (a + zlen e1) e2 -> fails (bind m f) a (e1 ++ e2).
Proof.
  intros R F p s k Hp Hf. unfold bind. rewrite <- app_assoc in *. rewrite (R p (e2 ++ s) k Hp Hf).
  rewrite app_assoc in *. rewrite <- zlen_app. apply F; [rewrite zlen_app; lia|assumption].
Qed.
Lemma fails_bind_l {A B} (m : M A) (f : A -> M B) a e : fails m a e -> fails (bind m f) a e.
Proof.
  intros F p s k Hp Hf. specialize (F p s k Hp Hf). unfold bind. destruct (m _) as [[| | |] s1]; cbn in *; congruence.
Qed.
Lemma fails_lift {A B} (r : res A) v (f : A -> M B) a e : r = Ok v -> fails (f v) a e -> fails (bind (lift r) f) a e.
Proof. intros -> H. exact H. Qed.
Lemma fails_sint E n a e : ~ signed_width n -> zlen e = n -> fails (decode_bits_as_integer E n true) a e.
Proof.
  intros S He p s k Hp F. pose proof (fits_nonneg p (e ++ s) F) as (Np & Nb & Nf).
  pose proof (zlen_nonneg s). rewrite zlen_app in *.
  unfold decode_bits_as_integer, bind, get_bits, get_off, lift. cbn [off bits].
  rewrite arith_usize_ok by (rewrite !zlen_app; lia).
  replace (zlen (p ++ e ++ s) - zlen p <? n) with false by (rewrite !zlen_app; lia).
  cbn [negb]. unfold signed_width in S.
  replace (n =? 8) with false by lia. replace (n =? 16) with false by lia.
  replace (n =? 24) with false by lia. replace (n =? 32) with false by lia.
  replace (n =? 40) with false by lia. replace (n =? 48) with false by lia.
  replace (n =? 56) with false by lia. replace (n =? 64) with false by lia.
  replace (n =? 128) with false by lia. reflexivity.
Qed.
Lemma unc_gap_fails E ext v a : (- 2 ^ 119 <= v < - 2 ^ 63 \/ 2 ^ 63 <= v < 2 ^ 119) ->
  exists e, writes (encode_integer E None None ext v false) a e /\ fails (decode_integer E None None ext) a e.
Proof.
  intros H. pose proof (soctets_gap v H) as S. eexists. split.
  - unfold encode_integer. apply writes_bind; [apply writes_ext|]. apply writes_unc. lia.
  - unfold decode_integer. eapply fails_bind; [apply reads_ext|]. apply fails_bind_l.
    unfold decode_unconstrained_whole_number, unc_bits.
    eapply fails_bind; [apply (reads_len E _ None None false (soctets v)); unfold length_ok; lia|].
    eapply fails_lift; [apply arith_usize_ok; lia|].
    apply fails_sint; [unfold signed_width; lia|]. rewrite zlen_low_bits. lia.
Qed.
