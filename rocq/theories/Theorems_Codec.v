(* Properties of the primitive codec (properties.jsonl C01-C23, C29).
   Vocabulary: Spec.v (writes, reads, round_trips) and ApiSpec.v. *)
From Coq Require Import ZArith List Bool Lia.
Require Import Verif.Base Verif.CodecModel Verif.Spec Verif.Api Verif.ApiSpec.
Require Import Verif.BitLemmas Verif.Combinators Verif.LengthProofs Verif.IntegerProofs Verif.StringProofs Verif.Local Verif.Ranges Verif.Loops Verif.Frame Verif.Safety Verif.ApiProofs Verif.AcceptProofs Verif.MiscProofs Verif.CodecFacts.
Import ListNotations.
Open Scope Z_scope.

(* A debug build and a release build on a little-endian host. *)
Definition debug := {| overflow_checks := true; little_endian := true |}.
Definition release := {| overflow_checks := false; little_endian := true |}.

(* ===== C01 constrained INTEGER ===== *)
(* Full claim: for all lb <= v <= ub.  Missing: the lowest value of a range of
   more than 64K values, and ranges of 2^127 values or more (both refuted). *)
Theorem C01_constrained_integer_round_trip_partial : forall E lb ub ext v,
  i128 lb -> i128 ub -> lb <= v <= ub -> ub - lb + 1 < 2 ^ 127 -> (ub - lb < 65536 \/ lb < v) ->
  round_trips (encode_integer E (Some lb) (Some ub) ext v false)
              (decode_integer E (Some lb) (Some ub) ext) (v, false).
Proof. exact C01_proof. Qed.
Print Assumptions C01_constrained_integer_round_trip_partial.
Example C01_case : round_trips (encode_integer debug (Some (-5)) (Some 1000000) true 123456 false)
  (decode_integer debug (Some (-5)) (Some 1000000) true) (123456, false).
Proof. apply C01_constrained_integer_round_trip_partial; unfold i128; lia. Qed.

(* Whatever the encoder accepts decodes to itself: no bounds on range or value. *)
Theorem C01_accepted_integers_decode_back : forall E lb ub ext v x,
  i128 lb -> i128 ub ->
  decodes_back (encode_integer E (Some lb) (Some ub) ext v x)
               (decode_integer E (Some lb) (Some ub) ext) (v, false).
Proof. exact C01_accepted_proof. Qed.
Print Assumptions C01_accepted_integers_decode_back.
Example C01_accepted_case :
  fst (encode_integer debug (Some 0) (Some (2 ^ 100)) true (2 ^ 99) false new_data) = Ok tt.
Proof. vm_compute. reflexivity. Qed.

Theorem C01_lowest_value_of_large_range_rejected : forall E lb ub ext,
  i128 lb -> i128 ub -> 65536 <= ub - lb -> ub - lb + 1 < 2 ^ 127 ->
  refuses_value (encode_integer E (Some lb) (Some ub) ext lb false) ext.
Proof. exact C01_lowest_proof. Qed.
Print Assumptions C01_lowest_value_of_large_range_rejected.
Theorem C01_huge_range_panics : forall E lb ub ext v s,
  i128 lb -> i128 ub -> lb <= v <= ub -> 2 ^ 127 <= ub - lb + 1 ->
  fst (encode_integer E (Some lb) (Some ub) ext v false s) = Panic.
Proof. exact (fun E lb ub ext v s => huge_range_panics E lb ub v ext s). Qed.
Print Assumptions C01_huge_range_panics.
Theorem C01_constrained_integer_round_trip_refuted : exists lb ub v, lb <= v <= ub /\
  forall E, fst (encode_integer E (Some lb) (Some ub) false v false new_data) = Err.
Proof. exists 0, 65536, 0. split; [lia|]. intros [[|] [|]]; vm_compute; reflexivity. Qed.
Print Assumptions C01_constrained_integer_round_trip_refuted.

(* ===== C02 unconstrained INTEGER ===== *)
(* Full claim: every i128.  Missing: values of 9 to 15 octets (refuted below). *)
Theorem C02_unconstrained_integer_round_trip_partial : forall E ub ext v,
  i128 v -> - 2 ^ 63 <= v < 2 ^ 63 \/ v < - 2 ^ 119 \/ 2 ^ 119 <= v ->
  round_trips (encode_integer E None ub ext v false) (decode_integer E None ub ext) (v, false).
Proof. exact C02_proof. Qed.
Print Assumptions C02_unconstrained_integer_round_trip_partial.
Example C02_case : round_trips (encode_integer debug None None false (-129) false)
  (decode_integer debug None None false) (-129, false).
Proof. apply C02_unconstrained_integer_round_trip_partial; unfold i128; lia. Qed.
(* In the gap every value is encoded and none decodes. *)
Theorem C02_unconstrained_integer_gap_refuted : forall E ext v a,
  - 2 ^ 119 <= v < - 2 ^ 63 \/ 2 ^ 63 <= v < 2 ^ 119 ->
  exists e, writes (encode_integer E None None ext v false) a e /\
    forall p s k, zlen p mod 8 = a mod 8 -> fits (p ++ e ++ s) ->
      fst (decode_integer E None None ext (mkD (p ++ e ++ s) (zlen p) k)) = Err.
Proof. exact unc_gap_fails. Qed.
Print Assumptions C02_unconstrained_integer_gap_refuted.

(* ===== C03 semi-constrained INTEGER ===== *)
(* Full claim: every lb <= v.  Missing: v - lb >= 2^127 (refuted below). *)
Theorem C03_semi_constrained_integer_round_trip_partial : forall E lb ext v,
  i128 v -> lb <= v -> v - lb < 2 ^ 127 ->
  round_trips (encode_integer E (Some lb) None ext v false) (decode_integer E (Some lb) None ext) (v, false).
Proof. exact C03_proof. Qed.
Print Assumptions C03_semi_constrained_integer_round_trip_partial.
Example C03_case : round_trips (encode_integer debug (Some (-1)) None true 127 false)
  (decode_integer debug (Some (-1)) None true) (127, false).
Proof. apply C03_semi_constrained_integer_round_trip_partial; unfold i128; lia. Qed.
Theorem C03_semi_constrained_refuted : exists lb v, i128 lb /\ i128 v /\ lb <= v /\
  fst (encode_integer debug (Some lb) None false v false new_data) = Panic /\
  exists d, encode_integer release (Some lb) None false v false new_data = (Ok tt, d) /\
    fst (decode_integer release (Some lb) None false (from_slice (into_bytes d))) <> Ok (v, false).
Proof.
  exists (- 2 ^ 127), (2 ^ 127 - 1). split; [unfold i128; lia|]. split; [unfold i128; lia|]. split; [lia|].
  split; [vm_compute; reflexivity|]. eexists. split; [vm_compute; reflexivity|]. vm_compute. discriminate.
Qed.
Print Assumptions C03_semi_constrained_refuted.

(* ===== C04 values outside the bounds ===== *)
Theorem C04_integer_rejects_outside : forall E lb ub ext v, value_violates lb ub v ->
  refuses_value (encode_integer E lb ub ext v false) ext.
Proof. exact C04_int_proof. Qed.
Print Assumptions C04_integer_rejects_outside.
Theorem C04_enumerated_rejects_outside : forall E lb ub ext v, value_violates lb ub v ->
  refuses_value (encode_enumerated E lb ub ext v false) ext.
Proof. exact C04_enum_proof. Qed.
Print Assumptions C04_enumerated_rejects_outside.
Theorem C04_choice_rejects_outside : forall E lb ub ext v, v < lb \/ ub < v ->
  refuses_value (encode_choice_idx E lb ub ext v false) ext.
Proof. exact C04_choice_proof. Qed.
Print Assumptions C04_choice_rejects_outside.
Theorem C04_length_rejects_outside : forall E lb ub n, size_violates lb ub n ->
  refuses_value (encode_length_determinent E lb ub false n) false.
Proof. exact C04_len_proof. Qed.
Print Assumptions C04_length_rejects_outside.
Theorem C04_bitstring_rejects_outside : forall E lb ub ext bs, size_violates lb ub (zlen bs) ->
  refuses_value (encode_bitstring E lb ub ext bs false) ext.
Proof. exact C04_bits_proof. Qed.
Print Assumptions C04_bitstring_rejects_outside.
Theorem C04_octetstring_rejects_outside : forall E lb ub ext bs, size_violates lb ub (zlen bs) ->
  refuses_value (encode_octetstring E lb ub ext bs false) ext.
Proof. exact C04_octets_proof. Qed.
Print Assumptions C04_octetstring_rejects_outside.
Theorem C04_string_rejects_outside : forall E lb ub ext bs, size_violates lb ub (zlen bs) ->
  refuses_value (encode_string E lb ub ext bs false) ext.
Proof. exact C04_string_proof. Qed.
Print Assumptions C04_string_rejects_outside.
Example C04_case : value_violates (Some (-3)) (Some 10) 11 /\ size_violates (Some 2) (Some 4) 1.
Proof. split; [cbn; lia|]. repeat split; cbn; try lia. left. exists 2. split; [reflexivity|lia]. Qed.
(* An upper bound without a lower bound is not enforced. *)
Theorem C04_upper_bound_alone_ignored_refuted : exists ub v, ub < v /\
  fst (encode_integer debug None (Some ub) false v false new_data) = Ok tt.
Proof. exists 5, 6. split; [lia|]. vm_compute. reflexivity. Qed.
Print Assumptions C04_upper_bound_alone_ignored_refuted.

(* ===== C05 decoded values ===== *)
(* Full claim: lb <= v <= ub for all ranges.  Proved for ranges of 2^k values,
   k <= 8 or k = 16; for other ranges up to 64K the value may exceed ub by less
   than the width of the field. *)
Theorem C05_decoded_integer_in_bounds_partial : forall E lb ub k s v x s',
  i128 lb -> i128 ub -> 0 <= k <= 8 \/ k = 16 -> ub - lb + 1 = 2 ^ k ->
  decode_integer E (Some lb) (Some ub) false s = (Ok (v, x), s') -> lb <= v <= ub.
Proof. exact decode_int_pow_range. Qed.
Print Assumptions C05_decoded_integer_in_bounds_partial.
Example C05_case : decode_integer debug (Some 3) (Some 10) false (from_slice [160]) =
  (Ok (8, false), mkD (bits (from_slice [160])) 3 None).
Proof. vm_compute. reflexivity. Qed.
Theorem C05_decoded_integer_bounded_partial : forall E lb ub s v x s',
  i128 lb -> i128 ub -> lb <= ub <= lb + 65535 -> lb + 65536 <= 2 ^ 127 ->
  decode_integer E (Some lb) (Some ub) false s = (Ok (v, x), s') ->
  lb <= v <= lb + 65535 /\ (ub < lb + 255 -> v < lb + 2 * (ub - lb + 1)).
Proof. exact C05_bound_proof. Qed.
Print Assumptions C05_decoded_integer_bounded_partial.
Theorem C05_decoded_length_bounded_partial : forall E lb ub s n s',
  0 <= lb <= ub -> ub < 65536 ->
  decode_length_determinent E (Some lb) (Some ub) false s = (Ok n, s') ->
  lb <= n <= lb + 65535 /\ (lb = ub -> n = lb).
Proof. exact C05_len_proof. Qed.
Print Assumptions C05_decoded_length_bounded_partial.
Theorem C05_decoded_integer_refuted : exists lb ub bytes v,
  fst (decode_integer debug (Some lb) (Some ub) false (from_slice bytes)) = Ok (v, false) /\ ub < v.
Proof. exists 0, 2, [192], 3. vm_compute. auto. Qed.
Print Assumptions C05_decoded_integer_refuted.
Theorem C05_decoded_length_refuted : exists lb ub bytes n,
  fst (decode_length_determinent debug (Some lb) (Some ub) false (from_slice bytes)) = Ok n /\ ub < n.
Proof. exists 0, 2, [192], 3. vm_compute. auto. Qed.
Print Assumptions C05_decoded_length_refuted.
Theorem C05_decoded_octetstring_size_refuted : exists lb ub bytes v,
  fst (decode_octetstring debug (Some lb) (Some ub) false (from_slice bytes)) = Ok v /\ ub < zlen v.
Proof. exists 0, 2, [192; 1; 2; 3], [1; 2; 3]. vm_compute. auto. Qed.
Print Assumptions C05_decoded_octetstring_size_refuted.
(* A non-negative type of 2^127 - 1 values accepts a negative number. *)
Theorem C05_decoded_large_range_refuted : exists ub bytes v,
  fst (decode_integer release (Some 0) (Some ub) false (from_slice bytes)) = Ok (v, false) /\ v < 0.
Proof. exists (2 ^ 126), (240 :: repeat 255 16), (-1). vm_compute. auto. Qed.
Print Assumptions C05_decoded_large_range_refuted.

(* ===== C06 length determinant ===== *)
Theorem C06_length_round_trip : forall E lb ub n,
  size_within lb ub n -> n < 16384 \/ (exists u, ub = Some u /\ u < 65536) ->
  round_trips (encode_length_determinent E lb ub false n) (decode_length_determinent E lb ub false) n.
Proof. exact C06_proof. Qed.
Print Assumptions C06_length_round_trip.
Theorem C06_small_length_round_trip : forall E lb ub n, 1 <= n < 16384 ->
  round_trips (encode_length_determinent E lb ub true n) (decode_length_determinent E lb ub true) n.
Proof. exact C06_small_proof. Qed.
Print Assumptions C06_small_length_round_trip.
Theorem C06_accepted_lengths_decode_back : forall E lb ub ns n,
  size_sane lb ub -> 0 <= n -> (ns = true -> 0 < n) ->
  decodes_back (encode_length_determinent E lb ub ns n) (decode_length_determinent E lb ub ns) n.
Proof. exact C06_accepted_proof. Qed.
Print Assumptions C06_accepted_lengths_decode_back.
Example C06_case : size_within (Some 1) (Some 40000) 20000 /\ size_within None None 300.
Proof. repeat split; cbn; lia. Qed.
(* A normally-small length of zero is emitted in release builds as something else. *)
Theorem C06_small_length_zero_refuted :
  fst (encode_length_determinent debug None None true 0 new_data) = Panic /\
  exists d n, encode_length_determinent release None None true 0 new_data = (Ok tt, d) /\
    fst (decode_length_determinent release None None true (from_slice (into_bytes d))) = Ok n /\ n <> 0.
Proof.
  split; [vm_compute; reflexivity|]. eexists. exists 64.
  split; [vm_compute; reflexivity|]. split; [vm_compute; reflexivity|discriminate].
Qed.
Print Assumptions C06_small_length_zero_refuted.

(* ===== C07-C10 ===== *)
Theorem C07_bool_round_trip : forall E b a,
  writes (encode_bool b) a [b] /\ reads (decode_bool E) a [b] b.
Proof. exact C07_proof. Qed.
Print Assumptions C07_bool_round_trip.
Example C07_case : fst (decode_bool debug (mkD [false; true; false] 1 None)) = Ok true.
Proof. reflexivity. Qed.

Theorem C08_enumerated_round_trip : forall E lb ub ext v,
  i128 lb -> i128 ub -> lb <= v <= ub -> ub - lb < 65536 ->
  round_trips (encode_enumerated E (Some lb) (Some ub) ext v false)
              (decode_enumerated E (Some lb) (Some ub) ext) (v, false).
Proof. exact C08_proof. Qed.
Print Assumptions C08_enumerated_round_trip.
Theorem C08_accepted_enumerated_decode_back : forall E lb ub ext v x, i128 lb -> i128 ub ->
  decodes_back (encode_enumerated E (Some lb) (Some ub) ext v x)
               (decode_enumerated E (Some lb) (Some ub) ext) (v, false).
Proof. exact C08_accepted_proof. Qed.
Print Assumptions C08_accepted_enumerated_decode_back.
Example C08_case : round_trips (encode_enumerated debug (Some 0) (Some 6) true 5 false)
  (decode_enumerated debug (Some 0) (Some 6) true) (5, false).
Proof. apply C08_enumerated_round_trip; unfold i128; lia. Qed.

Theorem C09_choice_round_trip : forall E lb ub ext v,
  i128 lb -> i128 ub -> lb <= v <= ub -> ub - lb < 65536 ->
  round_trips (encode_choice_idx E lb ub ext v false) (decode_choice_idx E lb ub ext) (v, false).
Proof. exact C09_proof. Qed.
Print Assumptions C09_choice_round_trip.
Theorem C09_accepted_choice_decode_back : forall E lb ub ext v x, i128 lb -> i128 ub ->
  decodes_back (encode_choice_idx E lb ub ext v x) (decode_choice_idx E lb ub ext) (v, false).
Proof. exact C09_accepted_proof. Qed.
Print Assumptions C09_accepted_choice_decode_back.
Example C09_case : round_trips (encode_choice_idx debug 0 300 true 299 false)
  (decode_choice_idx debug 0 300 true) (299, false).
Proof. apply C09_choice_round_trip; unfold i128; lia. Qed.

Theorem C10_sequence_header_round_trip : forall E ext bitmap,
  round_trips (encode_sequence_header ext bitmap false)
              (decode_sequence_header E ext (zlen bitmap)) (bitmap, false).
Proof. exact C10_proof. Qed.
Print Assumptions C10_sequence_header_round_trip.
Example C10_case : fst (decode_sequence_header debug true 3
  (snd (encode_sequence_header true [true; false; true] false new_data))) = Ok ([true; false; true], false).
Proof. reflexivity. Qed.

(* ===== C11-C13 strings ===== *)
Theorem C11_bitstring_round_trip : forall E lb ub ext l,
  size_within lb ub (zlen l) -> zlen l < 16384 ->
  round_trips (encode_bitstring E lb ub ext l false) (decode_bitstring E lb ub ext) l.
Proof. exact C11_proof. Qed.
Print Assumptions C11_bitstring_round_trip.
Theorem C11_accepted_bitstrings_decode_back : forall E lb ub ext l x, size_sane lb ub ->
  decodes_back (encode_bitstring E lb ub ext l x) (decode_bitstring E lb ub ext) l.
Proof. exact C11_accepted_proof. Qed.
Print Assumptions C11_accepted_bitstrings_decode_back.
Theorem C11_long_bitstrings_rejected : forall E lb ub ext l, 16384 <= zlen l ->
  refuses_value (encode_bitstring E lb ub ext l false) ext.
Proof. exact C11_long_proof. Qed.
Print Assumptions C11_long_bitstrings_rejected.
Example C11_case : size_within (Some 1) (Some 160) (zlen (repeat true 100)).
Proof. repeat split; cbn; lia. Qed.

Theorem C12_octetstring_round_trip : forall E lb ub ext l,
  bytes_ok l -> size_within lb ub (zlen l) -> zlen l < 16384 ->
  round_trips (encode_octetstring E lb ub ext l false) (decode_octetstring E lb ub ext) l.
Proof. exact C12_proof. Qed.
Print Assumptions C12_octetstring_round_trip.
Theorem C12_accepted_octetstrings_decode_back : forall E lb ub ext l x, size_sane lb ub -> bytes_ok l ->
  decodes_back (encode_octetstring E lb ub ext l x) (decode_octetstring E lb ub ext) l.
Proof. exact C12_accepted_proof. Qed.
Print Assumptions C12_accepted_octetstrings_decode_back.
Theorem C12_long_octetstrings_rejected : forall E lb ub ext l, 16384 <= zlen l ->
  refuses_value (encode_octetstring E lb ub ext l false) ext.
Proof. exact C12_long_proof. Qed.
Print Assumptions C12_long_octetstrings_rejected.
Example C12_case : size_within None None (zlen [1; 2; 255]) /\ bytes_ok [1; 2; 255].
Proof. split; [repeat split; cbn; lia|]. repeat constructor; lia. Qed.

(* Full claim: both byte orders.  Missing: one- and two-byte strings on a
   little-endian host whose encoding does not end on a byte boundary. *)
Theorem C13_string_round_trip_partial : forall E lb ub ext l x s s', size_sane lb ub -> bytes_ok l ->
  utf8_valid l = true ->
  little_endian E = false \/ 2 < zlen l \/ zlen (bits s') mod 8 = 0 ->
  encode_string E lb ub ext l x s = (Ok tt, s') ->
  exists e, bits s' = bits s ++ e /\ reads (decode_string E lb ub ext) (zlen (bits s)) e l.
Proof. exact C13_proof. Qed.
Print Assumptions C13_string_round_trip_partial.
Theorem C13_strings_accepted : forall E lb ub ext l,
  size_within lb ub (zlen l) -> zlen l < 16384 -> forall s, fst (encode_string E lb ub ext l false s) = Ok tt.
Proof. exact C13_accepts_proof. Qed.
Print Assumptions C13_strings_accepted.
Example C13_case : size_within None None (zlen [72; 105; 33]) /\ utf8_valid [72; 105; 33] = true /\
  utf8_valid [195; 40] = false /\ utf8_valid [195; 169] = true.
Proof. repeat split; try reflexivity; cbn; lia. Qed.
(* "Hi" in a two-character string one bit into the buffer, on a little-endian host. *)
Theorem C13_short_string_refuted : exists l d, utf8_valid l = true /\
  encode_string debug (Some 2) (Some 2) true l false new_data = (Ok tt, d) /\
  fst (decode_string debug (Some 2) (Some 2) true (from_slice (into_bytes d))) <> Ok l.
Proof. exists [72; 105]. eexists. split; [reflexivity|]. split; [vm_compute; reflexivity|]. vm_compute. discriminate. Qed.
Print Assumptions C13_short_string_refuted.

(* ===== C14 encoding only appends ===== *)
Theorem C14_encoding_only_appends : forall E l s r s',
  encode_all E l s = (r, s') -> off s' = off s /\ key s' = key s /\ exists e, bits s' = bits s ++ e.
Proof. exact C14_proof. Qed.
Print Assumptions C14_encoding_only_appends.
(* and what is appended depends only on the arguments and the alignment *)
Theorem C14_output_depends_on_alignment_only : forall E l s1 s2 r1 s1' r2 s2' e,
  zlen (bits s1) mod 8 = zlen (bits s2) mod 8 ->
  encode_all E l s1 = (r1, s1') -> encode_all E l s2 = (r2, s2') ->
  bits s1' = bits s1 ++ e -> r1 = r2 /\ bits s2' = bits s2 ++ e.
Proof. exact C14_align_proof. Qed.
Print Assumptions C14_output_depends_on_alignment_only.
Example C14_case : exists e, bits (snd (encode_all debug
   [(PBool, VBool true); (PInt (Some 0) (Some 2) false, VNum 5 false)] (mkD [true] 0 None)))  = [true] ++ e.
Proof. eexists. vm_compute. reflexivity. Qed.

(* ===== C15-C17 locality of decoding ===== *)
Theorem C15_decoding_frame : forall E l s r s', fits (bits s) -> 0 <= off s <= zlen (bits s) ->
  decode_all E l s = (r, s') -> bits s' = bits s /\ off s <= off s' <= zlen (bits s).
Proof. exact C15_proof. Qed.
Print Assumptions C15_decoding_frame.
Example C15_case : exists s', decode_all debug [PBool; PInt (Some 0) (Some 255) false] (from_slice [128]) = (Err, s')
  /\ off s' = 8.
Proof. eexists. split; vm_compute; reflexivity. Qed.

Theorem C16_result_depends_on_consumed_bits_only : forall E l pre mid post k v k',
  fits (pre ++ mid ++ post) ->
  decode_all E l (mkD (pre ++ mid ++ post) (zlen pre) k)
    = (Ok v, mkD (pre ++ mid ++ post) (zlen pre + zlen mid) k') ->
  forall pre' post', zlen pre' mod 8 = zlen pre mod 8 -> fits (pre' ++ mid ++ post') ->
  decode_all E l (mkD (pre' ++ mid ++ post') (zlen pre') k)
    = (Ok v, mkD (pre' ++ mid ++ post') (zlen pre' + zlen mid) k').
Proof. exact C16_proof. Qed.
Print Assumptions C16_result_depends_on_consumed_bits_only.
Example C16_case : decode_all debug [PBool; PInt (Some 0) (Some 7) false]
    (mkD ([false] ++ [true; false; true; true] ++ [true; true]) (zlen [false]) None)
  = (Ok [VBool true; VNum 3 false], mkD ([false] ++ [true; false; true; true] ++ [true; true]) (zlen [false] + 4) None).
Proof. vm_compute. reflexivity. Qed.

Theorem C17_truncated_input_not_accepted : forall E l pre mid post k v k',
  fits (pre ++ mid ++ post) ->
  decode_all E l (mkD (pre ++ mid ++ post) (zlen pre) k)
    = (Ok v, mkD (pre ++ mid ++ post) (zlen pre + zlen mid) k') ->
  forall m1 m2, mid = m1 ++ m2 -> m2 <> [] -> forall w s',
  decode_all E l (mkD (pre ++ m1) (zlen pre) k) <> (Ok w, s').
Proof. exact C17_proof. Qed.
Print Assumptions C17_truncated_input_not_accepted.
Example C17_case : fst (decode_all debug [POctets None None false] (from_slice [2; 7; 9])) = Ok [VBytes [7; 9] false]
  /\ fst (decode_all debug [POctets None None false] (from_slice [2; 7])) = Err.
Proof. split; vm_compute; reflexivity. Qed.

(* ===== C18 decoding never panics ===== *)
(* Full claim: all byte strings.  Missing: calls that read a semi-constrained
   number, when 17 or more octets remain (refuted below). *)
Theorem C18_decoding_never_panics_partial : forall E c s,
  byte_buffer s -> call_sane E c -> (reads_semi_constrained c = true -> unread s < 136) ->
  returns_normally (fst (decode_prim E c s)).
Proof. exact call_safe. Qed.
Print Assumptions C18_decoding_never_panics_partial.
Example C18_case : byte_buffer (from_slice [255; 255; 255]) /\ call_sane debug (PBits (Some 0) (Some 150) true) /\
  call_sane debug (PInt (Some (-5)) (Some 70000) true).
Proof. repeat split; cbn; try lia; vm_compute; congruence. Qed.
(* 19 bytes make the decoder of an extensible two-alternative CHOICE panic. *)
Theorem C18_extensible_choice_panic_refuted : forall E, exists bytes, zlen bytes = 19 /\
  fst (decode_choice_idx E 0 1 true (from_slice bytes)) = Panic.
Proof. intros [[|] [|]]; exists ([192; 17] ++ repeat 0 17); split; vm_compute; reflexivity. Qed.
Print Assumptions C18_extensible_choice_panic_refuted.
Theorem C18_extensible_enumerated_panic_refuted : forall E, exists bytes, zlen bytes = 19 /\
  fst (decode_enumerated E (Some 0) (Some 1) true (from_slice bytes)) = Panic.
Proof. intros [[|] [|]]; exists ([192; 17] ++ repeat 0 17); split; vm_compute; reflexivity. Qed.
Print Assumptions C18_extensible_enumerated_panic_refuted.
Theorem C18_semi_constrained_panic_refuted : forall E, exists bytes, zlen bytes = 18 /\
  fst (decode_integer E (Some 0) None false (from_slice bytes)) = Panic.
Proof. intros [[|] [|]]; exists ([17] ++ repeat 0 17); split; vm_compute; reflexivity. Qed.
Print Assumptions C18_semi_constrained_panic_refuted.

(* ===== C19 decoding terminates ===== *)
(* Diverge is what a loop returns when more iterations than the buffer has
   bits have been made; it never happens, so the loops are bounded. *)
Theorem C19_decoding_terminates : forall E c s, fits (bits s) -> 0 <= off s <= zlen (bits s) ->
  fst (decode_prim E c s) <> Diverge.
Proof. exact C19_proof. Qed.
Print Assumptions C19_decoding_terminates.
Example C19_case : fst (decode_prim debug (PBits None None false) (from_slice (196 :: repeat 170 100))) = Err.
Proof. vm_compute. reflexivity. Qed.

(* ===== C20 encoding never panics ===== *)
(* Full claim: all i128 arguments.  Missing: ranges or offsets of 2^127 or
   more, and the normally-small length zero (refuted: C01_huge_range_panics,
   C03_semi_constrained_refuted, C06_small_length_zero_refuted). *)
Theorem C20_encoding_never_panics_partial : forall E c v s, args_sane c v ->
  returns_normally (fst (encode_prim E c v s)).
Proof. exact call_calm. Qed.
Print Assumptions C20_encoding_never_panics_partial.
Example C20_case : args_sane (PInt (Some (- 2 ^ 100)) (Some (2 ^ 100)) true) (VNum 7 true).
Proof. repeat split; cbn; vm_compute; congruence. Qed.
Theorem C20_encoding_panic_refuted : exists c v, fst (encode_prim release c v new_data) = Panic.
Proof. exists (PInt (Some (- 2 ^ 127)) (Some (2 ^ 127 - 1)) false), (VNum 0 false). vm_compute. reflexivity. Qed.
Print Assumptions C20_encoding_panic_refuted.

(* ===== C21 bytes ===== *)
Theorem C21_bytes_identity : forall l, bytes_ok l -> into_bytes (from_slice l) = l.
Proof. exact C21_identity_proof. Qed.
Print Assumptions C21_bytes_identity.
Theorem C21_into_bytes_spec : forall s,
  bytes_ok (into_bytes s) /\ zlen (into_bytes s) = (zlen (bits s) + 7) / 8 /\
  exists z, (z < 8)%nat /\ bits (from_slice (into_bytes s)) = bits s ++ repeat false z.
Proof. exact C21_spec_proof. Qed.
Print Assumptions C21_into_bytes_spec.
Theorem C21_length_in_bytes_partial : forall E s, 0 < zlen (bits s) < 2 ^ 61 ->
  length_in_bytes E s = Ok (zlen (into_bytes s)).
Proof. exact length_in_bytes_eq. Qed.
Print Assumptions C21_length_in_bytes_partial.
Theorem C21_length_of_nothing_refuted : length_in_bytes debug new_data = Panic /\
  exists n, length_in_bytes release new_data = Ok n /\ n <> zlen (into_bytes new_data).
Proof. split; [reflexivity|]. exists (2 ^ 61). split; [reflexivity|vm_compute; discriminate]. Qed.
Print Assumptions C21_length_of_nothing_refuted.
Example C21_case : into_bytes (mkD [true; false; true; true; false; false; false; false; true] 0 None) = [176; 128].
Proof. reflexivity. Qed.

(* ===== C22 alignment ===== *)
Theorem C22_align_pads_with_zeros : forall s, exists n, (n < 8)%nat /\
  align s = (Ok tt, mkD (bits s ++ repeat false n) (off s) (key s)) /\ (zlen (bits s) + Z.of_nat n) mod 8 = 0.
Proof. exact align_adds. Qed.
Print Assumptions C22_align_pads_with_zeros.
Theorem C22_decode_align : forall p z t k, fits (p ++ z ++ t) -> zlen z = (- zlen p) mod 8 ->
  decode_align (mkD (p ++ z ++ t) (zlen p) k) =
  if forallb negb z then (Ok tt, mkD (p ++ z ++ t) (zlen p + zlen z) k)
  else (Err, mkD (p ++ z ++ t) (zlen p) k).
Proof. exact align_decode. Qed.
Print Assumptions C22_decode_align.
Theorem C22_append_aligned : forall other s, exists n m, (n < 8)%nat /\ (m < 8)%nat /\
  append_aligned other s = (Ok tt, mkD (bits s ++ repeat false n ++ bits other ++ repeat false m) (off s) (key s))
  /\ (zlen (bits s) + Z.of_nat n) mod 8 = 0 /\ (zlen (bits other) + Z.of_nat m) mod 8 = 0.
Proof. exact append_aligned_adds. Qed.
Print Assumptions C22_append_aligned.
Example C22_case : align (mkD [true; true; true] 0 None) = (Ok tt, mkD [true; true; true; false; false; false; false; false] 0 None)
  /\ fst (decode_align (mkD [true; true; true; false; false; true; false; false] 3 None)) = Err.
Proof. split; reflexivity. Qed.

(* ===== C23 histories ===== *)
(* Full claim: all values each call accepts in isolation; call_encodable keeps
   the exclusions of C01-C03 and C13. *)
Theorem C23_histories_compose_partial : forall E l,
  Forall (fun cv => call_encodable E (fst cv) (snd cv)) l ->
  round_trips (encode_all E l) (decode_all E (map fst l)) (map snd l).
Proof. exact C23_proof. Qed.
Print Assumptions C23_histories_compose_partial.
Theorem C23_histories_through_bytes_partial : forall E l,
  Forall (fun cv => call_encodable E (fst cv) (snd cv)) l ->
  exists d, encode_all E l new_data = (Ok tt, d) /\
    (zlen (bits d) < 2 ^ 60 ->
     fst (decode_all E (map fst l) (from_slice (into_bytes d))) = Ok (map snd l) /\
     off (snd (decode_all E (map fst l) (from_slice (into_bytes d)))) = zlen (bits d)).
Proof. exact C23_bytes_proof. Qed.
Print Assumptions C23_histories_through_bytes_partial.
Example C23_case : Forall (fun cv => call_encodable debug (fst cv) (snd cv))
  [(PSeqHeader true 2, VBits [true; false] false); (PInt (Some 0) (Some 300) true, VNum 256 false);
   (PChoice 0 2 false, VNum 1 false); (PString (Some 1) (Some 150) true, VBytes [65; 66; 67] false);
   (POctets None None false, VBytes [1; 2; 3] false); (PLength (Some 1) (Some 16) false, VNum 9 false)].
Proof.
  repeat (apply Forall_cons || apply Forall_nil); cbn -[Z.pow]; unfold int_encodable, size_within, size_sane, i128, bytes_ok, opt0;
  repeat split; try lia; try (repeat constructor; lia).
Qed.

(* ===== C29 distinct encodings ===== *)
Theorem C29_encodings_prefix_free_partial : forall E c v v' a e t,
  call_encodable E c v -> call_encodable E c v' ->
  writes (encode_prim E c v) a e -> writes (encode_prim E c v') a (e ++ t) ->
  zlen e + zlen t + 8 < 2 ^ 61 -> v = v' /\ t = [].
Proof. exact C29_proof. Qed.
Print Assumptions C29_encodings_prefix_free_partial.
Theorem C29_history_encodings_prefix_free_partial : forall E l l' a e t,
  Forall (fun cv => call_encodable E (fst cv) (snd cv)) l ->
  Forall (fun cv => call_encodable E (fst cv) (snd cv)) l' -> map fst l = map fst l' ->
  writes (encode_all E l) a e -> writes (encode_all E l') a (e ++ t) ->
  zlen e + zlen t + 8 < 2 ^ 61 -> l = l' /\ t = [].
Proof. exact C29_all_proof. Qed.
Print Assumptions C29_history_encodings_prefix_free_partial.
Example C29_case : call_encodable debug (PInt (Some 0) (Some 255) false) (VNum 3 false) /\
  call_encodable debug (PInt (Some 0) (Some 255) false) (VNum 4 false) /\
  writes (encode_prim debug (PInt (Some 0) (Some 255) false) (VNum 3 false)) 0 (low_bits 8 3).
Proof.
  split; [unfold call_encodable, int_encodable, i128; lia|].
  split; [unfold call_encodable, int_encodable, i128; lia|].
  destruct (C01_constrained_integer_round_trip_partial debug 0 255 false 3) with (a := 0) as (e & W & _);
    try (unfold i128; lia).
  pose proof (W [] 0 None eq_refl) as H. vm_compute in H. injection H as <-. exact W.
Qed.
