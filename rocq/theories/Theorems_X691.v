(* Conformance of the primitive codec to X.691 (properties.jsonl C30, C31,
   C43-C46).  Vocabulary: X691.v (the encoding rules), X691Spec.v and Spec.v. *)
From Coq Require Import ZArith List Bool Lia.
Require Import Verif.Base Verif.CodecModel Verif.Spec Verif.ApiSpec Verif.X691 Verif.X691Spec.
Require Import Verif.BitLemmas Verif.IntegerProofs Verif.X691Proofs Verif.X691Facts.
Import ListNotations.
Open Scope Z_scope.

Definition debug := {| overflow_checks := true; little_endian := true |}.

(* ===== C30 constrained INTEGER ===== *)
(* Full claim: every range and value.  Missing: ranges of exactly 2^32 or 2^64
   values (refuted), and what C01 already excludes. *)
Theorem C30_constrained_integer_follows_x691_partial : forall E lb ub ext v,
  i128 lb -> i128 ub -> lb <= v <= ub -> ub - lb + 1 < 2 ^ 127 -> (ub - lb < 65536 \/ lb < v) -> x_regular lb ub ->
  follows (encode_integer E (Some lb) (Some ub) ext v false) (x_root ext (x_constrained lb ub v)).
Proof. exact C30_int_proof. Qed.
Print Assumptions C30_constrained_integer_follows_x691_partial.
Theorem C30_enumerated_index_follows_x691_partial : forall E lb ub ext v,
  i128 lb -> i128 ub -> lb <= v <= ub -> ub - lb + 1 < 2 ^ 127 -> (ub - lb < 65536 \/ lb < v) -> x_regular lb ub ->
  follows (encode_enumerated E (Some lb) (Some ub) ext v false) (x_root ext (x_constrained lb ub v)).
Proof. exact C30_enum_proof. Qed.
Print Assumptions C30_enumerated_index_follows_x691_partial.
Theorem C30_choice_index_follows_x691_partial : forall E lb ub ext v,
  i128 lb -> i128 ub -> lb <= v <= ub -> ub - lb + 1 < 2 ^ 127 -> (ub - lb < 65536 \/ lb < v) -> x_regular lb ub ->
  follows (encode_choice_idx E lb ub ext v false) (x_root ext (x_constrained lb ub v)).
Proof. exact C30_choice_proof. Qed.
Print Assumptions C30_choice_index_follows_x691_partial.
Example C30_case : x_regular (-5) 1000000 /\
  follows (encode_integer debug (Some (-5)) (Some 1000000) true 123456 false) (x_root true (x_constrained (-5) 1000000 123456)).
Proof. split; [|apply C30_constrained_integer_follows_x691_partial]; unfold i128, x_regular; lia. Qed.
(* 65536 as a value of 0..4294967295: X.691 takes a 2-bit length, the code a 3-bit one. *)
Theorem C30_range_of_2_32_refuted : forall E e,
  writes (encode_integer E (Some 0) (Some (2 ^ 32 - 1)) false 65536 false) 0 e ->
  ~ x_root false (x_constrained 0 (2 ^ 32 - 1) 65536) 0 e.
Proof. exact C30_2_32_proof. Qed.
Print Assumptions C30_range_of_2_32_refuted.
Example C30_range_of_2_32_case : forall E, exists e,
  writes (encode_integer E (Some 0) (Some (2 ^ 32 - 1)) false 65536 false) 0 e.
Proof. intros E. eexists. apply writes_int. unfold int_ok, i128. repeat split; lia. Qed.
(* 2^32 as a value of 0..2^64-1. *)
Theorem C30_range_of_2_64_refuted : forall E e,
  writes (encode_integer E (Some 0) (Some (2 ^ 64 - 1)) false (2 ^ 32) false) 0 e ->
  ~ x_root false (x_constrained 0 (2 ^ 64 - 1) (2 ^ 32)) 0 e.
Proof. exact C30_2_64_proof. Qed.
Print Assumptions C30_range_of_2_64_refuted.
Example C30_range_of_2_64_case : forall E, exists e,
  writes (encode_integer E (Some 0) (Some (2 ^ 64 - 1)) false (2 ^ 32) false) 0 e.
Proof. intros E. eexists. apply writes_int. unfold int_ok, i128. repeat split; lia. Qed.

(* ===== C31 lengths, other integers, strings ===== *)
Theorem C31_length_follows_x691 : forall E lb ub n, size_within lb ub n ->
  n < 16384 \/ (exists u, ub = Some u /\ u < 65536) ->
  follows (encode_length_determinent E lb ub false n) (x_length lb ub n).
Proof. exact C31_len_proof. Qed.
Print Assumptions C31_length_follows_x691.
Theorem C31_small_length_follows_x691_partial : forall E lb ub n, 1 <= n < 16384 -> n <= 32 \/ 64 < n ->
  follows (encode_length_determinent E lb ub true n) (x_small_length n).
Proof. exact C31_small_proof. Qed.
Print Assumptions C31_small_length_follows_x691_partial.
(* 33 to 64: never the X.691 form. *)
Theorem C31_small_length_33_to_64_refuted : forall E lb ub n a e, 33 <= n <= 64 ->
  writes (encode_length_determinent E lb ub true n) a e -> ~ x_small_length n a e.
Proof. exact C31_small_deviates_proof. Qed.
Print Assumptions C31_small_length_33_to_64_refuted.
Theorem C31_unconstrained_integer_follows_x691 : forall E ub ext v, i128 v ->
  follows (encode_integer E None ub ext v false) (x_root ext (x_unconstrained v)).
Proof. exact C31_unc_proof. Qed.
Print Assumptions C31_unconstrained_integer_follows_x691.
Theorem C31_semi_constrained_follows_x691_partial : forall E lb ext v,
  i128 v -> lb <= v -> v - lb < 2 ^ 127 -> x_top_bit_clear (v - lb) ->
  follows (encode_integer E (Some lb) None ext v false) (x_root ext (x_semi_constrained lb v)).
Proof. exact C31_semi_proof. Qed.
Print Assumptions C31_semi_constrained_follows_x691_partial.
(* Exactly the other values are encoded with one octet too many. *)
Theorem C31_semi_constrained_refuted : forall E lb ext v a e,
  i128 v -> lb <= v -> v - lb < 2 ^ 127 -> ~ x_top_bit_clear (v - lb) ->
  writes (encode_integer E (Some lb) None ext v false) a e -> ~ x_root ext (x_semi_constrained lb v) a e.
Proof. exact C31_semi_deviates_proof. Qed.
Print Assumptions C31_semi_constrained_refuted.
Example C31_case : size_within (Some 1) (Some 40000) 20000 /\ size_within None None 300 /\
  x_top_bit_clear (300 - 0) /\ ~ x_top_bit_clear (200 - 0).
Proof.
  split; [repeat split; cbn; lia|]. split; [repeat split; cbn; lia|]. split; [exact top_bit_300|].
  intros H. apply (H 1); lia.
Qed.
Theorem C31_bit_string_follows_x691_partial : forall E lb ub ext l,
  size_within lb ub (zlen l) -> zlen l < 16384 -> str_regular 16 lb ub l ->
  follows (encode_bitstring E lb ub ext l false) (x_root ext (x_string bits_id 16 lb ub l)).
Proof. exact C31_bits_proof. Qed.
Print Assumptions C31_bit_string_follows_x691_partial.
Theorem C31_octet_string_follows_x691_partial : forall E lb ub ext l,
  size_within lb ub (zlen l) -> zlen l < 16384 -> str_regular 2 lb ub l ->
  follows (encode_octetstring E lb ub ext l false) (x_root ext (x_string bytes_bits 2 lb ub l)).
Proof. exact C31_octets_proof. Qed.
Print Assumptions C31_octet_string_follows_x691_partial.
Theorem C31_utf8_string_follows_x691 : forall E l, zlen l < 16384 ->
  follows (encode_string E None None false l false) (x_fragments bytes_bits l).
Proof. exact C31_text_proof. Qed.
Print Assumptions C31_utf8_string_follows_x691.
Theorem C31_sequence_header_follows_x691 : forall ext bitmap,
  follows (encode_sequence_header ext bitmap false) (x_root ext (fun _ e => e = bitmap)).
Proof. exact C31_header_proof. Qed.
Print Assumptions C31_sequence_header_follows_x691.
Example C31_string_case : str_regular 16 (Some 1) (Some 160) (repeat true 100) /\ str_regular 2 (Some 2) (Some 2) [1; 2] /\
  size_within (Some 2) (Some 2) (zlen [1; 2]).
Proof. repeat split; cbn; lia. Qed.
(* An octet string of size 1..4 with two octets: X.691 pads after the length,
   the code does not. *)
Theorem C31_short_octet_string_refuted : forall E e,
  writes (encode_octetstring E (Some 1) (Some 4) false [1; 2] false) 0 e ->
  ~ x_root false (x_string bytes_bits 2 (Some 1) (Some 4) [1; 2]) 0 e.
Proof. exact C31_short_octets_proof. Qed.
Print Assumptions C31_short_octet_string_refuted.
Example C31_short_octet_string_case : forall E, exists e,
  writes (encode_octetstring E (Some 1) (Some 4) false [1; 2] false) 0 e.
Proof. intros E. eexists. apply StringProofs.writes_octetstring; [repeat split; cbn; lia|cbn; lia]. Qed.

(* ===== C43 decoded character strings are text ===== *)
Theorem C43_decoded_strings_are_utf8 : forall E lb ub ext s l s',
  decode_string E lb ub ext s = (Ok l, s') -> utf8_text l.
Proof. exact string_utf8. Qed.
Print Assumptions C43_decoded_strings_are_utf8.
Theorem C43_utf8_check_exact : forall l, utf8_valid l = true <-> utf8_text l.
Proof. exact utf8_valid_iff. Qed.
Print Assumptions C43_utf8_check_exact.
Example C43_case : fst (decode_string debug None None false (from_slice [3; 226; 130; 172])) = Ok [226; 130; 172] /\
  fst (decode_string debug None None false (from_slice [3; 237; 160; 128])) = Err.
Proof. split; vm_compute; reflexivity. Qed.

(* ===== C44 values beyond the extension marker ===== *)
Theorem C44_extension_integers_decode_partial : forall E lb ub v a e,
  x_readable None None v -> x_unconstrained v (a + 1) e ->
  reads (decode_integer E lb ub true) a (true :: e) (v, true).
Proof. exact C44_int_proof. Qed.
Print Assumptions C44_extension_integers_decode_partial.
Theorem C44_extension_enumerations_decode_partial : forall E lb ub v a e,
  v < 2 ^ 127 -> x_small_number v (a + 1) e ->
  reads (decode_enumerated E lb ub true) a (true :: e) (v, true).
Proof. exact C44_enum_proof. Qed.
Print Assumptions C44_extension_enumerations_decode_partial.
Theorem C44_extension_alternatives_decode_partial : forall E lb ub v a e,
  v < 2 ^ 127 -> x_small_number v (a + 1) e ->
  reads (decode_choice_idx E lb ub true) a (true :: e) (v, true).
Proof. exact x_choice_ext_reads. Qed.
Print Assumptions C44_extension_alternatives_decode_partial.
Theorem C44_extension_sequence_header_decodes : forall E n bitmap a, zlen bitmap = n ->
  reads (decode_sequence_header E true n) a (true :: bitmap) (bitmap, true).
Proof. exact x_seqhdr_ext_reads. Qed.
Print Assumptions C44_extension_sequence_header_decodes.
Theorem C44_extension_bit_strings_decode : forall E lb ub l a e, x_fragments bits_id l (a + 1) e ->
  reads (decode_bitstring E lb ub true) a (true :: e) l.
Proof. exact x_bitstring_ext_reads. Qed.
Print Assumptions C44_extension_bit_strings_decode.
Theorem C44_extension_octet_strings_decode : forall E lb ub l a e, bytes_ok l -> x_fragments bytes_bits l (a + 1) e ->
  reads (decode_octetstring E lb ub true) a (true :: e) l.
Proof. exact x_octetstring_ext_reads. Qed.
Print Assumptions C44_extension_octet_strings_decode.
Example C44_case : x_small_number 7 1 [false; false; false; false; true; true; true] /\
  x_readable None None 1000 /\ x_unconstrained 1000 1 (unc_bits 1 1000) /\
  x_fragments bytes_bits [1; 2; 3] 1 (x_pad 1 ++ [false] ++ low_bits 7 3 ++ bytes_bits [1; 2; 3]).
Proof.
  split; [apply xsn_small; [lia|split; reflexivity]|]. split; [unfold x_readable, i128; lia|].
  split; [apply x_unc_iff; [unfold i128; lia|reflexivity]|].
  apply (xf_last bytes_bits [1; 2; 3] 1 (x_pad 1 ++ [false] ++ low_bits 7 3)).
  apply xl_short; [cbn; lia|split; reflexivity].
Qed.

(* ===== C45 fragments ===== *)
Theorem C45_fragmented_bit_strings_decode : forall E lb ub l,
  size_sane lb ub -> x_small_bound ub = false ->
  understands (decode_bitstring E lb ub false) (x_fragments bits_id l) l.
Proof. exact C45_bits_proof. Qed.
Print Assumptions C45_fragmented_bit_strings_decode.
Theorem C45_fragmented_octet_strings_decode : forall E lb ub l,
  size_sane lb ub -> x_small_bound ub = false -> bytes_ok l ->
  understands (decode_octetstring E lb ub false) (x_fragments bytes_bits l) l.
Proof. exact C45_octets_proof. Qed.
Print Assumptions C45_fragmented_octet_strings_decode.
Theorem C45_bad_fragments_of_bit_strings_rejected : forall E lb ub,
  size_sane lb ub -> x_small_bound ub = false ->
  refuses_input (decode_bitstring E lb ub false) (x_bad_fragments (fun _ => True) bits_id).
Proof. exact C45_bits_bad_proof. Qed.
Print Assumptions C45_bad_fragments_of_bit_strings_rejected.
Theorem C45_bad_fragments_of_octet_strings_rejected : forall E lb ub,
  size_sane lb ub -> x_small_bound ub = false ->
  refuses_input (decode_octetstring E lb ub false) (x_bad_fragments (fun b => 0 <= b < 256) bytes_bits).
Proof. exact C45_octets_bad_proof. Qed.
Print Assumptions C45_bad_fragments_of_octet_strings_rejected.
Example C45_case : exists e, x_fragments bytes_bits (repeat 7 (Z.to_nat 16384) ++ [1; 2]) 0 e /\
  exists e', x_bad_fragments (fun b => 0 <= b < 256) bytes_bits 0 e'.
Proof. exact C45_case_proof. Qed.
(* Character strings: the decoder returns the first fragment and stops there. *)
Theorem C45_fragmented_character_string_refuted : forall E k l a e,
  1 <= k <= 4 -> zlen l = k * 16384 -> bytes_ok l -> utf8_text l -> x_field 6 k e ->
  reads (decode_string E None None false) a (x_pad a ++ [true; true] ++ e ++ bytes_bits l) l.
Proof. exact C45_text_cut_proof. Qed.
Print Assumptions C45_fragmented_character_string_refuted.

(* ===== C46 the decoders accept X.691 encodings ===== *)
Theorem C46_integers_understood_partial : forall E lb ub ext v, int_regular lb ub -> x_readable lb ub v ->
  understands (decode_integer E lb ub ext) (x_root ext (x_root_integer lb ub v)) (v, false).
Proof. exact C46_int_proof. Qed.
Print Assumptions C46_integers_understood_partial.
Theorem C46_enumerations_understood_partial : forall E lb ub ext v, int_regular (Some lb) (Some ub) ->
  understands (decode_enumerated E (Some lb) (Some ub) ext) (x_root ext (x_constrained lb ub v)) (v, false).
Proof. exact C46_enum_proof. Qed.
Print Assumptions C46_enumerations_understood_partial.
Theorem C46_choices_understood_partial : forall E lb ub ext v, int_regular (Some lb) (Some ub) ->
  understands (decode_choice_idx E lb ub ext) (x_root ext (x_constrained lb ub v)) (v, false).
Proof. exact C46_choice_proof. Qed.
Print Assumptions C46_choices_understood_partial.
Theorem C46_lengths_understood : forall E lb ub n, size_sane lb ub ->
  understands (decode_length_determinent E lb ub false) (x_length lb ub n) n.
Proof. exact C46_len_proof. Qed.
Print Assumptions C46_lengths_understood.
Theorem C46_small_lengths_understood : forall E lb ub n,
  understands (decode_length_determinent E lb ub true) (x_small_length n) n.
Proof. exact C46_small_proof. Qed.
Print Assumptions C46_small_lengths_understood.
Theorem C46_bit_strings_understood_partial : forall E lb ub ext l, str_regular 16 lb ub l ->
  understands (decode_bitstring E lb ub ext) (x_root ext (x_string bits_id 16 lb ub l)) l.
Proof. exact C46_bits_proof. Qed.
Print Assumptions C46_bit_strings_understood_partial.
Theorem C46_octet_strings_understood_partial : forall E lb ub ext l, str_regular 2 lb ub l -> bytes_ok l ->
  understands (decode_octetstring E lb ub ext) (x_root ext (x_string bytes_bits 2 lb ub l)) l.
Proof. exact C46_octets_proof. Qed.
Print Assumptions C46_octet_strings_understood_partial.
Theorem C46_utf8_strings_understood_partial : forall E l, utf8_text l -> bytes_ok l -> zlen l < 16384 ->
  understands (decode_string E None None false) (x_fragments bytes_bits l) l.
Proof. exact C46_text_proof. Qed.
Print Assumptions C46_utf8_strings_understood_partial.
Example C46_case : int_regular (Some 0) (Some 1000000) /\ x_constrained 0 1000000 65536 0 (con_bits 0 1000001 65536) /\
  x_semi_constrained 0 200 0 (low_bits 8 1 ++ low_bits 8 200) /\ x_readable (Some 0) None 200 /\
  x_length None None 300 0 (len_bits 0 None None false 300) /\ x_small_length 40 0 (false :: low_bits 6 39).
Proof. exact C46_case_proof. Qed.
(* 65536 out of 0..4294967295 in X.691 form is read as something else. *)
Theorem C46_range_of_2_32_refuted : exists e,
  x_constrained 0 (2 ^ 32 - 1) 65536 0 e /\
  forall E, fst (decode_integer E (Some 0) (Some (2 ^ 32 - 1)) false (mkD (e ++ repeat false 64) 0 None)) <> Ok (65536, false).
Proof. exact C46_2_32_proof. Qed.
Print Assumptions C46_range_of_2_32_refuted.
