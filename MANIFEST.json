{
 "claims": [
  {
   "property": "C01",
   "status": "partial",
   "theorems": [
    "C01_constrained_integer_round_trip_partial",
    "C01_accepted_integers_decode_back",
    "C01_lowest_value_of_large_range_rejected",
    "C01_huge_range_panics",
    "C01_constrained_integer_round_trip_refuted"
   ],
   "note": "False as stated: the lowest value of a range above 64K is rejected and ranges of 2^127 values panic (both proved). Proved for every other value, and every accepted value decodes back."
  },
  {
   "property": "C02",
   "status": "partial",
   "theorems": [
    "C02_unconstrained_integer_round_trip_partial",
    "C02_unconstrained_integer_gap_refuted"
   ],
   "note": "Proved for values of 1-8 or 16 octets; values of 9-15 octets are encoded but refused by the decoder (proved for all of them)."
  },
  {
   "property": "C03",
   "status": "partial",
   "theorems": [
    "C03_semi_constrained_integer_round_trip_partial",
    "C03_semi_constrained_refuted"
   ],
   "note": "Proved for v - lb < 2^127; beyond that the encoder panics or wraps (witness)."
  },
  {
   "property": "C04",
   "status": "proved",
   "theorems": [
    "C04_integer_rejects_outside",
    "C04_enumerated_rejects_outside",
    "C04_choice_rejects_outside",
    "C04_length_rejects_outside",
    "C04_bitstring_rejects_outside",
    "C04_octetstring_rejects_outside",
    "C04_string_rejects_outside",
    "C04_upper_bound_alone_ignored_refuted"
   ],
   "note": ""
  },
  {
   "property": "C05",
   "status": "partial",
   "theorems": [
    "C05_decoded_integer_in_bounds_partial",
    "C05_decoded_integer_bounded_partial",
    "C05_decoded_length_bounded_partial",
    "C05_decoded_integer_refuted",
    "C05_decoded_length_refuted",
    "C05_decoded_octetstring_size_refuted",
    "C05_decoded_large_range_refuted"
   ],
   "note": "False in general (witnesses). Proved for ranges of 2^k values (k <= 8 or 16); bounded overshoot proved otherwise."
  },
  {
   "property": "C06",
   "status": "proved",
   "theorems": [
    "C06_length_round_trip",
    "C06_small_length_round_trip",
    "C06_accepted_lengths_decode_back",
    "C06_small_length_zero_refuted"
   ],
   "note": "A normally-small length of 0 is not accepted by debug builds and is mangled by release builds (witness)."
  },
  {
   "property": "C07",
   "status": "proved",
   "theorems": [
    "C07_bool_round_trip"
   ],
   "note": ""
  },
  {
   "property": "C08",
   "status": "proved",
   "theorems": [
    "C08_enumerated_round_trip",
    "C08_accepted_enumerated_decode_back"
   ],
   "note": ""
  },
  {
   "property": "C09",
   "status": "proved",
   "theorems": [
    "C09_choice_round_trip",
    "C09_accepted_choice_decode_back"
   ],
   "note": ""
  },
  {
   "property": "C10",
   "status": "proved",
   "theorems": [
    "C10_sequence_header_round_trip"
   ],
   "note": ""
  },
  {
   "property": "C11",
   "status": "proved",
   "theorems": [
    "C11_bitstring_round_trip",
    "C11_accepted_bitstrings_decode_back",
    "C11_long_bitstrings_rejected"
   ],
   "note": ""
  },
  {
   "property": "C12",
   "status": "proved",
   "theorems": [
    "C12_octetstring_round_trip",
    "C12_accepted_octetstrings_decode_back",
    "C12_long_octetstrings_rejected"
   ],
   "note": ""
  },
  {
   "property": "C13",
   "status": "partial",
   "theorems": [
    "C13_string_round_trip_partial",
    "C13_strings_accepted",
    "C13_short_string_refuted"
   ],
   "note": "One- and two-byte strings not ending on a byte boundary are scrambled on little-endian hosts (witness); proved otherwise."
  },
  {
   "property": "C14",
   "status": "proved",
   "theorems": [
    "C14_encoding_only_appends",
    "C14_output_depends_on_alignment_only",
    "C14_derived_encoding_only_appends"
   ],
   "note": ""
  },
  {
   "property": "C15",
   "status": "proved",
   "theorems": [
    "C15_decoding_frame",
    "C15_derived_decoding_frame"
   ],
   "note": ""
  },
  {
   "property": "C16",
   "status": "proved",
   "theorems": [
    "C16_result_depends_on_consumed_bits_only",
    "C16_derived_depends_on_consumed_bits_only"
   ],
   "note": ""
  },
  {
   "property": "C17",
   "status": "proved",
   "theorems": [
    "C17_truncated_input_not_accepted",
    "C17_derived_truncated_input_not_accepted"
   ],
   "note": ""
  },
  {
   "property": "C18",
   "status": "partial",
   "theorems": [
    "C18_decoding_never_panics_partial",
    "C18_extensible_choice_panic_refuted",
    "C18_extensible_enumerated_panic_refuted",
    "C18_semi_constrained_panic_refuted",
    "C18_derived_decoding_never_panics_partial"
   ],
   "note": "False for calls that may read a semi-constrained number (witnesses: 18 or 19 bytes); proved for all others, and for those with fewer than 17 unread octets."
  },
  {
   "property": "C19",
   "status": "partial",
   "theorems": [
    "C19_decoding_terminates",
    "C19_derived_decoding_terminates_partial",
    "C19_zero_width_elements_refuted"
   ],
   "note": "Proved for all calls, and for derived types whose SEQUENCE OF elements take at least one bit; false otherwise (witness)."
  },
  {
   "property": "C20",
   "status": "partial",
   "theorems": [
    "C20_encoding_never_panics_partial",
    "C20_encoding_panic_refuted",
    "C20_derived_encoding_never_panics_partial"
   ],
   "note": "Panics for ranges of 2^127, empty open types in debug builds and the normally-small length 0 (witnesses); proved otherwise."
  },
  {
   "property": "C21",
   "status": "proved",
   "theorems": [
    "C21_bytes_identity",
    "C21_into_bytes_spec",
    "C21_length_in_bytes_partial",
    "C21_length_of_nothing_refuted"
   ],
   "note": "length_in_bytes of an empty buffer underflows (witness)."
  },
  {
   "property": "C22",
   "status": "proved",
   "theorems": [
    "C22_align_pads_with_zeros",
    "C22_decode_align",
    "C22_append_aligned"
   ],
   "note": ""
  },
  {
   "property": "C23",
   "status": "partial",
   "theorems": [
    "C23_histories_compose_partial",
    "C23_histories_through_bytes_partial"
   ],
   "note": "Histories of any length over the values that survive alone (exclusions of C01-C03, C13)."
  },
  {
   "property": "C24",
   "status": "partial",
   "theorems": [
    "C24_encoder_and_decoder_agree_partial",
    "C24_value_survives_bytes_partial",
    "C24_flow_covers_all_values",
    "C24_open_type_followed_by_boolean_refuted",
    "C24_nested_key_refuted",
    "C24_extended_integer_truncated_refuted",
    "C24_extended_enumerated_confused_refuted"
   ],
   "note": "False in general (witnesses: open type followed by an unaligned component, nested key fields, extension values of INTEGER and ENUMERATED). Proved for all values in `carries` and `flow_of` (open types followed by what aligns), of any depth and size."
  },
  {
   "property": "C25",
   "status": "proved",
   "theorems": [
    "C25_encoded_presence_bits",
    "C25_decoded_presence"
   ],
   "note": ""
  },
  {
   "property": "C26",
   "status": "proved",
   "theorems": [
    "C26_decoded_alternative",
    "C26_unknown_alternative_rejected",
    "C26_encoded_alternative"
   ],
   "note": ""
  },
  {
   "property": "C27",
   "status": "partial",
   "theorems": [
    "C27_decoded_elements",
    "C27_all_elements_decoded",
    "C27_encoded_elements",
    "C27_empty_list_never_decoded_refuted",
    "C27_empty_list_refuted",
    "C27_size_violation_not_reported_refuted"
   ],
   "note": "Decoding proved for non-empty lists, which is all it can return; the empty list cannot be decoded and size violations are not reported (proved)."
  },
  {
   "property": "C28",
   "status": "partial",
   "theorems": [
    "C28_encoded_open_type",
    "C28_failing_content_writes_nothing",
    "C28_key_selects_alternative",
    "C28_missing_or_unknown_key_rejected",
    "C28_id_names_value",
    "C28_primitive_calls_keep_key",
    "C28_length_ignored_refuted",
    "C28_empty_content_refuted"
   ],
   "note": "Framing and key selection proved; the decoder ignores the announced length and empty contents cannot be encoded (witnesses)."
  },
  {
   "property": "C29",
   "status": "partial",
   "theorems": [
    "C29_encodings_prefix_free_partial",
    "C29_history_encodings_prefix_free_partial",
    "C29_derived_distinct_encodings_partial"
   ],
   "note": "Over the values that survive alone."
  },
  {
   "property": "C30",
   "status": "partial",
   "theorems": [
    "C30_constrained_integer_follows_x691_partial",
    "C30_enumerated_index_follows_x691_partial",
    "C30_choice_index_follows_x691_partial",
    "C30_range_of_2_32_refuted",
    "C30_range_of_2_64_refuted"
   ],
   "note": "False for ranges of exactly 2^32 and 2^64 values (witnesses); proved for every other range and value the encoder accepts."
  },
  {
   "property": "C31",
   "status": "partial",
   "theorems": [
    "C31_length_follows_x691",
    "C31_small_length_follows_x691_partial",
    "C31_small_length_33_to_64_refuted",
    "C31_unconstrained_integer_follows_x691",
    "C31_semi_constrained_follows_x691_partial",
    "C31_semi_constrained_refuted",
    "C31_bit_string_follows_x691_partial",
    "C31_octet_string_follows_x691_partial",
    "C31_utf8_string_follows_x691",
    "C31_sequence_header_follows_x691",
    "C31_short_octet_string_refuted"
   ],
   "note": "Lengths, unconstrained integers, UTF8String and headers proved in full. Semi-constrained values with the top bit set, normally-small lengths 33..64 and short variable-size strings deviate (proved)."
  },
  {
   "property": "C32",
   "status": "partial",
   "theorems": [
    "C32_integer_bounds_partial",
    "C32_lower_bound_of_mixed_sets_partial",
    "C32_string_sizes_partial",
    "C32_sequence_of_sizes_partial",
    "C32_values_and_ranges_refuted",
    "C32_intersections_refuted",
    "C32_serial_constraints_refuted",
    "C32_min_and_max_refuted",
    "C32_two_ranges_partial",
    "C32_same_ranges_partial",
    "C32_two_numbers",
    "C32_range_and_number_refuted",
    "C32_third_range_refuted"
   ],
   "note": "Proved for unions of values or of ranges with numbers or named values, of any size, and the exact result for intersections of two ranges or two numbers; false for values mixed with ranges, intersections, several constraints and MIN/MAX (witnesses)."
  },
  {
   "property": "C33",
   "status": "partial",
   "theorems": [
    "C33_unsigned_type_holds_its_range_partial",
    "C33_signed_type_partial",
    "C33_sign_bit_refuted",
    "C33_more_than_64_bits_refuted"
   ],
   "note": "Proved for unsigned ranges below 2^64; for signed ranges the exact condition is proved, and INTEGER (-200..200) does not fit its i8 (witness)."
  },
  {
   "property": "C34",
   "status": "partial",
   "theorems": [
    "C34_items_numbered_in_order_partial",
    "C34_explicit_numbers_refuted",
    "C34_explicit_numbers_without_overflow_checks_refuted",
    "C34_named_numbers_refuted",
    "C34_257_items_refuted"
   ],
   "note": "Proved for up to 256 items without explicit numbers; explicit numbers panic or are ignored (witnesses)."
  },
  {
   "property": "C35",
   "status": "partial",
   "theorems": [
    "C35_alternatives_numbered_in_order_partial",
    "C35_alternatives_told_apart_partial",
    "C35_presence_bits_in_order_partial",
    "C35_empty_choice_refuted",
    "C35_sequence_additions_refuted"
   ],
   "note": "Proved for every CHOICE with a root alternative and the root of every SEQUENCE; SEQUENCE additions are dropped, an empty CHOICE panics (witnesses)."
  },
  {
   "property": "C36",
   "status": "partial",
   "theorems": [
    "C36_made_up_names_distinct",
    "C36_made_up_names_exist",
    "C36_definition_names_kept_apart",
    "C36_identifiers_kept_apart",
    "C36_alternatives_kept_apart_partial",
    "C36_definitions_kept_apart_partial",
    "C36_made_up_name_refuted",
    "C36_nested_type_refuted",
    "C36_field_names_refuted",
    "C36_constant_names_refuted",
    "C36_fields_kept_apart_partial",
    "C36_all_constants_kept_apart_partial",
    "C36_constants_kept_apart_partial",
    "C36_names_keep_their_letters",
    "C36_programs_kept_apart_partial",
    "C36_compiled_kept_apart_partial",
    "C36_variants_kept_apart"
   ],
   "note": "Made-up names proved distinct for all histories; whole programs, with open types, proved free of collisions under conditions on the written names that the witnesses show are needed. Fields of a SEQUENCE and constants of an ENUMERATED are proved distinct when the identifiers differ in more than hyphens and capitals (Theorems_Names), with witnesses that they are not otherwise."
  },
  {
   "property": "C37",
   "status": "partial",
   "theorems": [
    "C37_definitions_in_order",
    "C37_modules_in_order",
    "C37_order_exists",
    "C37_recursive_definition_refuted",
    "C37_cyclic_imports_refuted",
    "C37_size_of_sequence_of_refuted"
   ],
   "note": "The order is proved for every graph and every choice of the sort; definitions on a cycle are dropped without an error, and SIZE of SEQUENCE OF adds no dependency (witnesses)."
  },
  {
   "property": "C38",
   "status": "partial",
   "theorems": [
    "C38_imported_modules_exist_partial",
    "C38_missing_module_is_an_error",
    "C38_missing_name_refuted"
   ],
   "note": "Modules proved; a missing name is not reported (witness)."
  },
  {
   "property": "C39",
   "status": "partial",
   "theorems": [
    "C39_tokens_are_the_items",
    "C39_every_text_of_items",
    "C39_accepts_exactly_the_texts_of_items",
    "C39_items_unique",
    "C39_nothing_lost",
    "C39_positions_increase",
    "C39_columns_partial",
    "C39_columns_refuted",
    "C39_hyphen_is_a_number_refuted"
   ],
   "note": "Soundness and completeness against the lexical items of X.680, order and lines proved; columns are exact only for one-line tokens without byte order mark (witness)."
  },
  {
   "property": "C40",
   "status": "partial",
   "theorems": [
    "C40_terminates",
    "C40_panics_exactly",
    "C40_panics_refuted"
   ],
   "note": "Termination proved; the texts on which it panics are characterised exactly."
  },
  {
   "property": "C41",
   "status": "partial",
   "theorems": [
    "C41_values_names_and_lists",
    "C41_types_partial",
    "C41_definitions_partial",
    "C41_file_partial",
    "C41_loops_refuted",
    "C41_legal_refuted",
    "C41_panics_refuted"
   ],
   "note": "Every parse function reads only tokens there are, and comes back unless a list is opened by a brace or the tokens break off; in those cases witnesses show endless loops and panics."
  },
  {
   "property": "C42",
   "status": "partial",
   "theorems": [
    "C42_instance_partial",
    "C42_tokens_partial",
    "C42_number",
    "C42_capture_refuted",
    "C42_component_refuted",
    "C42_named_number_refuted",
    "C42_endless_refuted"
   ],
   "note": "For types of the specified notation the instance is the type with actual for formal parameters, as a tree; the token level statement needs no notation. Missing, with witnesses: actuals named like later formals, parameters named like components, numbers where a name is read, self application."
  },
  {
   "property": "C43",
   "status": "proved",
   "theorems": [
    "C43_decoded_strings_are_utf8",
    "C43_utf8_check_exact"
   ],
   "note": ""
  },
  {
   "property": "C44",
   "status": "partial",
   "theorems": [
    "C44_extension_integers_decode_partial",
    "C44_extension_enumerations_decode_partial",
    "C44_extension_alternatives_decode_partial",
    "C44_extension_sequence_header_decodes",
    "C44_extension_bit_strings_decode",
    "C44_extension_octet_strings_decode"
   ],
   "note": "Values that fit the decoder: i128, and for INTEGER not those of 9-15 octets (C02)."
  },
  {
   "property": "C45",
   "status": "partial",
   "theorems": [
    "C45_fragmented_bit_strings_decode",
    "C45_fragmented_octet_strings_decode",
    "C45_bad_fragments_of_bit_strings_rejected",
    "C45_bad_fragments_of_octet_strings_rejected",
    "C45_fragmented_character_string_refuted"
   ],
   "note": "Proved for BIT STRING and OCTET STRING; a fragmented character string is cut after its first fragment (proved)."
  },
  {
   "property": "C46",
   "status": "partial",
   "theorems": [
    "C46_integers_understood_partial",
    "C46_enumerations_understood_partial",
    "C46_choices_understood_partial",
    "C46_lengths_understood",
    "C46_small_lengths_understood",
    "C46_bit_strings_understood_partial",
    "C46_octet_strings_understood_partial",
    "C46_utf8_strings_understood_partial",
    "C46_range_of_2_32_refuted"
   ],
   "note": "Proved except for the deviations listed under C30, C31, C02 and C45."
  },
  {
   "property": "C47",
   "status": "partial",
   "theorems": [
    "C47_compiled_definitions_are_right_partial",
    "C47_compiler_succeeds_partial",
    "C47_generator_right",
    "C47_generator_succeeds",
    "C47_meaning_unique"
   ],
   "note": "Proved for modules of any size with types, numbers, classes, objects, object sets, open types and parameterized types, through references and imports and for every valid order. Object sets without objects, CONTAINING and objects with types written out are included; what the compiler makes of them is in C49. Missing: recursive definitions (refuted by C37), the constraints that C32 leaves out, objects with literal ids (refuted in C49), objects defined under a name that use names of their own module."
  },
  {
   "property": "C48",
   "status": "partial",
   "theorems": [
    "C48_values_of_compiled_types_survive_partial"
   ],
   "note": "Under the conditions of C47 and C24."
  },
  {
   "property": "C49",
   "status": "partial",
   "theorems": [
    "C49_sets_have_their_objects",
    "C49_open_type_has_every_object_partial",
    "C49_alternatives_of_open_type_partial",
    "C49_components_of_class_sequence_partial",
    "C49_literal_id_refuted",
    "C49_inline_type_refuted",
    "C49_other_components_refuted",
    "C49_empty_set_loses_components_refuted"
   ],
   "note": "Proved for objects with a named id and a named type; literal ids and inline types are left out, and so are ordinary components beside class fields and what is sent for a set that was empty when the receiver was compiled (witnesses)."
  },
  {
   "property": "C50",
   "status": "partial",
   "theorems": [
    "C50_types",
    "C50_element_sets",
    "C50_modules_partial",
    "C50_file_partial",
    "C50_types_unambiguous",
    "C50_modules_unambiguous",
    "C50_additions_refuted",
    "C50_order_refuted",
    "C50_value_refuted",
    "C50_twice_refuted",
    "C50_legal_refuted"
   ],
   "note": "Proved for the supported notation as specified in ParserSpec and DefinitionSpec, from characters to modules, with unambiguity; witnesses for ASN.1 that is read differently or rejected."
  },
  {
   "property": "C51",
   "status": "partial",
   "theorems": [
    "C51_printed_attributes_are_read_back",
    "C51_items_mean_the_modules_partial"
   ],
   "note": "Read back exactly, from texts to derived codecs, for all programs without a type called Option; that the items mean the modules is proved under the conditions of C47. Items are token lists; rustc is not modelled."
  },
  {
   "property": "C52",
   "status": "partial",
   "theorems": [
    "C52_items_accepted_partial",
    "C52_types_defined_partial",
    "C52_option_refuted",
    "C52_string_refuted",
    "C52_keyword_refuted",
    "C52_replaced_refuted"
   ],
   "note": "Proved for string types that the macro knows and names kept apart between modules; witnesses for IA5String, a type called Option, components named by Rust keywords and types replaced by object sets."
  },
  {
   "property": "C53",
   "status": "partial",
   "theorems": [
    "C53_order_and_grouping_irrelevant",
    "C53_unknown_attribute_refused",
    "C53_sequence_fields_checked",
    "C53_choice_variants_checked",
    "C53_open_variants_checked",
    "C53_no_panic_partial",
    "C53_panic_refuted",
    "C53_twice_refuted",
    "C53_ignored_refuted",
    "C53_comment_refuted"
   ],
   "note": "Order, grouping and refusal of unknown attributes proved; panics characterised; repeated and meaningless attributes are accepted and doc comments refused (witnesses)."
  },
  {
   "property": "C54",
   "status": "partial",
   "theorems": [
    "C54_objects_partial",
    "C54_tokens_of_texts",
    "C54_classes_of_texts",
    "C54_files_are_linked_partial",
    "C54_literal_refuted",
    "C54_default_syntax_refuted",
    "C54_wordless_refuted",
    "C54_mandatory_refuted",
    "C54_unknown_words_refuted",
    "C54_scope_refuted"
   ],
   "note": "Proved for objects in the WITH SYNTAX notation whose settings can be told apart (told_apart) and hold no bit or hex literals, from the text to the linked modules; witnesses for literals, the default syntax, wordless fields, unknown words, missing mandatory fields, and classes of the same name."
  },
  {
   "property": "C55",
   "status": "partial",
   "theorems": [
    "C55_items_mean_the_files_partial",
    "C55_files_are_compiled_partial",
    "C55_values_survive_partial"
   ],
   "note": "Characters of the files to bytes of the values, for all schemas that satisfy the conditions of C47, C50, C51 and C54."
  },
  {
   "property": "C56",
   "status": "partial",
   "theorems": [
    "C56_values_encoded_as_prescribed_partial",
    "C56_prescribed_encodings_decoded_partial",
    "C56_compiled_types_are_numbered",
    "C56_from_files_to_octets_partial",
    "C56_empty_encoding_refuted",
    "C56_extensible_size_refuted",
    "C56_utf8_size_refuted",
    "C56_tag_order_refuted"
   ],
   "note": "Proved for values that the codec can carry and that have no part of the kinds C30 and C31 refute; all compiled types are numbered as X.691 numbers them; composed with C55 from the files to the octets. Witnesses: empty encodings, extensible SIZE of SEQUENCE OF, SIZE of UTF8String, CHOICE in tag order."
  },
  {
   "property": "C57",
   "status": "partial",
   "theorems": [
    "C57_same_program_partial",
    "C57_same_program_from_files_partial",
    "C57_one_program_partial",
    "C57_enumerated_item_refuted",
    "C57_dropped_component_refuted",
    "C57_defined_twice_refuted",
    "C57_success_refuted"
   ],
   "note": "All successful runs yield the same program for schemas with distinct names in which no value of an ENUMERATED type is the name of a definition and no SEQUENCE begins with a non-class component constrained by an object set; all runs succeed for the schemas of C55. Witnesses for each condition, and for success. Not covered: the HashMap inside a class with several UNIQUE fields, and which of several errors is reported."
  },
  {
   "property": "C58",
   "status": "partial",
   "theorems": [
    "C58_decoded_values_survive_partial",
    "C58_tight_types_survive_partial",
    "C58_compiled_types_are_sound",
    "C58_one_encoding",
    "C58_octets_reproduced_partial",
    "C58_number_refuted",
    "C58_lowest_number_refuted",
    "C58_list_refuted",
    "C58_alternative_refuted",
    "C58_padded_number_refuted",
    "C58_additions_refuted",
    "C58_enumerator_refuted"
   ],
   "note": "Proved for values within the bounds of their types (and without that condition for types whose bounds are as wide as the bits that are read), strings and contents below 16K; all compiled types whose keys are numbers are covered. X.691 is shown to prescribe one encoding, and messages so encoded are reproduced octet by octet. Witnesses: numbers, sizes and indices beyond their bounds, lowest numbers, padded numbers, lost additions, extension items of ENUMERATED."
  },
  {
   "property": "C59",
   "status": "partial",
   "theorems": [
    "C59_accepted_values_arrive_partial",
    "C59_values_stay_apart_partial",
    "C59_sent_values_are_within_partial",
    "C59_other_alternative_refuted",
    "C59_large_number_refuted",
    "C59_short_text_refuted",
    "C59_long_list_refuted",
    "C59_empty_list_refuted"
   ],
   "note": "Proved for all values of the Rust types, within their bounds or not, except: an open type that holds another alternative than the key says, u64 numbers from 2^63 on without lower bound, texts of one or two octets as in C13, and empty lists and lists of a wrong length. Each exception has a witness. Values as in C24 (flow_of)."
  },
  {
   "property": "C60",
   "status": "partial",
   "theorems": [
    "C60_types_partial",
    "C60_element_sets_partial",
    "C60_definitions_partial",
    "C60_words",
    "C60_file_partial",
    "C60_compiled_files_partial",
    "C60_types_contained",
    "C60_files_contained",
    "C60_octets_refuted",
    "C60_types_refuted",
    "C60_file_refuted"
   ],
   "note": "Proved: whatever the parser accepts is in a notation that is specified apart from it, and is read as what it denotes there; so is every file that is compiled. This notation contains that of C50 and more; the liberties are marked in LooseSpec.v, with witnesses (findings 50 to 54)."
  },
  {
   "property": "C61",
   "status": "partial",
   "theorems": [
    "C61_program_mirrors_schema_partial",
    "C61_files_mirrored_partial",
    "C61_constants_number_items_partial",
    "C61_constants_refuted",
    "C61_additions_refuted"
   ],
   "note": "Proved of all schemas that are compiled and define each name once: items, fields, variants, constants, names, order, optionality and types, also through parameters and object sets. Missing, with witnesses: the additions of SEQUENCE and ENUMERATED types, constants for items with written numbers, and constants beyond 256 items."
  },
  {
   "property": "C62",
   "status": "partial",
   "theorems": [
    "C62_command",
    "C62_add_answers",
    "C62_too_early",
    "C62_incremental_partial",
    "C62_resolve_twice_refuted",
    "C62_lost_objects_refuted",
    "C62_replaced_module_refuted",
    "C62_generate_twice_refuted"
   ],
   "note": "Proved: what hampi-asn1c prints, what add_module answers after any calls, histories in which modules come in any order with calls of resolve_modules that are too early, and all histories of add_module and resolve_modules for schemas whose object sets have one element at most before and one behind the marker. Missing, with witnesses: larger object sets (each call reverses them, and a failing one loses objects), replaced modules, generate called twice (findings 56 to 59)."
  },
  {
   "property": "C63",
   "status": "partial",
   "theorems": [
    "C63_strings_are_read",
    "C63_values_are_read_partial",
    "C63_messages_partial",
    "C63_elements_of_no_bits_refuted"
   ],
   "note": "Strings: proved for all types. Values: proved for types whose SEQUENCE OF elements take at least one bit; SEQUENCE OF NULL refutes the rest."
  },
  {
   "property": "C64",
   "status": "partial",
   "theorems": [
    "C64_new_reads_old",
    "C64_old_reads_new",
    "C64_same_octets",
    "C64_one_to_one",
    "C64_old_message_partial",
    "C64_new_message_partial",
    "C64_schemas_partial",
    "C64_files_partial",
    "C64_unknown_elements_refuted",
    "C64_empty_sets_refuted"
   ],
   "note": "Proved for all types, all octets and all values: reading in both directions, equal octets, one-to-one; and for all extended schemas that satisfy the conditions of C55, from the texts to the messages, unless objects are added to an empty set (refuted). Full claim also wants an old receiver to skip elements that it does not know: refuted, it rejects the message. Not covered: parameterized definitions whose bodies are extended."
  },
  {
   "property": "C65",
   "status": "partial",
   "theorems": [
    "C65_check_is_sound",
    "C65_protocol_check_is_sound",
    "C65_ngap_compiled_partial",
    "C65_ngap_periods_refuted",
    "C65_ngap_numbers_refuted"
   ],
   "note": "Proved by evaluating a check in the kernel on the texts of the six files; the check is proved sound for all schemas. Of 1782 definitions 24 are left out: two periods are compiled with a wrong bound (refuted), the others contain them. That the compiler succeeds is shown for one order; in all others it gives the same program or fails. As in C47, sets without objects and objects with types written out have the meaning of C49. The modules are what the model of the parser reads in the files. Octets are those of X.691 but for the values of C30 and C31, to which identities of NGAP belong (refuted)."
  },
  {
   "property": "C66",
   "status": "partial",
   "theorems": [
    "C66_strings_are_sent",
    "C66_overhead_is_bounded",
    "C66_messages",
    "C66_compiled_messages",
    "C66_relayed_messages_partial",
    "C66_announced_components_refuted"
   ],
   "note": "Length of encodings: proved for all types whose SEQUENCEs announce no more OPTIONAL components than they have, which all compiled types do; an attribute that announces more refutes the rest. Relays: as C63, proved for types whose SEQUENCE OF elements take at least one bit."
  },
  {
   "property": "C67",
   "status": "partial",
   "theorems": [
    "C67_calls_encode",
    "C67_calls_decode",
    "C67_encoders",
    "C67_decoders",
    "C67_compilers",
    "C67_histories",
    "C67_sane_values_encoded_alike",
    "C67_sane_types_decoded_alike",
    "C67_always_alike_refuted",
    "C67_hosts_encode_alike",
    "C67_hosts_compile_alike",
    "C67_hosts_decode_alike_partial",
    "C67_strings_by_host_refuted"
   ],
   "note": "Profiles: proved for every public function of the codec crate, every derived codec and the compiler, up to panics of the debug build; where C18 and C20 exclude these, the builds are equal. That they always agree is refuted. Byte order: proved for all encoders, the compiler and decoders of types without character strings; refuted for strings (C13)."
  },
  {
   "property": "C68",
   "status": "partial",
   "theorems": [
    "C68_files_have_words_partial",
    "C68_names_are_words_partial",
    "C68_no_keywords_partial",
    "C68_joined_names_refuted",
    "C68_constants_are_no_keywords",
    "C68_types_are_no_keywords_partial",
    "C68_fields_are_no_keywords_partial",
    "C68_self_refuted",
    "C68_library_names_refuted"
   ],
   "note": "All names are proved to be words of Rust, for the texts of all files that compile. Where no name in the modules is a keyword, none in the program is, but for Self, which a joined name can be (C68_joined_names_refuted). Components called like a keyword (C52), alternatives called self and types called like one of the Rust library (String, Vec, BitVec) are the witnesses that the rest fails."
  }
 ]
}