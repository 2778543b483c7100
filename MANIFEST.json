{
 "claims": [
  {
   "property": "C01",
   "status": "proved",
   "theorems": [
    "C01_matter_text_round_trip"
   ],
   "note": ""
  },
  {
   "property": "C02",
   "status": "proved",
   "theorems": [
    "C02_matter_binary_round_trip"
   ],
   "note": ""
  },
  {
   "property": "C03",
   "status": "proved",
   "theorems": [
    "C03_text_and_binary_agree",
    "C03_concatenations_agree"
   ],
   "note": ""
  },
  {
   "property": "C04",
   "status": "proved",
   "theorems": [
    "C04_length_is_full_size"
   ],
   "note": ""
  },
  {
   "property": "C05",
   "status": "proved",
   "theorems": [
    "C05_self_framing_text",
    "C05_trailing_text_ignored"
   ],
   "note": ""
  },
  {
   "property": "C06",
   "status": "proved",
   "theorems": [
    "C06_self_framing_binary"
   ],
   "note": ""
  },
  {
   "property": "C07",
   "status": "proved",
   "theorems": [
    "C07_stream_of_primitives"
   ],
   "note": ""
  },
  {
   "property": "C08",
   "status": "proved",
   "theorems": [
    "C08_prefix_free"
   ],
   "note": ""
  },
  {
   "property": "C09",
   "status": "proved",
   "theorems": [
    "C09_text_not_malleable"
   ],
   "note": ""
  },
  {
   "property": "C10",
   "status": "proved",
   "theorems": [
    "C10_binary_not_malleable"
   ],
   "note": ""
  },
  {
   "property": "C11",
   "status": "partial",
   "theorems": [
    "C11_parsed_can_be_printed_refuted",
    "C11_parsed_can_be_printed_partial",
    "C11_parsed_and_printable"
   ],
   "note": "False as stated (texts with '=' parse to unprintable primitives): refuted with witnesses; the exact condition (no '=' within the announced part) is proved for every text."
  },
  {
   "property": "C12",
   "status": "proved",
   "theorems": [
    "C12_truncation_rejected"
   ],
   "note": ""
  },
  {
   "property": "C13",
   "status": "proved",
   "theorems": [
    "C13_zero_bits_text",
    "C13_zero_bits_binary"
   ],
   "note": ""
  },
  {
   "property": "C14",
   "status": "partial",
   "theorems": [
    "C14_text_never_panics_refuted",
    "C14_byte_strings",
    "C14_text_never_panics_partial",
    "C14_text_panics_exactly"
   ],
   "note": "False as stated: refuted with four witnesses; the exact set of panicking texts is proved for every UTF-8 text."
  },
  {
   "property": "C15",
   "status": "partial",
   "theorems": [
    "C15_binary_never_panics_refuted",
    "C15_binary_never_panics_partial"
   ],
   "note": "False as stated: refuted; the exact set of panicking inputs is proved for all byte strings."
  },
  {
   "property": "C16",
   "status": "proved",
   "theorems": [
    "C16_raw_size_enforced",
    "C16_unknown_code_refused"
   ],
   "note": ""
  },
  {
   "property": "C17",
   "status": "partial",
   "theorems": [
    "C17_variable_code_selection_refuted",
    "C17_variable_code_selection_partial",
    "C17_variable_code_truncates"
   ],
   "note": "False at 4 GiB and above (32-bit truncation of the length): refuted; proved below 2^32 bytes. Also proved for the variable-size codes without that bound: exactly which length is recorded."
  },
  {
   "property": "C18",
   "status": "partial",
   "theorems": [
    "C18_transferability_refuted",
    "C18_transferability_partial",
    "C18_transferability_exactly"
   ],
   "note": "False for code 1AAI: refuted; proved for every other code, and exactly which codes are reported non-transferable."
  },
  {
   "property": "C19",
   "status": "proved",
   "theorems": [
    "C19_matter_table",
    "C19_indexer_table",
    "C19_counter_table",
    "C19_text_and_binary_announce_the_same"
   ],
   "note": ""
  },
  {
   "property": "C20",
   "status": "proved",
   "theorems": [
    "C20_base64_integer_round_trip",
    "C20_base64_integer_inverse",
    "C20_decoding_is_total",
    "C20_float_logarithm"
   ],
   "note": ""
  },
  {
   "property": "C21",
   "status": "partial",
   "theorems": [
    "C21_out_of_range_refuted",
    "C21_out_of_range_partial",
    "C21_out_of_range_exactly"
   ],
   "note": "False as stated (65 on one character encodes as 1): refuted; proved for n <= 64^k. Also proved exactly: what every number out of range is encoded as."
  },
  {
   "property": "C22",
   "status": "proved",
   "theorems": [
    "C22_nab_sextets",
    "C22_code_b2_to_b64",
    "C22_code_conversion_inverse"
   ],
   "note": ""
  },
  {
   "property": "C23",
   "status": "partial",
   "theorems": [
    "C23_indexed_text_round_trip_refuted",
    "C23_indexed_text_round_trip_partial",
    "C23_variable_round_trip_partial",
    "C23_indexed_text_round_trip_exactly"
   ],
   "note": "False as stated (other index lost or invented, label codes unprintable): refuted with witnesses; C23_indexed_text_round_trip_exactly says what happens to everything the constructor accepts, whatever the code."
  },
  {
   "property": "C24",
   "status": "partial",
   "theorems": [
    "C24_indexed_binary_round_trip_refuted",
    "C24_indexed_binary_round_trip_partial",
    "C24_indexed_binary_round_trip_exactly"
   ],
   "note": "False for 3A/3B and the label codes (binary printing panics): refuted; C24_indexed_binary_round_trip_exactly says exactly what happens for every code."
  },
  {
   "property": "C25",
   "status": "partial",
   "theorems": [
    "C25_indexed_text_binary_agree_partial",
    "C25_indexed_text_binary_agree_refuted"
   ],
   "note": "Proved for all signature codes except the binary part of 3A/3B, whose binary form panics (C24); the full claim is refuted for those."
  },
  {
   "property": "C26",
   "status": "partial",
   "theorems": [
    "C26_index_ranges",
    "C26_printed_index_is_held_index",
    "C26_binary_index_refuted",
    "C26_binary_index_exactly"
   ],
   "note": "Construction and text printing proved; the binary form prints another index after set_index: refuted, and C26_binary_index_exactly says in every state when it prints and which numbers it then holds."
  },
  {
   "property": "C27",
   "status": "proved",
   "theorems": [
    "C27_current_only"
   ],
   "note": ""
  },
  {
   "property": "C28",
   "status": "proved",
   "theorems": [
    "C28_indexed_truncation",
    "C28_indexed_zero_bits_text",
    "C28_indexed_zero_bits_binary"
   ],
   "note": ""
  },
  {
   "property": "C29",
   "status": "partial",
   "theorems": [
    "C29_trailing_text_ignored",
    "C29_trailing_bytes_ignored",
    "C29_indexed_text_not_malleable_refuted",
    "C29_indexed_text_not_malleable_partial",
    "C29_indexed_binary_not_malleable",
    "C29_parsed_and_printable",
    "C29_indexed_text_not_malleable_exactly"
   ],
   "note": "Trailing data and binary non-malleability proved for all codes; text malleability refuted for label codes 1z/4z, proved for the rest; C29_parsed_and_printable and C29_indexed_text_not_malleable_exactly characterise the label codes too."
  },
  {
   "property": "C30",
   "status": "proved",
   "theorems": [
    "C30_counter_round_trips",
    "C30_counter_not_malleable"
   ],
   "note": ""
  },
  {
   "property": "C31",
   "status": "partial",
   "theorems": [
    "C31_count_bounds",
    "C31_count_b64_refuted",
    "C31_count_b64_partial",
    "C31_count_b64_exactly"
   ],
   "note": "Construction bounds proved in full; the base64 count argument wraps silently: refuted, proved up to five characters. Also proved exactly: which count every base64 argument yields."
  },
  {
   "property": "C32",
   "status": "partial",
   "theorems": [
    "C32_counter_parse_refuted",
    "C32_counter_parse_partial",
    "C32_counter_truncation",
    "C32_counter_text_panics_exactly"
   ],
   "note": "False for one-character and some non-ASCII texts: refuted; the exact set of panicking texts is proved for every UTF-8 text, and no binary input panics."
  },
  {
   "property": "C33",
   "status": "proved",
   "theorems": [
    "C33_semantic_version_packing",
    "C33_missing_parts_are_zero",
    "C33_accepted_versions"
   ],
   "note": ""
  },
  {
   "property": "C34",
   "status": "proved",
   "theorems": [
    "C34_number_round_trip_minimal"
   ],
   "note": ""
  },
  {
   "property": "C35",
   "status": "proved",
   "theorems": [
    "C35_sequence_number_round_trip",
    "C35_sequence_numbers_sort"
   ],
   "note": ""
  },
  {
   "property": "C36",
   "status": "proved",
   "theorems": [
    "C36_hex_round_trip",
    "C36_only_hex_accepted"
   ],
   "note": ""
  },
  {
   "property": "C37",
   "status": "partial",
   "theorems": [
    "C37_date_time_round_trip_refuted",
    "C37_date_time_round_trip_partial",
    "C37_date_time_truncation",
    "C37_date_time_round_trip_exactly"
   ],
   "note": "False as stated (strings beyond 32 characters are cut; c, d, p are altered): refuted; proved for the 32-character strings over the other characters, and the cut is characterised exactly. The strings that read back the same are characterised exactly."
  },
  {
   "property": "C38",
   "status": "partial",
   "theorems": [
    "C38_base64_text_round_trip_refuted",
    "C38_base64_text_round_trip_partial",
    "C38_base64_text_lost_character"
   ],
   "note": "False as stated (a leading A is lost when the length is a multiple of four): refuted; proved for all other texts, and the loss is characterised exactly."
  },
  {
   "property": "C39",
   "status": "proved",
   "theorems": [
    "C39_base64_text_validation"
   ],
   "note": "Proved below 2^32 characters (lengths are truncated to 32 bits beyond that, see C17)."
  },
  {
   "property": "C40",
   "status": "partial",
   "theorems": [
    "C40_kinds_partial",
    "C40_made_of_kind",
    "C40_one_kind",
    "C40_unchecked_refuted",
    "C40_unchecked_partial"
   ],
   "note": "False as stated for numbers, salts and prefixes, whose parsed code is not checked: refuted; what they accept is proved exactly, and the statement is proved for all other kinds, for every combination of arguments."
  },
  {
   "property": "C41",
   "status": "partial",
   "theorems": [
    "C41_numeric_threshold_refuted",
    "C41_numeric_threshold_partial",
    "C41_numeric_threshold_exactly"
   ],
   "note": "Refuted as stated: repeated indices count and threshold 0 is never satisfied. Proved: exact on lists without repetition for k>=1. Also proved exactly: for every k and every list, the answer is right except for these two causes."
  },
  {
   "property": "C42",
   "status": "partial",
   "theorems": [
    "C42_weighted_threshold_refuted",
    "C42_weighted_threshold_partial",
    "C42_accepted_threshold_partial",
    "C42_evaluation_exactly"
   ],
   "note": "Refuted as stated: 32-bit overflow panics. Proved: otherwise exact against the rational weights; no panic with a small common denominator. C42_evaluation_exactly says for every list of indices which of panic, true and false comes out."
  },
  {
   "property": "C43",
   "status": "partial",
   "theorems": [
    "C43_monotone_refuted",
    "C43_monotone_partial",
    "C43_monotone_exactly"
   ],
   "note": "Refuted as stated: a larger list can panic by overflow. Proved: the answer never turns from satisfied to unsatisfied; set semantics for weighted thresholds. For weighted thresholds exactly when the larger list panics."
  },
  {
   "property": "C44",
   "status": "partial",
   "theorems": [
    "C44_nobody_refuted",
    "C44_nobody_partial"
   ],
   "note": "Refuted by the empty clause list given as thold. Proved: this is the only such input."
  },
  {
   "property": "C45",
   "status": "proved",
   "theorems": [
    "C45_attainable"
   ],
   "note": "Weighted thresholds with fewer than 2^32 keys (the size field is 32 bits wide)."
  },
  {
   "property": "C46",
   "status": "proved",
   "theorems": [
    "C46_serialisations_round_trip"
   ],
   "note": "For thresholds with fewer than 2^27 keys."
  },
  {
   "property": "C47",
   "status": "partial",
   "theorems": [
    "C47_panics_exactly",
    "C47_no_panic_refuted",
    "C47_no_panic_partial"
   ],
   "note": "Refuted by 0/0, overflow, index outside the size, padding in limen, JSON integers outside i64. C47_panics_exactly characterises the panics of the constructor for every form of input, C42_evaluation_exactly those of the evaluation."
  },
  {
   "property": "C48",
   "status": "proved",
   "theorems": [
    "C48_json_output_injective"
   ],
   "note": ""
  },
  {
   "property": "C49",
   "status": "proved",
   "theorems": [
    "C49_json_round_trip"
   ],
   "note": ""
  },
  {
   "property": "C50",
   "status": "partial",
   "theorems": [
    "C50_loading_json_never_panics_refuted",
    "C50_loading_json_partial"
   ],
   "note": "False as stated (an integer of 2^63 or more, or a float printed without a decimal point, panics): refuted; the exact set of panicking texts is proved for every text."
  },
  {
   "property": "C51",
   "status": "proved",
   "theorems": [
    "C51_version_round_trip",
    "C51_only_version_strings_accepted",
    "C51_no_silent_change"
   ],
   "note": "Full."
  },
  {
   "property": "C52",
   "status": "partial",
   "theorems": [
    "C52_sizing_exactly",
    "C52_sizing_refuted",
    "C52_huge_event_refuted",
    "C52_sizing_partial"
   ],
   "note": "Refuted by a version-like text in an earlier field, and by events of 2^32 bytes. Proved when nothing before v looks like a version string and the event is shorter than 2^32 bytes; and for every input exactly what sizing returns (C52_sizing_exactly), never a panic."
  },
  {
   "property": "C53",
   "status": "proved",
   "theorems": [
    "C53_sizing_ignores_old_size",
    "C53_sizing_idempotent"
   ],
   "note": "Full (for v first, and more generally when nothing before v looks like a version string)."
  },
  {
   "property": "C54",
   "status": "partial",
   "theorems": [
    "C54_round_trip_exactly",
    "C54_round_trip_refuted",
    "C54_round_trip_partial",
    "C54_events_are_built"
   ],
   "note": "False as stated when a field before v is named like a version string: refuted with a witness. Proved for all other float-free data nested at most 127 deep and below 2^32 bytes, for the common, key-event and credential constructors; also proved that well-formed data build an event, and, with no condition on the labels, that a built event is read back from its bytes exactly when those bytes are the JSON of its data."
  },
  {
   "property": "C55",
   "status": "partial",
   "theorems": [
    "C55_reading_events_panics_refuted",
    "C55_reading_events_panics_partial"
   ],
   "note": "False as stated (announced size beyond the bytes given; missing d): refuted with witnesses; the exact set of panicking inputs is proved for all byte strings."
  },
  {
   "property": "C56",
   "status": "partial",
   "theorems": [
    "C56_truncation_refuted",
    "C56_truncation_partial"
   ],
   "note": "False as stated (a panic instead of an error): refuted; proved that a truncated event is never accepted and exactly which cuts panic."
  },
  {
   "property": "C57",
   "status": "partial",
   "theorems": [
    "C57_reading_exactly",
    "C57_building_exactly",
    "C57_said_is_checked_refuted",
    "C57_said_is_checked_partial"
   ],
   "note": "False as stated (events with a wrong SAID are accepted): refuted for every collision-free digest; proved that the field d parses to a digest of the expected code, and exactly which bytes and which data each constructor accepts, what event results and when it panics."
  },
  {
   "property": "C58",
   "status": "proved",
   "theorems": [
    "C58_said_round_trip",
    "C58_saidify_accepts"
   ],
   "note": "For every outcome of saidify, any digest function; a second theorem gives inputs that are always accepted."
  },
  {
   "property": "C59",
   "status": "proved",
   "theorems": [
    "C59_tamper_evident",
    "C59_tamper_evident_ignoring"
   ],
   "note": "Collision stated on the digest function used; digests assumed to have their nominal sizes."
  },
  {
   "property": "C60",
   "status": "proved",
   "theorems": [
    "C60_label_content_irrelevant",
    "C60_saidify_idempotent"
   ],
   "note": ""
  },
  {
   "property": "C61",
   "status": "partial",
   "theorems": [
    "C61_verify_panics_refuted",
    "C61_verify_total_partial",
    "C61_verify_panics_exactly"
   ],
   "note": "False as stated (data that are not a map; prefix check on a map without the label): refuted; proved for every map that has the label or without the prefix check. All panicking inputs are characterised exactly."
  },
  {
   "property": "C62",
   "status": "partial",
   "theorems": [
    "C62_code_asked",
    "C62_digest_prefix_verifies",
    "C62_resized_event",
    "C62_digest_prefix_accepted",
    "C62_basic_prefix_refuted",
    "C62_basic_prefix_partial"
   ],
   "note": "False as stated when the key text in the event has trailing characters: refuted. Proved for all digest prefixes, and for key prefixes when the key text is exact."
  },
  {
   "property": "C63",
   "status": "partial",
   "theorems": [
    "C63_basic_prefix_is_the_key",
    "C63_digest_tamper_refuted",
    "C63_digest_tamper_partial"
   ],
   "note": "False as stated when a label looks like a version string: refuted for every digest function. Proved for all events that begin with their version string, and for key prefixes without condition."
  },
  {
   "property": "C64",
   "status": "partial",
   "theorems": [
    "C64_derivation_commits_to_nothing",
    "C64_verification_refuted",
    "C64_verification_partial"
   ],
   "note": "Derivation proved. Verification ignores witnesses and anchors: refuted with a witness; the exact condition is proved."
  },
  {
   "property": "C65",
   "status": "proved",
   "theorems": [
    "C65_unindexed",
    "C65_indexed"
   ],
   "note": "Relative to correctness of the signature schemes (premise correct)."
  },
  {
   "property": "C66",
   "status": "proved",
   "theorems": [
    "C66_indices_kept"
   ],
   "note": ""
  },
  {
   "property": "C67",
   "status": "partial",
   "theorems": [
    "C67_reported_exactly",
    "C67_key_matches_seed",
    "C67_reported_refuted",
    "C67_reported_partial"
   ],
   "note": "The key code always matches. The reported transferability is refuted for secp256r1 (1AAI counts as transferable) and proved for the other keys. Exactly which keys are reported transferable is proved."
  },
  {
   "property": "C68",
   "status": "proved",
   "theorems": [
    "C68_compare_text",
    "C68_compare_digests"
   ],
   "note": "Proved as an exact characterisation, for texts and digests."
  },
  {
   "property": "C69",
   "status": "proved",
   "theorems": [
    "C69_digest_of_data",
    "C69_verifies_exactly"
   ],
   "note": "Relative to the digest function having the size its code requires."
  },
  {
   "property": "C70",
   "status": "partial",
   "theorems": [
    "C70_batch",
    "C70_creator",
    "C70_rotations_refuted",
    "C70_rotations_partial",
    "C70_long_batch_refuted",
    "C70_rotations_exactly"
   ],
   "note": "Proved within a batch of a salter and within a batch of a creator up to 2^16 keys. Refuted between rotations (digits of the two indices run together) and for longer batches; proved when the digit counts agree. When two keys share a path is characterised exactly."
  },
  {
   "property": "C71",
   "status": "partial",
   "theorems": [
    "C71_salter_tier",
    "C71_creator_tier_refuted",
    "C71_creator_tier_partial"
   ],
   "note": "Proved for salters. False for creators: whatever the tier asked, keys are stretched at tier low (refuted with a witness); holds for tier low."
  },
  {
   "property": "C72",
   "status": "partial",
   "theorems": [
    "C72_path_round_trip_refuted",
    "C72_path_round_trip_partial",
    "C72_paths_accepted"
   ],
   "note": "False as stated (elements with a dash, an empty first element): refuted; proved exactly for the other lists, with the exact set of accepted lists."
  },
  {
   "property": "C73",
   "status": "partial",
   "theorems": [
    "C73_root",
    "C73_root_start_refuted",
    "C73_strip_refuted",
    "C73_strip_partial",
    "C73_strip_exactly"
   ],
   "note": "False as stated (repeated elements): refuted; rooting is proved in general, and the outcome of stripping any root from any path is characterised exactly."
  },
  {
   "property": "C74",
   "status": "partial",
   "theorems": [
    "C74_starts_with_refuted",
    "C74_starts_with_partial"
   ],
   "note": "False as stated (the comparison is textual): refuted; what the comparison decides is proved exactly."
  },
  {
   "property": "C75",
   "status": "partial",
   "theorems": [
    "C75_resolution_partial",
    "C75_empty_element",
    "C75_empty_element_refuted",
    "C75_numeric_label_refuted"
   ],
   "note": "False as stated for empty elements and numeric labels: refuted; proved for all other paths, and what empty elements do is proved exactly."
  },
  {
   "property": "C76",
   "status": "partial",
   "theorems": [
    "C76_messages_exactly",
    "C76_attachments_partial",
    "C76_messages_accepted",
    "C76_other_index_refuted",
    "C76_count_refuted"
   ],
   "note": "False as stated for the other index of codes that do not carry it and for the count, which is modulo 2^32: refuted; that all else reads back, and when a message is made, is proved. Exactly when there is a message, what it is and when making it panics is proved for signatures, seals and events in any state."
  },
  {
   "property": "C77",
   "status": "partial",
   "theorems": [
    "C77_attached_refuted",
    "C77_attached_partial"
   ],
   "note": "False as stated for signatures without index (dropped): refuted; proved for indexed signatures. See also C76_messages_exactly."
  },
  {
   "property": "C78",
   "status": "partial",
   "theorems": [
    "C78_precedence",
    "C78_kinds",
    "C78_no_encoding",
    "C78_signer_refuted",
    "C78_signer_partial"
   ],
   "note": "Proved for the three basic constructors and for all kinds but seeds, for which it is false when raw material comes with a text and no code: refuted, and proved otherwise. Numbers, sequence numbers, date-times, salts and seeds have defaults instead of an error when no encoding is given: proved exactly."
  },
  {
   "property": "C79",
   "status": "partial",
   "theorems": [
    "C79_indexed_parsing_never_panics",
    "C79_non_ascii_text_refuted",
    "C79_indexed_text_panics_exactly"
   ],
   "note": "Proved for all binary input and all ASCII text; refuted for non-ASCII text, for which the exact set of panicking texts is proved."
  },
  {
   "property": "C80",
   "status": "partial",
   "theorems": [
    "C80_unreadable_exactly",
    "C80_parsed_integer_readable_refuted",
    "C80_parsed_integer_readable_partial"
   ],
   "note": "False as stated (text with '='): refuted; proved for texts without '=' and every binary form. C80_unreadable_exactly: it fails exactly for the texts whose announced part holds '='."
  },
  {
   "property": "C81",
   "status": "proved",
   "theorems": [
    "C81_read_values_can_be_written"
   ],
   "note": "Floats excluded from the claim: their text form is a parameter of the model."
  },
  {
   "property": "C82",
   "status": "partial",
   "theorems": [
    "C82_weight_texts_refuted",
    "C82_weight_texts_partial",
    "C82_accepted_exactly"
   ],
   "note": "Refuted by 1/x/y. Proved for texts with at most one division sign; C82_accepted_exactly characterises the accepted values including the others."
  },
  {
   "property": "C83",
   "status": "partial",
   "theorems": [
    "C83_ignored_fields_refuted",
    "C83_ignored_fields_partial",
    "C83_ignored_fields_exactly"
   ],
   "note": "False as stated (IndexMap::remove swaps in the last field): refuted; proved when the ignored fields come last. What the digest is taken over is also proved for every ignore list."
  },
  {
   "property": "C84",
   "status": "proved",
   "theorems": [
    "C84_sizing_accepts"
   ],
   "note": "Full."
  },
  {
   "property": "C85",
   "status": "proved",
   "theorems": [
    "C85_verified_digest",
    "C85_verified_digest_ignoring",
    "C85_verified_exactly"
   ],
   "note": ""
  },
  {
   "property": "C86",
   "status": "proved",
   "theorems": [
    "C86_digest_codes_agree"
   ],
   "note": ""
  },
  {
   "property": "C87",
   "status": "proved",
   "theorems": [
    "C87_reading_is_local"
   ],
   "note": "Proved for all byte strings and continuations."
  },
  {
   "property": "C88",
   "status": "proved",
   "theorems": [
    "C88_key_lists",
    "C88_sequence_number"
   ],
   "note": "Exact characterisation of the key, digest and witness lists, the sequence number, the identifier and the establishment test."
  },
  {
   "property": "C89",
   "status": "partial",
   "theorems": [
    "C89_prefix_panics_refuted",
    "C89_verify_panics_exactly",
    "C89_derivation_panics_partial",
    "C89_derivation_panics_exactly"
   ],
   "note": "False as stated (event without field t): refuted; the exact panicking inputs of verify and of derivation are proved."
  },
  {
   "property": "C90",
   "status": "partial",
   "theorems": [
    "C90_short_seed_refuted",
    "C90_signer_panics_partial",
    "C90_seeds_accepted"
   ],
   "note": "False as stated (a padded short seed text panics): refuted; the exact panicking inputs are proved."
  },
  {
   "property": "C91",
   "status": "partial",
   "theorems": [
    "C91_account_with_stem_refuted",
    "C91_accounts_partial",
    "C91_accounts_exactly"
   ],
   "note": "False as stated (a stem hides the account index; indices run together): refuted; proved for creators without a stem at equal rotation and key index. When two keys of different accounts share a path is characterised exactly."
  },
  {
   "property": "C92",
   "status": "partial",
   "theorems": [
    "C92_creator_panics_refuted",
    "C92_creator_panics_partial"
   ],
   "note": "False as stated: refuted; the exact panicking conditions are proved."
  },
  {
   "property": "C93",
   "status": "proved",
   "theorems": [
    "C93_created_as_asked",
    "C93_random_as_asked"
   ],
   "note": ""
  },
  {
   "property": "C94",
   "status": "partial",
   "theorems": [
    "C94_strip_panics_refuted",
    "C94_path_panics_partial"
   ],
   "note": "False as stated for strip: refuted; the others never panic and the panicking inputs of strip are proved exactly."
  },
  {
   "property": "C95",
   "status": "partial",
   "theorems": [
    "C95_tail",
    "C95_tail_is_identifier_refuted"
   ],
   "note": "False as stated (text after an identifier is given as well): refuted; what the tail gives is proved exactly."
  },
  {
   "property": "C96",
   "status": "partial",
   "theorems": [
    "C96_seal_partial",
    "C96_seal_refuted"
   ],
   "note": "False as stated without controller signatures (the seal is dropped): refuted; with them the seal is emitted and reads back: proved. The header made from any seal is given exactly by C76_messages_exactly."
  },
  {
   "property": "C97",
   "status": "proved",
   "theorems": [
    "C97_receipt"
   ],
   "note": ""
  },
  {
   "property": "C98",
   "status": "partial",
   "theorems": [
    "C98_variable_code_text",
    "C98_label_text",
    "C98_text_read_back",
    "C98_text_faithful_refuted",
    "C98_text_faithful_partial",
    "C98_binary_faithful",
    "C98_text_panics",
    "C98_size_panics",
    "C98_numbers",
    "C98_indexed_text",
    "C98_indexed_sizes",
    "C98_readers"
   ],
   "note": "False as stated for the text form of Matter (a raw longer than its code announces prints a text that reads back shortened): refuted with witness, and C98_text_read_back says exactly what every printed text reads back as. The binary form is faithful in every state. Panics characterised exactly. Indexed primitives: all nineteen codes in text; in binary the signature codes (C26_binary_index_exactly)."
  },
  {
   "property": "C99",
   "status": "proved",
   "theorems": [
    "C99_reading",
    "C99_assigning",
    "C99_replaced_is_determined",
    "C99_new_label",
    "C99_assign_panics",
    "C99_editing_keeps_data"
   ],
   "note": "Values are trees; floats are opaque. Reading, assignment, missing labels, panics, uniqueness of the described result and preservation of well-formedness and of the JSON round trip."
  },
  {
   "property": "C100",
   "status": "proved",
   "theorems": [
    "C100_object_literals",
    "C100_hash_maps",
    "C100_conversions"
   ],
   "note": "The dat! macro is modelled as one insert per entry; HashMap iteration order is an arbitrary permutation; float casts are parameters."
  },
  {
   "property": "C101",
   "status": "proved",
   "theorems": [
    "C101_saidify_output",
    "C101_new_from_data"
   ],
   "note": "The digest function is a parameter with the output sizes of the library digests. Sizes are those of the JSON modulo 2^32, which only matters above 4 GiB."
  },
  {
   "property": "C102",
   "status": "proved",
   "theorems": [
    "C102_threshold_texts",
    "C102_event_thresholds",
    "C102_first_seen",
    "C102_credential_fields",
    "C102_said"
   ],
   "note": "The text in d may be longer than the SAID read from it (then only its front is the SAID), as stated. First-seen numbers written in hexadecimal are not readable: the code reads f as a primitive."
  },
  {
   "property": "C103",
   "status": "proved",
   "theorems": [
    "C103_any_layout",
    "C103_own_output"
   ],
   "note": "Layouts are specified by an inductive relation between values and texts, separate from the parser. Number texts other than the printed ones (floats, exponents) are outside the relation."
  },
  {
   "property": "C104",
   "status": "partial",
   "theorems": [
    "C104_pretty_partial",
    "C104_pretty_deep",
    "C104_pretty_refuted"
   ],
   "note": "The claim that pretty never panics is false: C104_pretty_refuted gives a limit inside a multibyte character. C104_pretty_partial states exactly when it panics and what it returns otherwise."
  },
  {
   "property": "C105",
   "status": "proved",
   "theorems": [
    "C105_exchange"
   ],
   "note": "Premises: correct signature scheme, digests of the right size, data that begin with v, nest at most 127 deep and have fewer than 2^24 bytes of JSON. Attachments are read by the specification's own reader of groups, since the repository has no stream parser."
  },
  {
   "property": "C106",
   "status": "proved",
   "theorems": [
    "C106_no_substitution"
   ],
   "note": "For float-free data; the alternative is an explicit collision of the digest function."
  },
  {
   "property": "C107",
   "status": "partial",
   "theorems": [
    "C107_refilled_event_is_new",
    "C107_refused_change_refuted",
    "C107_refused_change_partial",
    "C107_kind_of_event_refuted",
    "C107_serialised_again",
    "C107_edited_event"
   ],
   "note": "Everything but the claims that a refused change leaves the event as it was and that the protocol is checked, which are refuted; the exact state left behind is described."
  },
  {
   "property": "C108",
   "status": "partial",
   "theorems": [
    "C108_short_constructors",
    "C108_short_signatures_and_salts",
    "C108_short_signers",
    "C108_short_indexed_signatures",
    "C108_short_values",
    "C108_short_events_refuted",
    "C108_short_events_partial",
    "C108_short_contents_partial"
   ],
   "note": "Proved for all types; for base64 texts, date-times, paths, thresholds, indexed signatures and events under the conditions of the properties about them. That events are always read back is refuted: new_with_raw expects a Blake3 digest."
  },
  {
   "property": "C109",
   "status": "partial",
   "theorems": [
    "C109_signing_never_panics",
    "C109_stale_key_refuted",
    "C109_any_state_partial"
   ],
   "note": "Everything but the claim about the attached key, which is refuted: set_raw and set_code leave the old key in place."
  },
  {
   "property": "C110",
   "status": "proved",
   "theorems": [
    "C110_events_any_state",
    "C110_lists_any_state"
   ],
   "note": ""
  },
  {
   "property": "C111",
   "status": "proved",
   "theorems": [
    "C111_setters",
    "C111_indexed_setters",
    "C111_event_setters"
   ],
   "note": "Proved for all sequences of calls."
  },
  {
   "property": "C112",
   "status": "partial",
   "theorems": [
    "C112_defaults_partial",
    "C112_default_date_time_refuted"
   ],
   "note": "False for date-times, whose default prints as a text that does not read back: refuted; proved for all other types."
  },
  {
   "property": "C113",
   "status": "proved",
   "theorems": [
    "C113_reading"
   ],
   "note": "For the parsers of primitives and indexed primitives in text and binary, the indexed and counter constructors and raw_size, modelled a second time with 32-bit arithmetic modulo 2^32 (Release.v)."
  },
  {
   "property": "C114",
   "status": "proved",
   "theorems": [
    "C114_printing",
    "C114_indexed_signatures",
    "C114_full_size"
   ],
   "note": "Whatever the fields hold. Includes the binary form of codes 3A and 3B, on which a debug build panics."
  },
  {
   "property": "C115",
   "status": "proved",
   "theorems": [
    "C115_sound",
    "C115_reported",
    "C115_construction_panics"
   ],
   "note": "For fewer than 2^32 weights. Also: which values panic at construction (0/0 only), for fewer than 2^27 weights."
  },
  {
   "property": "C116",
   "status": "partial",
   "theorems": [
    "C116_complete_refuted",
    "C116_complete_partial"
   ],
   "note": "False as stated (C116_complete_refuted): wrapped sums lose weight, and more signatures can undo a satisfied threshold. Proved where no sum of signed weights needs more than 31 bits, and equality with a debug build wherever that does not panic."
  },
  {
   "property": "C117",
   "status": "partial",
   "theorems": [
    "C117_key_indices_refuted",
    "C117_key_indices_partial",
    "C117_batches"
   ],
   "note": "False as stated (C117_key_indices_refuted): the key index wraps around at 2^16. Proved for indices that differ modulo 2^16, and for batches of a salter in full."
  },
  {
   "property": "C118",
   "status": "proved",
   "theorems": [
    "C118_reading_follows_the_grammar"
   ],
   "note": "Both directions: the parser accepts exactly the texts of an independent inductive grammar. serde_json is modelled, not verified; what float texts denote is a parameter."
  },
  {
   "property": "C119",
   "status": "proved",
   "theorems": [
    "C119_printed_json_is_shortest"
   ],
   "note": "For float-free values, over every text the loader reads as that value."
  },
  {
   "property": "C120",
   "status": "proved",
   "theorems": [
    "C120_log_continuity"
   ],
   "note": "For the verification code in sample/keri, with the store, the stream parser and the signature scheme as parameters. Numbers reach the store modulo 2^32."
  },
  {
   "property": "C121",
   "status": "partial",
   "theorems": [
    "C121_one_signature_is_enough",
    "C121_any_one_key_is_enough",
    "C121_signatures_counted",
    "C121_threshold_of_signers_refuted",
    "C121_threshold_of_signers_partial"
   ],
   "note": "False as stated (C121_threshold_of_signers_refuted): with a numeric threshold a signature given twice counts twice. Proved: exactly which signatures are counted, that they satisfy the threshold, and that they come from different keys if no index is repeated or if the threshold is weighted; and, for every accepted event with numeric thresholds, that one of its signatures repeated is enough alone, any one of the keys for events other than rotations."
  },
  {
   "property": "C122",
   "status": "partial",
   "theorems": [
    "C122_rotation_honours_commitment",
    "C122_all_announced_keys_refuted",
    "C122_no_announcement_no_rotation"
   ],
   "note": "Proved that the announced threshold is satisfied by signatures of announced keys, and that without an announcement no rotation is accepted. Refuted that these come from different keys (C122_all_announced_keys_refuted): with a numeric threshold one announced key's signature given twice counts twice."
  },
  {
   "property": "C123",
   "status": "proved",
   "theorems": [
    "C123_inception_certifies_itself",
    "C123_prefix_binds_inception",
    "C123_said_binds_event"
   ],
   "note": "For events without floats; inceptions begin with their version string. Field d may carry text after the identifier, which is not bound."
  },
  {
   "property": "C124",
   "status": "proved",
   "theorems": [
    "C124_deep_verification"
   ],
   "note": "The log in order is a hypothesis on the store (each event carries the prefix and its number, identifiers differ)."
  },
  {
   "property": "C125",
   "status": "proved",
   "theorems": [
    "C125_same_history"
   ],
   "note": "For events without floats, numbers up to 2^32; unless Blake3 has a collision."
  },
  {
   "property": "C126",
   "status": "partial",
   "theorems": [
    "C126_key_events_verified",
    "C126_registry_events_verified",
    "C126_credentials_verified",
    "C126_any_store_refuted"
   ],
   "note": "Proved for a store that, asked for the data with an identifier, finds the events and credentials inserted. Refuted for a store that finds only other data (C126_any_store_refuted): the second of two events with one identifier in a stream skips verification. The store is a trait in the code, without an implementation."
  },
  {
   "property": "C127",
   "status": "proved",
   "theorems": [
    "C127_append_only"
   ],
   "note": "The store is a trait; its insertions are modelled as appending to the log of a prefix."
  },
  {
   "property": "C128",
   "status": "proved",
   "theorems": [
    "C128_ledgers_agree"
   ],
   "note": "For stores that find inserted events by their identifiers, events without floats and numbers up to 2^32; unless Blake3 has a collision."
  },
  {
   "property": "C129",
   "status": "partial",
   "theorems": [
    "C129_anchored",
    "C129_only_owner_revokes_refuted",
    "C129_any_newcomer_revokes"
   ],
   "note": "The anchoring of accepted registry events is proved in full. That only the owner of the issuing registry can revoke a credential is refuted: by a ledger (C129_only_owner_revokes_refuted), and for every credential in every ledger, by anyone unknown there with a registry of their own (C129_any_newcomer_revokes): a revocation is judged by the registry it names itself."
  },
  {
   "property": "C130",
   "status": "proved",
   "theorems": [
    "C130_registry_continuity"
   ],
   "note": "For numbers as the code reads them (the low 32 bits index the store)."
  },
  {
   "property": "C131",
   "status": "proved",
   "theorems": [
    "C131_revocation_is_final"
   ],
   "note": "For stores that find inserted events and credentials by their identifiers."
  },
  {
   "property": "C132",
   "status": "partial",
   "theorems": [
    "C132_credential_checked",
    "C132_issued_by_issuer_refuted",
    "C132_anyone_forges"
   ],
   "note": "What an accepted credential has been checked for is proved. That it was issued or signed by the issuer it names is refuted: by a ledger (C132_issued_by_issuer_refuted), and for every issuer in every ledger, by anyone who controls an identifier and owns a registry there (C132_anyone_forges). Schema validation and the clock are parameters."
  },
  {
   "property": "C133",
   "status": "proved",
   "theorems": [
    "C133_said_binds_credential"
   ],
   "note": "For credentials without floats; unless Blake3 has a collision."
  },
  {
   "property": "C134",
   "status": "proved",
   "theorems": [
    "C134_edges_checked",
    "C134_chains_lead_back"
   ],
   "note": "That chains lead back is for stores that find inserted data by identifiers."
  },
  {
   "property": "C135",
   "status": "proved",
   "theorems": [
    "C135_deep_provenance"
   ],
   "note": "For a store in which no event has the identifier of a credential, and a start with no credential's identifier among those under verification."
  },
  {
   "property": "C136",
   "status": "partial",
   "theorems": [
    "C136_default_threshold_partial",
    "C136_default_threshold_refuted",
    "C136_default_threshold_exactly"
   ],
   "note": "Safety and range are proved; that honest witnesses reach the default is refuted for four witnesses (C136_default_threshold_refuted) and decided for all numbers (C136_default_threshold_exactly)."
  },
  {
   "property": "C137",
   "status": "partial",
   "theorems": [
    "C137_cutting_witnesses_partial",
    "C137_cutting_witnesses_refuted",
    "C137_cutting_witnesses_exactly"
   ],
   "note": "What a built rotation lists is proved; that present witnesses can be cut is refuted (C137_cutting_witnesses_refuted), with the exact cuts that fail (C137_cutting_witnesses_exactly)."
  },
  {
   "property": "C138",
   "status": "partial",
   "theorems": [
    "C138_inception_accepted_partial",
    "C138_only_self_addressing_accepted",
    "C138_inception_accepted_refuted"
   ],
   "note": "Proved for self-addressing inceptions; no other inception is accepted (C138_only_self_addressing_accepted, C138_inception_accepted_refuted)."
  },
  {
   "property": "C139",
   "status": "proved",
   "theorems": [
    "C139_interaction_accepted"
   ],
   "note": "For correct signature schemes; interactions without floats nested less than 127 deep."
  },
  {
   "property": "C140",
   "status": "proved",
   "theorems": [
    "C140_rotation_accepted"
   ],
   "note": "For correct signature schemes."
  },
  {
   "property": "C141",
   "status": "proved",
   "theorems": [
    "C141_life_gives_control",
    "C141_life_then_registry",
    "C141_life_accepted"
   ],
   "note": "For correct signature schemes, self-addressing prefixes, and serialised events shorter than 2^32 bytes."
  },
  {
   "property": "C142",
   "status": "proved",
   "theorems": [
    "C142_issued_credentials_accepted"
   ],
   "note": "For the three texts taken in without looking back (deep is Some(false)); parser, schema validator and clock are parameters, and the data can be written and read back."
  },
  {
   "property": "C143",
   "status": "proved",
   "theorems": [
    "C143_revocation_accepted"
   ],
   "note": "The texts are taken in without looking back; the conclusion about credentials is for every depth."
  },
  {
   "property": "C144",
   "status": "proved",
   "theorems": [
    "C144_registry_accepted"
   ],
   "note": "The texts are taken in without looking back."
  },
  {
   "property": "C145",
   "status": "proved",
   "theorems": [
    "C145_reserve_rotation_accepted",
    "C145_interaction_by_later_keys_accepted"
   ],
   "note": "For correct signature schemes."
  },
  {
   "property": "C146",
   "status": "proved",
   "theorems": [
    "C146_shared_life_accepted"
   ],
   "note": "For correct signature schemes, self-addressing prefixes, and serialised events shorter than 2^32 bytes."
  },
  {
   "property": "C147",
   "status": "proved",
   "theorems": [
    "C147_signing_keys_all_needed",
    "C147_reserve_keys_all_needed"
   ],
   "note": "For fewer than 2^27 keys; inceptions with a self-addressing prefix."
  },
  {
   "property": "C148",
   "status": "proved",
   "theorems": [
    "C148_rotation_arguments",
    "C148_inception_arguments"
   ],
   "note": "Counts below 2^64 (they are of type usize)."
  },
  {
   "property": "C149",
   "status": "proved",
   "theorems": [
    "C149_compiled_schemas_identified",
    "C149_made_schema_identified",
    "C149_one_schema_per_identifier"
   ],
   "note": "Values handed over as values have no floats; texts may. The validator boon is a parameter."
  },
  {
   "property": "C150",
   "status": "partial",
   "theorems": [
    "C150_own_schema_reads_back_exactly",
    "C150_own_schema_reads_back_refuted",
    "C150_own_schema_reads_back_partial"
   ],
   "note": "False for schemas with a field v whose size is wrong (C150_own_schema_reads_back_refuted). Proved exactly which schemas read back: those without a field v and those whose field v is the version string for the size of their own text."
  },
  {
   "property": "C151",
   "status": "proved",
   "theorems": [
    "C151_answers_never_change",
    "C151_answer_is_conformance"
   ],
   "note": "Whether a text conforms to a schema is a parameter (crate boon); it may depend on the identifier, the schema and the text only."
  },
  {
   "property": "C152",
   "status": "proved",
   "theorems": [
    "C152_credential_conforms_to_schema"
   ],
   "note": "Whether a text conforms to a schema is a parameter (crate boon)."
  },
  {
   "property": "C153",
   "status": "partial",
   "theorems": [
    "C153_unknown_schema_error_refuted",
    "C153_unknown_schema_panics"
   ],
   "note": "False: the look-up of an unknown schema panics (C153_unknown_schema_error_refuted), always (C153_unknown_schema_panics)."
  },
  {
   "property": "C154",
   "status": "partial",
   "theorems": [
    "C154_verification_answers_exactly",
    "C154_verification_answers_refuted",
    "C154_ingestion_answers_refuted",
    "C154_verification_answers_partial"
   ],
   "note": "The index equal to the number of keys makes verification and ingestion of any accepted event panic (two refuted theorems). Shown instead: for an event accepted with some signatures, no attached groups without that index make verification panic, and exactly which groups do (C154_verification_answers_exactly), given keys and digests with texts and weighted thresholds with a small-denominator weight per key."
  },
  {
   "property": "C155",
   "status": "partial",
   "theorems": [
    "C155_more_signatures_refuted",
    "C155_more_signatures_partial"
   ],
   "note": "Refuted by an inception with two keys and the weights [\"1\"]. Shown instead: the answer stays the same or, with a weighted threshold only, verification panics; with steady thresholds the answer stays the same."
  },
  {
   "property": "C156",
   "status": "partial",
   "theorems": [
    "C156_numbers_go_out",
    "C156_numbers_come_back_refuted",
    "C156_numbers_come_back_exactly"
   ],
   "note": "Going out is shown in full. Coming back is refuted (2^64 becomes 1); shown instead exactly which numbers survive: those below 2^64."
  },
  {
   "property": "C157",
   "status": "partial",
   "theorems": [
    "C157_body_given_refuted",
    "C157_saidify_refuted",
    "C157_handed_out_partial"
   ],
   "note": "Refuted for every event a script can build and for all data. Shown instead: the bytes of an event read from bytes are the text of its body, and new_with_sad gives the identifier that saidify would."
  },
  {
   "property": "C158",
   "status": "partial",
   "theorems": [
    "C158_bad_text_is_error_refuted",
    "C158_good_text_partial"
   ],
   "note": "Refuted for every text that is not JSON at every binding that takes a value. Shown instead: on a text that reads as a value each binding is the function of the crate, and the texts that trap are exactly those that are not JSON or that the crate's own loader panics on (C50)."
  },
  {
   "property": "C159",
   "status": "proved",
   "theorems": [
    "C159_texts_read_back"
   ],
   "note": ""
  },
  {
   "property": "C160",
   "status": "partial",
   "theorems": [
    "C160_codex",
    "C160_codex_complete_refuted"
   ],
   "note": "Names, distinctness and sizes are shown in full. Completeness is refuted: exactly the eight codes of ECDSA secp256r1 have no name."
  },
  {
   "property": "C161",
   "status": "partial",
   "theorems": [
    "C161_credential_verification_answers_refuted",
    "C161_credential_verification_answers_partial",
    "C161_credential_verification_answers_exactly",
    "C161_credential_verification_answers_exactly_at_depth"
   ],
   "note": "Refuted for every accepted credential at any depth: a signature whose index is the number of keys. Shown instead: exactly which attachments to an acceptable credential panic, with the store trusted and, in ledgers taken in with verification, at any depth. Paths must have texts, the store must answer about the events named, and weighted thresholds have small weights, one for each key. Missing: depth in other stores, credentials that no attachments make acceptable."
  },
  {
   "property": "C162",
   "status": "partial",
   "theorems": [
    "C162_further_endorsements_refuted",
    "C162_further_endorsements_partial",
    "C162_further_endorsements_exactly",
    "C162_further_endorsements_exactly_at_depth"
   ],
   "note": "Refuted for signatures of someone whose key event the store lacks. Shown instead: exactly which attachments an acceptable credential is accepted with, with the store trusted and, in ledgers taken in with verification, at any depth; so further groups do no harm exactly if they are of signatures on parts and each about the whole names a stored event with enough good signatures. In other stores at depth: if a group attached before names the same event."
  },
  {
   "property": "C163",
   "status": "proved",
   "theorems": [
    "C163_accepted_credentials_exactly"
   ],
   "note": "With deep = false, the setting in which the store's logs are trusted."
  },
  {
   "property": "C164",
   "status": "partial",
   "theorems": [
    "C164_edges_answer_refuted",
    "C164_edges_answer_partial"
   ],
   "note": "Refuted: the four kinds of edges in the statement. Shown instead, with the store trusted: in a store whose credentials are readable and have attributes, all other edges give an answer or an error. At depth: C170_depth_adds_nothing carries it over to ledgers taken in with verification. Missing: depth in other stores."
  },
  {
   "property": "C165",
   "status": "proved",
   "theorems": [
    "C165_accepted_key_events_exactly"
   ],
   "note": "With deep other than true, the setting in which the stored log is trusted; deep verification is C124."
  },
  {
   "property": "C166",
   "status": "proved",
   "theorems": [
    "C166_accepted_registry_events_exactly"
   ],
   "note": "With deep = false, the setting in which the stored logs are trusted."
  },
  {
   "property": "C167",
   "status": "partial",
   "theorems": [
    "C167_key_events_answer_refuted",
    "C167_key_events_answer_partial"
   ],
   "note": "Refuted for events without prefix, number or type and for inceptions whose threshold panics. Shown instead, with the store trusted: a harmless event, in a sound log, without a signature whose index is the number of keys, gets an answer or an error. At depth: C168_depth_adds_nothing carries it over to ledgers taken in with verification. Missing: depth in other stores."
  },
  {
   "property": "C168",
   "status": "proved",
   "theorems": [
    "C168_stored_key_events_verify_again",
    "C168_depth_adds_nothing"
   ],
   "note": "Assumes of the parser that a printed group is read back, and of the store that it finds what was inserted. Logs shorter than 2^32."
  },
  {
   "property": "C169",
   "status": "proved",
   "theorems": [
    "C169_stored_registry_events_verify_again",
    "C169_depth_adds_nothing"
   ],
   "note": "Assumes of the parser that a printed group is read back, and of the store that it finds what was inserted. Logs shorter than 2^32. The bound on recursion is existential."
  },
  {
   "property": "C170",
   "status": "proved",
   "theorems": [
    "C170_stored_credentials_stand_until_revoked",
    "C170_stored_credentials_stand_with_their_chains",
    "C170_depth_adds_nothing"
   ],
   "note": "Assumes of the parser that a printed group is read back, and of the store that it finds what was inserted. The second theorem is for ledgers in which no event has the identifier of a credential. Bounds on recursion are existential."
  },
  {
   "property": "C171",
   "status": "partial",
   "theorems": [
    "C171_registry_events_answer_refuted",
    "C171_registry_events_answer_partial",
    "C171_registry_events_answer_deep_partial"
   ],
   "note": "Refuted: events without prefix, number, type, registry or owner, a registry named whose log has no owner (any credential), anchors with one seal that lacks a field. Shown instead: all other registry events give an answer or an error, with the store trusted, and at any depth in ledgers taken in with verification."
  },
  {
   "property": "C172",
   "status": "partial",
   "theorems": [
    "C172_new_messages_change_nothing_again",
    "C172_taken_in_again_changes_nothing",
    "C172_taken_in_again_succeeds_refuted",
    "C172_taken_in_again_succeeds_partial"
   ],
   "note": "Proved in full: the second time changes nothing, however it ends, with the store trusted; and at any depth for streams of new messages. Refuted: a stream that issues and revokes a credential fails the second time. Shown instead: if the credentials in the stream are in good standing the second time succeeds."
  },
  {
   "property": "C173",
   "status": "partial",
   "theorems": [
    "C173_streams_are_held",
    "C173_whole_stream_verified_refuted",
    "C173_whole_stream_verified_partial"
   ],
   "note": "Proved in full, at any depth: an event or credential with each identifier is held. Refuted: a message with the identifier of an earlier one is passed over unread, whatever it holds. Shown instead: the first message with each identifier was verified."
  },
  {
   "property": "C174",
   "status": "partial",
   "theorems": [
    "C174_endorsements_read_back_partial",
    "C174_seals_read_back",
    "C174_whose_signatures_refuted",
    "C174_endorsed_exactly",
    "C174_pipelined_exactly"
   ],
   "note": "Proved for indexed signatures of controllers and witnesses, with or without a seal: the groups and the seal read back exactly, and the pipeline counter says the exact length. Refuted for unindexed signatures: the endorsement is the same whoever signed. Proved exactly when an endorsement is made and when a message can be pipelined (at most 4095 groups of four characters)."
  },
  {
   "property": "C175",
   "status": "proved",
   "theorems": [
    "C175_forks_are_signed_by_the_same_keys",
    "C175_logs_begin_alike"
   ],
   "note": "For stores that find inserted events by their identifiers, events without floats, inceptions that begin with their version string, and numbers below 2^32; unless Blake3 has a collision. A repeated signature counts again, as in C121."
  },
  {
   "property": "C176",
   "status": "proved",
   "theorems": [
    "C176_credential_endorsement_reads_back",
    "C176_credential_message_exactly",
    "C176_ratified_exactly"
   ],
   "note": "Proved for signatures as the library makes them and numbers below 2^128. An endorsement with more than 4095 groups of four characters is made but cannot be sent."
  },
  {
   "property": "C177",
   "status": "proved",
   "theorems": [
    "C177_one_registry_event_for_each_anchor",
    "C177_every_registry_event_has_its_own_anchor",
    "C177_forks_of_registry_logs_show_in_the_key_log"
   ],
   "note": "Proved for ledgers made by taking in streams, with numbers below 2^32; assumed of the parser: a group that was printed is read back."
  },
  {
   "property": "C178",
   "status": "partial",
   "theorems": [
    "C178_threshold_of_signers_refuted",
    "C178_threshold_of_signers_partial",
    "C178_one_key_is_enough",
    "C178_one_key_is_enough_at_depth"
   ],
   "note": "False as stated (C178_threshold_of_signers_refuted): equal signatures count once, but signatures of one key that differ in form or second index count each, so with a numeric threshold one key is always enough (C178_one_key_is_enough). Proved: what is counted meets the threshold, which takes different keys if signatures with one index are equal, or with weights."
  }
 ]
}