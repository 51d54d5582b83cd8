{
 "claims": [
  {
   "property": "C01",
   "status": "proved",
   "theorems": [
    "C01_long_append_history",
    "C01_int_append_history"
   ],
   "note": "Page exponents 0..62; fewer than 2^63 values."
  },
  {
   "property": "C02",
   "status": "partial",
   "theorems": [
    "C02_positional_read_refuted",
    "C62_long_read_exact",
    "C62_int_read_exact"
   ],
   "note": "REFUTED as stated: positions at or beyond the page size cannot be read. Proved: exact set of readable positions (C62)."
  },
  {
   "property": "C03",
   "status": "partial",
   "theorems": [
    "C03_access_no_panic_refuted",
    "C63_long_panic_exact",
    "C63_int_panic_exact"
   ],
   "note": "REFUTED as stated: 56 values with page exponent 7, index 200 panics. Proved: exact set of panicking indices (C63)."
  },
  {
   "property": "C04",
   "status": "proved",
   "theorems": [
    "C04_modify_frame",
    "C04_modify_frame_int",
    "C04_modify_succeeds_iff"
   ],
   "note": ""
  },
  {
   "property": "C05",
   "status": "partial",
   "theorems": [
    "C05_clear_refill_refuted",
    "C64_clear_is_final"
   ],
   "note": "REFUTED as stated: a cleared non-empty buffer rejects every Append. Exact behaviour proved as C64."
  },
  {
   "property": "C06",
   "status": "partial",
   "theorems": [
    "C06_page_size_validation_refuted",
    "C65_page_size_exact",
    "C65_int_page_size_exact"
   ],
   "note": "REFUTED as stated: negative sizes panic, 63 is accepted. Exact behaviour proved as C65."
  },
  {
   "property": "C07",
   "status": "partial",
   "theorems": [
    "C07_object_buffer_refuted",
    "C66_object_buffer_exact"
   ],
   "note": "REFUTED as stated: GetSize stays 1. Exact behaviour proved as C66."
  },
  {
   "property": "C08",
   "status": "partial",
   "theorems": [
    "C08_lower_half",
    "C08_upper_half_refuted",
    "C67_upper_half_exact"
   ],
   "note": "Lower half proved; upper half REFUTED (28-bit mask). Exact value proved as C67."
  },
  {
   "property": "C09",
   "status": "partial",
   "theorems": [
    "C09_byte_at",
    "C09_byte_slice_refuted",
    "C68_byte_slice_exact"
   ],
   "note": "ByteAt part proved; GetByteSlice REFUTED (returns buffer[offset:length], can panic). Exact result proved as C68."
  },
  {
   "property": "C10",
   "status": "proved",
   "theorems": [
    "C10_name_classes",
    "C10_table_lookup"
   ],
   "note": ""
  },
  {
   "property": "C11",
   "status": "partial",
   "theorems": [
    "C11_valid_char_refuted",
    "C11_content_char_partial",
    "C69_valid_char_exact"
   ],
   "note": "REFUTED as stated: control characters are accepted. Exact class proved as C69; content characters relative to it proved."
  },
  {
   "property": "C12",
   "status": "proved",
   "theorems": [
    "C12_utf8_stream",
    "C12_ascii_stream"
   ],
   "note": ""
  },
  {
   "property": "C13",
   "status": "partial",
   "theorems": [
    "C13_skip_refuted",
    "C13_skip_char_partial",
    "C70_skip_seq_exact"
   ],
   "note": "REFUTED at the window end and for partial matches. SkipChar inside the document proved; exact effect proved as C70."
  },
  {
   "property": "C14",
   "status": "partial",
   "theorems": [
    "C14_utf8_window",
    "C14_ascii_window_refuted",
    "C71_ascii_window_exact"
   ],
   "note": "UTF-8 reader proved; ASCII reader REFUTED at endOffset = len. Exact condition proved as C71."
  },
  {
   "property": "C15",
   "status": "partial",
   "theorems": [
    "C15_token_round_trip_partial",
    "C15_offset_refuted",
    "C72_token_offset_exact"
   ],
   "note": "REFUTED for offsets >= 2^30 (30-bit mask); proved below. Exact offset proved as C72."
  },
  {
   "property": "C16",
   "status": "partial",
   "theorems": [
    "C16_attr_name_length",
    "C16_attr_name_parts",
    "C16_start_tag_length_refuted",
    "C73_start_tag_length_exact"
   ],
   "note": "Attribute names proved; prefixed start tags REFUTED, exact value proved as C73."
  },
  {
   "property": "C17",
   "status": "partial",
   "theorems": [
    "C17_text_length_partial",
    "C17_text_length_refuted",
    "C74_text_length_exact"
   ],
   "note": "Proved for non-empty tokens; REFUTED for empty ones. Exact result proved as C74."
  },
  {
   "property": "C18",
   "status": "partial",
   "theorems": [
    "C18_raw_string_partial",
    "C18_no_cr",
    "C18_crlf_refuted",
    "C18_final_cr_refuted",
    "C75_raw_string_exact"
   ],
   "note": "Proved without CR LF pairs and without a document-final CR; REFUTED for those. Exact result proved as C75."
  },
  {
   "property": "C19",
   "status": "partial",
   "theorems": [
    "C19_entities_refuted",
    "C19_plain_text_partial",
    "C76_tostring_is_raw"
   ],
   "note": "REFUTED: references are not replaced. Plain text proved; exact behaviour is C76 with C75."
  },
  {
   "property": "C20",
   "status": "partial",
   "theorems": [
    "C20_range_errors_partial",
    "C20_overflow_refuted",
    "C77_range_exact"
   ],
   "note": "Proved when offset+length fits in int32 and the encoding is known; REFUTED on overflow. Exact condition proved as C77."
  },
  {
   "property": "C21",
   "status": "proved",
   "theorems": [
    "C21_root",
    "C21_parent"
   ],
   "note": ""
  },
  {
   "property": "C22",
   "status": "partial",
   "theorems": [
    "C22_first_child_partial",
    "C22_last_child_partial",
    "C22_second_page_refuted"
   ],
   "note": "Proved when every token is readable (token buffer of one page); REFUTED beyond the first page (see C02); exact beyond it: C108."
  },
  {
   "property": "C23",
   "status": "partial",
   "theorems": [
    "C23_next_sibling_refuted",
    "C78_next_sibling_never"
   ],
   "note": "REFUTED: never succeeds. Exact behaviour proved as C78."
  },
  {
   "property": "C24",
   "status": "partial",
   "theorems": [
    "C24_prev_sibling_partial",
    "C24_second_page_refuted"
   ],
   "note": "Proved when every token is readable; REFUTED beyond the first page (see C02); exact beyond it: C108."
  },
  {
   "property": "C25",
   "status": "partial",
   "theorems": [
    "C25_failed_move_partial",
    "C25_failed_move_refuted"
   ],
   "note": "Proved over a consistent location cache; REFUTED when a cache read fails midway."
  },
  {
   "property": "C26",
   "status": "partial",
   "theorems": [
    "C26_root_children_partial",
    "C26_level1_children_partial",
    "C26_level1_siblings_partial",
    "C26_level2_sibling_refuted",
    "C80_level2_child_exact",
    "C80_deep_sibling_exact"
   ],
   "note": "Root and level-1 children and level-1 siblings proved; level-2 and level-3 moves REFUTED, exact behaviour proved as C80."
  },
  {
   "property": "C27",
   "status": "proved",
   "theorems": [
    "C27_sibling_inverse"
   ],
   "note": ""
  },
  {
   "property": "C28",
   "status": "partial",
   "theorems": [
    "C28_undefined_direction_partial",
    "C28_navigation_error_refuted",
    "C81_undefined_direction_exact"
   ],
   "note": "Error and untouched cursor proved; error type REFUTED (it is a ParseError), exact as C81."
  },
  {
   "property": "C29",
   "status": "partial",
   "theorems": [
    "C29_construction_exact",
    "C29_negative_length_refuted"
   ],
   "note": "REFUTED for negative lengths (accepted when offset+length >= 0); the exact acceptance condition, error type, absence of panics and last-option-wins are proved."
  },
  {
   "property": "C30",
   "status": "proved",
   "theorems": [
    "C30_parse_returns"
   ],
   "note": ""
  },
  {
   "property": "C31",
   "status": "partial",
   "theorems": [
    "C31_termination_refuted",
    "C31_url_loop_never_ends",
    "C31_parse_returns_partial"
   ],
   "note": "REFUTED by a document with two declared prefixes and a reference to a number with bit 31 set; proved for every document whose '&#' are all followed by ';' within nine bytes, which every reference of XML 1.0 without leading zeros is."
  },
  {
   "property": "C32",
   "status": "partial",
   "theorems": [
    "C32_no_panic_refuted",
    "C32_namespace_refuted",
    "C32_panic_sites_partial",
    "C32_no_page_panic"
   ],
   "note": "REFUTED (three short documents; with namespace awareness also a well-formed document); the list of panic sites is proved in every mode."
  },
  {
   "property": "C33",
   "status": "partial",
   "theorems": [
    "C33_well_nested_refuted"
   ],
   "note": "REFUTED as stated (concrete document): after an end tag a reference acts as '<', so elements can be closed without '</'. Exact acceptance as trees: C117."
  },
  {
   "property": "C34",
   "status": "partial",
   "theorems": [
    "C34_supported_grammar_refuted"
   ],
   "note": "REFUTED as stated (concrete document): text starting with a reference after an end tag, and a PI at the start, are rejected. Exact acceptance as trees: C117."
  },
  {
   "property": "C35",
   "status": "partial",
   "theorems": [
    "C35_exact_tokens_refuted"
   ],
   "note": "REFUTED as stated (concrete document): prefixed start tags get a wrong length."
  },
  {
   "property": "C36",
   "status": "partial",
   "theorems": [
    "C36_attribute_names_unique_partial",
    "C36_repeated_attribute_rejected",
    "C36_repeated_attribute_never"
   ],
   "note": "The acceptance half is for any window (in buffers below 2^31 bytes, or ending with the buffer), without namespace awareness, or with it when no '&' is followed by 'a'. The rejection half gives the exact error for any window without namespace awareness; under the limits of the acceptance half it is proved with it that the document is not accepted (the _never theorems). Beyond them documents outside the grammar are accepted (C106_limit_refuted). A repetition as 257th attribute is also reported."
  },
  {
   "property": "C37",
   "status": "partial",
   "theorems": [
    "C37_depth_limit_partial",
    "C37_too_deep_rejected",
    "C37_nested",
    "C37_too_deep_never"
   ],
   "note": "The acceptance half is for any window (in buffers below 2^31 bytes, or ending with the buffer), without namespace awareness, or with it when no '&' is followed by 'a'. The rejection half gives the exact error for any window without namespace awareness; under the limits of the acceptance half it is proved with it that the document is not accepted (the _never theorems). Beyond them documents outside the grammar are accepted (C106_limit_refuted)."
  },
  {
   "property": "C38",
   "status": "partial",
   "theorems": [
    "C38_length_limits_partial",
    "C38_long_element_rejected",
    "C38_long_attribute_rejected",
    "C38_long_value_rejected",
    "C38_long_pi_name_rejected",
    "C38_long_pi_value_rejected",
    "C38_long_element_never",
    "C38_long_attribute_never",
    "C38_long_value_never",
    "C38_long_pi_never"
   ],
   "note": "The acceptance half is for any window (in buffers below 2^31 bytes, or ending with the buffer), without namespace awareness, or with it when no '&' is followed by 'a'. The rejection half gives the exact error for any window without namespace awareness; under the limits of the acceptance half it is proved with it that the document is not accepted (the _never theorems). Beyond them documents outside the grammar are accepted (C106_limit_refuted). PIs after the root are covered by the acceptance half only."
  },
  {
   "property": "C39",
   "status": "partial",
   "theorems": [
    "C39_long_text_refuted"
   ],
   "note": "REFUTED as stated: the pieces start at offset 0. Exact behaviour proved as C89."
  },
  {
   "property": "C40",
   "status": "partial",
   "theorems": [
    "C40_ascii_declaration_refuted"
   ],
   "note": "REFUTED as stated (concrete document): declaring ASCII is rejected."
  },
  {
   "property": "C41",
   "status": "partial",
   "theorems": [
    "C41_byte_order_mark_refuted"
   ],
   "note": "REFUTED as stated (concrete document): documents with a byte-order mark are rejected."
  },
  {
   "property": "C42",
   "status": "partial",
   "theorems": [
    "C42_doctype_refuted"
   ],
   "note": "REFUTED as stated (concrete document): a DOCTYPE before the root is rejected."
  },
  {
   "property": "C43",
   "status": "partial",
   "theorems": [
    "C43_epilog_refuted"
   ],
   "note": "REFUTED as stated (concrete document): comments after the root are rejected."
  },
  {
   "property": "C44",
   "status": "partial",
   "theorems": [
    "C44_cdata_refuted"
   ],
   "note": "REFUTED as stated (concrete document): a CDATA section ends at the first ]>."
  },
  {
   "property": "C45",
   "status": "partial",
   "theorems": [
    "C45_references_refuted"
   ],
   "note": "REFUTED as stated (concrete document): references to non-XML characters are accepted."
  },
  {
   "property": "C46",
   "status": "partial",
   "theorems": [
    "C46_bracket_refuted"
   ],
   "note": "REFUTED as stated (concrete document): ]> is rejected."
  },
  {
   "property": "C47",
   "status": "partial",
   "theorems": [
    "C47_window_refuted",
    "C47_window_partial"
   ],
   "note": "REFUTED as stated (concrete document): the byte after the window can decide. Proved for a document of less than 2^20 bytes that is accepted on its own (longer texts get offset 0, see C89)."
  },
  {
   "property": "C48",
   "status": "partial",
   "theorems": [
    "C48_second_parse_refuted"
   ],
   "note": "REFUTED as stated (concrete document): the second call panics."
  },
  {
   "property": "C49",
   "status": "partial",
   "theorems": [
    "C49_error_position"
   ],
   "note": "Proved for every encoding the parser can succeed in; a document with a UTF-16 signature reports line 1 and column position/2+1 (the second disjunct)."
  },
  {
   "property": "C50",
   "status": "partial",
   "theorems": [
    "C50_navigator_refuted"
   ],
   "note": "REFUTED as stated (concrete document): GetNav always returns nil."
  },
  {
   "property": "C51",
   "status": "proved",
   "theorems": [
    "C51_location_cache",
    "C51_location_cache_partial"
   ],
   "note": "Every mode. C51_location_cache_partial also describes the tokens, for documents without namespace awareness."
  },
  {
   "property": "C52",
   "status": "partial",
   "theorems": [
    "C52_location_cache_refuted",
    "C52_shallow_empty"
   ],
   "note": "REFUTED as stated (concrete document): the tables stay empty, for every accepted document and in every mode (C52_shallow_empty)."
  },
  {
   "property": "C53",
   "status": "proved",
   "theorems": [
    "C53_cache_depth_irrelevant"
   ],
   "note": ""
  },
  {
   "property": "C54",
   "status": "partial",
   "theorems": [
    "C54_prefixes_refuted"
   ],
   "note": "REFUTED as stated (concrete document): a declaration outlives its element once a later sibling declares another prefix, and seven-character prefixes starting with xml pass for xml."
  },
  {
   "property": "C55",
   "status": "partial",
   "theorems": [
    "C55_awareness_refuted",
    "C55_awareness_partial"
   ],
   "note": "REFUTED as stated (concrete document): '&a' in a namespace URL makes the namespace-aware parser skip a character. Proved for documents of at most 2^31 bytes without '&a'."
  },
  {
   "property": "C56",
   "status": "partial",
   "theorems": [
    "C56_acceptance_refuted"
   ],
   "note": "REFUTED as stated (concrete document): declarations on a second sibling are lost or rejected."
  },
  {
   "property": "C57",
   "status": "proved",
   "theorems": [
    "C57_token_count",
    "C57_token_count_partial"
   ],
   "note": "Every mode. C57_token_count_partial gives the bound n without namespace awareness."
  },
  {
   "property": "C58",
   "status": "partial",
   "theorems": [
    "C58_many_refuted",
    "C58_names_partial",
    "C58_others_partial"
   ],
   "note": "REFUTED as stated (concrete document): tokens past the first page of the token buffer cannot be read. Proved for the tokens of the first page (at least 64 tokens), for unprefixed element names, all attribute names and all other pieces without CR (texts, comments and CDATA sections non-empty); documents of less than 2^20 bytes. The acceptance half is for any window (in buffers below 2^31 bytes, or ending with the buffer), without namespace awareness, or with it when no '&' is followed by 'a'."
  },
  {
   "property": "C59",
   "status": "proved",
   "theorems": [
    "C59_width_monotone",
    "C59_hash_width",
    "C59_no_option",
    "C59_width_least",
    "C59_width_ends"
   ],
   "note": ""
  },
  {
   "property": "C60",
   "status": "proved",
   "theorems": [
    "C60_modifier_ok",
    "C60_first_failure",
    "C60_last_navigator"
   ],
   "note": ""
  },
  {
   "property": "C61",
   "status": "proved",
   "theorems": [
    "C61_autopilot",
    "C61_last_wins"
   ],
   "note": ""
  },
  {
   "property": "C62",
   "status": "proved",
   "theorems": [
    "C62_long_read_exact",
    "C62_int_read_exact",
    "C62_replay_total"
   ],
   "note": ""
  },
  {
   "property": "C63",
   "status": "proved",
   "theorems": [
    "C63_long_panic_exact",
    "C63_int_panic_exact"
   ],
   "note": ""
  },
  {
   "property": "C64",
   "status": "proved",
   "theorems": [
    "C64_clear_is_final",
    "C64_clear_is_final_int",
    "C64_clear_of_new_buffer"
   ],
   "note": ""
  },
  {
   "property": "C65",
   "status": "proved",
   "theorems": [
    "C65_page_size_exact",
    "C65_int_page_size_exact",
    "C65_exponent_63"
   ],
   "note": ""
  },
  {
   "property": "C66",
   "status": "proved",
   "theorems": [
    "C66_object_buffer_exact"
   ],
   "note": ""
  },
  {
   "property": "C67",
   "status": "proved",
   "theorems": [
    "C67_upper_half_exact",
    "C08_lower_half"
   ],
   "note": ""
  },
  {
   "property": "C68",
   "status": "proved",
   "theorems": [
    "C68_byte_slice_exact"
   ],
   "note": ""
  },
  {
   "property": "C69",
   "status": "proved",
   "theorems": [
    "C69_valid_char_exact"
   ],
   "note": ""
  },
  {
   "property": "C70",
   "status": "proved",
   "theorems": [
    "C70_skip_seq_exact"
   ],
   "note": ""
  },
  {
   "property": "C71",
   "status": "proved",
   "theorems": [
    "C71_ascii_window_exact",
    "C71_no_panic"
   ],
   "note": ""
  },
  {
   "property": "C72",
   "status": "proved",
   "theorems": [
    "C72_token_offset_exact",
    "C72_fields_of_any_word"
   ],
   "note": ""
  },
  {
   "property": "C73",
   "status": "proved",
   "theorems": [
    "C73_start_tag_length_exact"
   ],
   "note": ""
  },
  {
   "property": "C74",
   "status": "proved",
   "theorems": [
    "C74_text_length_exact"
   ],
   "note": ""
  },
  {
   "property": "C75",
   "status": "proved",
   "theorems": [
    "C75_raw_string_exact"
   ],
   "note": ""
  },
  {
   "property": "C76",
   "status": "proved",
   "theorems": [
    "C76_tostring_is_raw"
   ],
   "note": ""
  },
  {
   "property": "C77",
   "status": "proved",
   "theorems": [
    "C77_range_exact"
   ],
   "note": ""
  },
  {
   "property": "C78",
   "status": "proved",
   "theorems": [
    "C78_next_sibling_never"
   ],
   "note": ""
  },
  {
   "property": "C79",
   "status": "proved",
   "theorems": [
    "C79_cursor_invariant"
   ],
   "note": ""
  },
  {
   "property": "C80",
   "status": "proved",
   "theorems": [
    "C80_level2_child_exact",
    "C80_deep_sibling_exact"
   ],
   "note": ""
  },
  {
   "property": "C81",
   "status": "proved",
   "theorems": [
    "C81_undefined_direction_exact"
   ],
   "note": ""
  },
  {
   "property": "C82",
   "status": "proved",
   "theorems": [
    "C82_attr_name_string",
    "C82_tag_name_string",
    "C82_other_string",
    "C82_shown_string"
   ],
   "note": "tag names with a non-zero recorded prefix length have a wrong length (C16, C73); here only prefix length 0 is covered"
  },
  {
   "property": "C83",
   "status": "proved",
   "theorems": [
    "C83_long_char",
    "C83_outside"
   ],
   "note": ""
  },
  {
   "property": "C84",
   "status": "proved",
   "theorems": [
    "C84_acceptance_exact",
    "C84_whole_buffer"
   ],
   "note": "Any window of a buffer below 2^31 bytes, and any window that ends its buffer."
  },
  {
   "property": "C85",
   "status": "proved",
   "theorems": [
    "C85_tokens_exact",
    "C85_window_tokens",
    "C85_only_these"
   ],
   "note": "Any window; the converse also with namespace awareness when no '&' is followed by 'a'."
  },
  {
   "property": "C86",
   "status": "proved",
   "theorems": [
    "C86_mistakes"
   ],
   "note": "Any window, without namespace awareness."
  },
  {
   "property": "C87",
   "status": "proved",
   "theorems": [
    "C87_many_attributes_panic"
   ],
   "note": "Any window, without namespace awareness."
  },
  {
   "property": "C88",
   "status": "proved",
   "theorems": [
    "C88_end_tag_mismatch",
    "C88_end_tag_garbage"
   ],
   "note": "Any window, without namespace awareness."
  },
  {
   "property": "C89",
   "status": "proved",
   "theorems": [
    "C89_long_text_exact"
   ],
   "note": "Any window, without namespace awareness."
  },
  {
   "property": "C90",
   "status": "proved",
   "theorems": [
    "C90_cut_off"
   ],
   "note": ""
  },
  {
   "property": "C91",
   "status": "partial",
   "theorems": [
    "C91_parts_partial"
   ],
   "note": "For documents of less than 2^20 bytes (longer texts get offset 0, see C89). The acceptance half is for any window (in buffers below 2^31 bytes, or ending with the buffer), without namespace awareness, or with it when no '&' is followed by 'a'."
  },
  {
   "property": "C92",
   "status": "proved",
   "theorems": [
    "C92_outside_bytes"
   ],
   "note": ""
  },
  {
   "property": "C93",
   "status": "proved",
   "theorems": [
    "C93_scopes_decide",
    "C93_same_tokens",
    "C93_only_these"
   ],
   "note": "Windows that end with their buffer. That nothing else is accepted is proved when no '&' is followed by 'a'."
  },
  {
   "property": "C94",
   "status": "proved",
   "theorems": [
    "C94_root_declarations"
   ],
   "note": "Windows that end with their buffer."
  },
  {
   "property": "C95",
   "status": "proved",
   "theorems": [
    "C95_no_second_success",
    "C95_second_panics",
    "C95_second_eof"
   ],
   "note": ""
  },
  {
   "property": "C96",
   "status": "partial",
   "theorems": [
    "C96_retry_refuted"
   ],
   "note": "REFUTED as stated: the second call on 'x<a/>' succeeds and exports two document tokens."
  },
  {
   "property": "C97",
   "status": "proved",
   "theorems": [
    "C97_tables",
    "C97_tokens"
   ],
   "note": ""
  },
  {
   "property": "C98",
   "status": "partial",
   "theorems": [
    "C98_children",
    "C98_children_partial",
    "C98_many_children_refuted"
   ],
   "note": "Proved in every mode (C98_children) when the children of the root fit on the first page of the table (C97) and there are less than 2^28 tokens; REFUTED beyond (33 children in a short document)."
  },
  {
   "property": "C99",
   "status": "partial",
   "theorems": [
    "C99_first_child",
    "C99_first_child_partial",
    "C99_leaf_last_child_refuted",
    "C99_failed_last_child_refuted"
   ],
   "note": "FirstChild proved in every mode within the first pages and below 2^28 tokens: it finds the first child, and never succeeds on a childless element. REFUTED: LastChild moves from a childless element to a child of another one, misses the last child, and a failed move loses the cursor."
  },
  {
   "property": "C100",
   "status": "partial",
   "theorems": [
    "C100_stdout_refuted",
    "C103_stdout_exact"
   ],
   "note": "REFUTED as stated: two lines are printed for every state of the parser. Exact behaviour proved as C103."
  },
  {
   "property": "C101",
   "status": "partial",
   "theorems": [
    "C101_variable_refuted",
    "C104_variable_exact"
   ],
   "note": "REFUTED as stated: every successful call assigns EOFErrorType. Exact behaviour proved as C104."
  },
  {
   "property": "C102",
   "status": "partial",
   "theorems": [
    "C102_text_position_refuted",
    "C102_text_cause_refuted",
    "C105_text_exact"
   ],
   "note": "REFUTED as stated: neither position nor cause is in the text. Exact text and place of the position proved as C105."
  },
  {
   "property": "C103",
   "status": "proved",
   "theorems": [
    "C103_stdout_exact"
   ],
   "note": ""
  },
  {
   "property": "C104",
   "status": "proved",
   "theorems": [
    "C104_variable_exact"
   ],
   "note": ""
  },
  {
   "property": "C105",
   "status": "proved",
   "theorems": [
    "C105_text_exact",
    "C105_position_readable"
   ],
   "note": ""
  },
  {
   "property": "C106",
   "status": "partial",
   "theorems": [
    "C106_mistakes_never",
    "C106_limit_refuted"
   ],
   "note": "REFUTED as stated: with namespace awareness a declaration whose value contains a reference can swallow the character after it, so a document outside the grammar is accepted. Proved for every window (in buffers below 2^31 bytes, or ending with the buffer) without namespace awareness, and with it when no '&' is followed by 'a'."
  },
  {
   "property": "C107",
   "status": "proved",
   "theorems": [
    "C107_state_order"
   ],
   "note": ""
  },
  {
   "property": "C108",
   "status": "proved",
   "theorems": [
    "C108_first_child",
    "C108_last_child",
    "C108_prev_sibling"
   ],
   "note": "Exact counterpart of C22 and C24 for a token buffer of any number of pages (page size other than 2^63)."
  },
  {
   "property": "C109",
   "status": "partial",
   "theorems": [
    "C109_reserved_refuted",
    "C109_never_reported"
   ],
   "note": "REFUTED (five short documents); proved instead: no document of less than 2^30 bytes is ever rejected with either message, so the check is without effect."
  },
  {
   "property": "C110",
   "status": "proved",
   "theorems": [
    "C110_last_child",
    "C110_whose_child",
    "C110_last_child_refuted"
   ],
   "note": "Exact counterpart of C99 for LastChild. For every parse with a five-level cache, fewer than 2^28 tokens, and a first level that fits one page of its table; C110_last_child_refuted shows both unexpected outcomes on one document."
  },
  {
   "property": "C111",
   "status": "proved",
   "theorems": [
    "C111_second_level_siblings",
    "C111_siblings_refuted"
   ],
   "note": "Exact counterpart of C26 for the second level of a parsed document: five-level cache, fewer than 2^28 tokens, first level within one page of its table, first child readable. C111_siblings_refuted shows on one document that an only child has next siblings and that the cursor goes to the parent."
  },
  {
   "property": "C112",
   "status": "proved",
   "theorems": [
    "C112_second_level_children",
    "C112_children_refuted"
   ],
   "note": "Exact counterpart of C26 for children of second-level elements of a parsed document, under the limits of C111. C112_children_refuted shows on one document that the element itself is returned, with or without children."
  },
  {
   "property": "C113",
   "status": "proved",
   "theorems": [
    "C113_many_children",
    "C98_many_children_refuted"
   ],
   "note": "Exact counterpart of C98 when the root has more children than fit one page of the first table (five-level cache, fewer than 2^28 tokens)."
  },
  {
   "property": "C114",
   "status": "partial",
   "theorems": [
    "C114_order_partial",
    "C114_order_refuted"
   ],
   "note": "REFUTED for texts of 2^20 bytes or more (their tokens start again at 0, C89). Proved for windows of less than 2^20 - 1 bytes (in buffers below 2^31 bytes, or ending with the buffer) without namespace awareness, and with it when no '&' is followed by 'a'; the value token of a PI without a value repeats the offset of its target."
  },
  {
   "property": "C115",
   "status": "partial",
   "theorems": [
    "C115_names_partial",
    "C115_prefix_refuted"
   ],
   "note": "REFUTED for names with a prefix (the length field of a start tag combines two lengths by 'or'). Proved for names without a colon whose tokens are on the first page of the token buffer: buffers below 2^20 bytes, five-level cache, as many children as fit one page of the first table, single-byte encodings or UTF-8 read as bytes."
  },
  {
   "property": "C116",
   "status": "proved",
   "theorems": [
    "C116_names_exact"
   ],
   "note": "Exact counterpart of C115 and C58 for all element names, at every level below the root, for tokens on the first page of the token buffer and buffers below 2^20 bytes. The string is stated when the bytes it covers are inside the buffer and have no carriage return (C18 has those)."
  },
  {
   "property": "C117",
   "status": "proved",
   "theorems": [
    "C117_nested_exact",
    "C117_accepted_nested"
   ],
   "note": "Exact counterpart of C33 and C34: the tree grammar of SpecNested.v. C117_nested_exact without namespace awareness, C117_accepted_nested in both modes (windows as in C84; with namespace awareness no '&' followed by 'a')."
  },
  {
   "property": "C118",
   "status": "partial",
   "theorems": [
    "C118_tree_names_partial",
    "C115_prefix_refuted"
   ],
   "note": "REFUTED for names with a prefix (C115_prefix_refuted). Proved for names without a colon whose tokens are on the first page of the token buffer, within the limits of C115, without namespace awareness."
  },
  {
   "property": "C119",
   "status": "partial",
   "theorems": [
    "C119_content_partial",
    "C119_tree_partial",
    "C119_prefix_refuted"
   ],
   "note": "REFUTED for element names with a prefix (C119_prefix_refuted). Proved for both directions (every accepted document, and every tree without namespace awareness): the number of tokens in full; type, depth, raw and normalised string of every piece on the first page of the token buffer, for element names without a colon, attribute names, and all other pieces, read with LF for every CR (texts, comments and CDATA sections non-empty, see C17); buffers below 2^20 bytes, encodings read as bytes."
  },
  {
   "property": "C120",
   "status": "proved",
   "theorems": [
    "C120_moves_keep_reads",
    "C120_root_from_anywhere"
   ],
   "note": "For every navigator (any tables, any cursor, any encoding) and every sequence of calls of ToElement with any directions, including calls that fail or panic part-way. Together with C25 (which says when the cursor itself survives a failed move) it covers the whole state of the navigator."
  },
  {
   "property": "C121",
   "status": "partial",
   "theorems": [
    "C121_first_child_partial",
    "C115_prefix_refuted",
    "C98_many_children_refuted"
   ],
   "note": "REFUTED for names with a prefix (C115_prefix_refuted) and for more children than one page of the first table (C98_many_children_refuted). Proved for trees of buffers below 2^20 bytes without namespace awareness, five-level cache, children within one page of the first table, fewer than one page of grandchildren before the child; names without a colon whose tokens are on the first page."
  },
  {
   "property": "C122",
   "status": "partial",
   "theorems": [
    "C122_disjoint_partial",
    "C114_order_refuted"
   ],
   "note": "REFUTED for texts of 2^20 bytes or more (C114_order_refuted: their tokens start again at 0). Proved for every accepted document in buffers below 2^20 - 1 bytes, both namespace modes of C84, for the tokens on the first page of the token buffer; pieces that are empty have no place of their own (a PI without a value)."
  },
  {
   "property": "C123",
   "status": "proved",
   "theorems": [
    "C123_reading_returns",
    "C123_moves_stay",
    "C123_beyond_refuted"
   ],
   "note": "For every accepted document in every mode and option, every index below the number of tokens (negative ones included), any navigator over the token buffer; and for a fresh navigator over the tables of the parse, after any sequence of ToElement calls, successful, failed or panicking: the current index is at least -1 and below the number of tokens. C123_beyond_refuted shows that the bound on the index is needed: index 64 of a two-token document panics."
  },
  {
   "property": "C124",
   "status": "partial",
   "theorems": [
    "C124_panic_where_partial",
    "C124_deep_context_partial",
    "C124_level_one_partial",
    "C124_moves_panic_refuted"
   ],
   "note": "REFUTED: in a document of five elements, walking on with NextSibling on the second level and then FirstChild panics (C124_moves_panic_refuted). Proved for a fresh navigator over the tables of any parse, every mode and option, whose context covers the depths of the document (255 entries always do): after any sequence of moves a panic can only come from FirstChild or LastChild, only when the cursor is on level one or two, and it is the page access of a table; from level one only if the number of grandchildren of the root times the page size of the second table exceeds 65534 (C124_level_one_partial)."
  },
  {
   "property": "C125",
   "status": "partial",
   "theorems": [
    "C125_builtin",
    "C125_hexadecimal",
    "C125_decimal",
    "C125_amp_apos_refused",
    "C125_references_refuted"
   ],
   "note": "REFUTED: &amp; and &apos; are always refused (C125_amp_apos_refused, C125_references_refuted) and a decimal reference loops for ever (C125_decimal). Proved exactly for the byte encodings: lt, gt and quot; hexadecimal references give their number modulo 2^32, with a length short by one. No exported function reaches the resolver (C76), so this is about the internal function alone; UTF-16 and the other encodings are not covered."
  },
  {
   "property": "C126",
   "status": "proved",
   "theorems": [
    "C126_down_up"
   ],
   "note": "For every navigator that is not at a terminal (every navigator made by NewVtdNav, C120), any tables, any cursor, both child directions: after a success Parent succeeds, the current index is the one before, and every further sequence of NextSibling and PrevSibling gives the same results and indexes as without the excursion. A child move that fails is C25."
  },
  {
   "property": "C127",
   "status": "partial",
   "theorems": [
    "C127_alike_partial",
    "C127_one_outline_partial",
    "C127_prefix_refuted"
   ],
   "note": "REFUTED for element names with a prefix (C127_prefix_refuted: the bytes after the name are read too, so layout shows). Proved in both directions for any two accepted documents in windows of buffers below 2^20 bytes without namespace awareness, whose tokens fit on the first page of the token buffer and without colons in element names and without empty texts, comments and CDATA sections; 'the same' is up to CR and LF. Missing: the other documents (C17, C58, C116)."
  }
 ]
}
