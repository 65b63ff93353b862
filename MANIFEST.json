{
 "claims": [
  {
   "property": "C01",
   "status": "proved",
   "theorems": [
    "C01_match_total_and_in_bounds"
   ],
   "note": ""
  },
  {
   "property": "C02",
   "status": "proved",
   "theorems": [
    "C02_match_decides_language",
    "C02_match_sound_without_limit",
    "C02_empty_alternative_refuted"
   ],
   "note": "Exact for every well-formed pattern (non-empty alternatives) within the documented backtrack limit; the refuted theorem records that empty alternatives are not matched completely."
  },
  {
   "property": "C03",
   "status": "proved",
   "theorems": [
    "C03_match_offsets",
    "C03_match_offsets_are_component_boundaries"
   ],
   "note": ""
  },
  {
   "property": "C04",
   "status": "proved",
   "theorems": [
    "C04_literal_match_is_equality"
   ],
   "note": ""
  },
  {
   "property": "C05",
   "status": "proved",
   "theorems": [
    "C05_strlen_padded",
    "C05_padded_string",
    "C05_padding_for_nbytes",
    "C05_blob",
    "C05_padded_string_limit_refuted"
   ],
   "note": ""
  },
  {
   "property": "C06",
   "status": "proved",
   "theorems": [
    "C06_16",
    "C06_32",
    "C06_64",
    "C06_128",
    "C06_encode_decode",
    "C06_encode_odd_size_refuted"
   ],
   "note": "Little-endian host. For the tags A, a, e, q, which no atom ever carries, the encoder is undefined (refuted theorem)."
  },
  {
   "property": "C07",
   "status": "proved",
   "theorems": [
    "C07_add",
    "C07_subtract",
    "C07_add_subtract",
    "C07_subtract_absolute_refuted"
   ],
   "note": ""
  },
  {
   "property": "C08",
   "status": "proved",
   "theorems": [
    "C08_compare",
    "C08_order",
    "C08_immediate"
   ],
   "note": ""
  },
  {
   "property": "C09",
   "status": "proved",
   "theorems": [
    "C09_header_codec",
    "C09_short_buffer"
   ],
   "note": ""
  },
  {
   "property": "C10",
   "status": "proved",
   "theorems": [
    "C10_rendering",
    "C10_every_instant",
    "C10_reading",
    "C10_round_trip",
    "C10_wrong_dates_refuted"
   ],
   "note": "Calendar part of the text; the decimal fraction is floating point and not modelled."
  },
  {
   "property": "C36",
   "status": "proved",
   "theorems": [
    "C36_compare_follows_order",
    "C36_compare_total",
    "C36_largest_is_latest",
    "C36_largest_is_one_of_them",
    "C36_largest_commutes",
    "C36_compare_unlisted_refuted",
    "C36_compare_negative_refuted"
   ],
   "note": "For the fourteen listed types; the refuted theorems record what happens outside."
  },
  {
   "property": "C11",
   "status": "proved",
   "theorems": [
    "C11_atom",
    "C11_message",
    "C11_bundle"
   ],
   "note": ""
  },
  {
   "property": "C12",
   "status": "proved",
   "theorems": [
    "C12_bundle_encoding",
    "C12_message_encoding",
    "C12_bundle_content",
    "C12_setters",
    "C12_stale_bits_refuted"
   ],
   "note": "Exact for all objects; the 8 and 16 bit numbers are those set when the atom was fresh (see C12_stale_bits_refuted)."
  },
  {
   "property": "C14",
   "status": "proved",
   "theorems": [
    "C14_atom",
    "C14_message",
    "C14_bundle",
    "C14_long_string_refuted"
   ],
   "note": "For strings shorter than 2^32-4 bytes; refuted beyond."
  },
  {
   "property": "C15",
   "status": "proved",
   "theorems": [
    "C15_serialized_is_accepted"
   ],
   "note": ""
  },
  {
   "property": "C16",
   "status": "proved",
   "theorems": [
    "C16_accepted_iff",
    "C16_outcomes",
    "C16_accepted_walk",
    "C16_unterminated_refuted"
   ],
   "note": "Exact characterization of the check's answers, and safe iteration for accepted buffers whose strings are terminated inside their messages; the refuted theorem records that the check does not look at terminators."
  },
  {
   "property": "C17",
   "status": "proved",
   "theorems": [
    "C17_iteration",
    "C17_count"
   ],
   "note": ""
  },
  {
   "property": "C13",
   "status": "proved",
   "theorems": [
    "C13_deserialize",
    "C13_round_trip",
    "C13_reserialize",
    "C13_unknown_tag_refuted",
    "C13_no_slash_refuted",
    "C13_time_tag_refuted"
   ],
   "note": "For all bundles over the supported types whose addresses begin with a slash; the refuted theorems record what is lost outside (unknown tags, other addresses, the header time tag)."
  },
  {
   "property": "C18",
   "status": "proved",
   "theorems": [
    "C18_argument_access",
    "C18_stale_cache_refuted",
    "C18_negative_index_refuted"
   ],
   "note": ""
  },
  {
   "property": "C19",
   "status": "proved",
   "theorems": [
    "C19_rename",
    "C19_invalid_refused",
    "C19_no_typetags_refuted"
   ],
   "note": "A message without type tags cannot be renamed (NULL dereference), C19_no_typetags_refuted."
  },
  {
   "property": "C20",
   "status": "proved",
   "theorems": [
    "C20_lookup",
    "C20_exists",
    "C20_first",
    "C20_full_is_language",
    "C20_partial_is_language",
    "C20_literal",
    "C20_malformed_pattern_refuted"
   ],
   "note": "For every pattern in terms of the matcher's verdict; for well-formed patterns within the backtrack limit in terms of the pattern language. A pattern that makes the matcher report an error selects every message when partial matches are allowed."
  },
  {
   "property": "C21",
   "status": "proved",
   "theorems": [
    "C21_remove"
   ],
   "note": ""
  },
  {
   "property": "C22",
   "status": "proved",
   "theorems": [
    "C22_append",
    "C22_append_creates",
    "C22_append_nothing",
    "C22_replace"
   ],
   "note": ""
  },
  {
   "property": "C23",
   "status": "proved",
   "theorems": [
    "C23_union",
    "C23_intersection",
    "C23_difference",
    "C23_empty_time_tag_refuted",
    "C23_pattern_address_refuted"
   ],
   "note": "When the result is empty because the operands are, the time tag is uninitialised memory; with addresses that are patterns messages get lost."
  },
  {
   "property": "C24",
   "status": "proved",
   "theorems": [
    "C24_concat",
    "C24_concat_null"
   ],
   "note": ""
  },
  {
   "property": "C41",
   "status": "proved",
   "theorems": [
    "C41_address_is_bound_literal",
    "C41_address_is_bound_pattern_refuted"
   ],
   "note": "For patterns that are not literal the answer is wrong in both directions."
  },
  {
   "property": "C42",
   "status": "proved",
   "theorems": [
    "C42_first_equal_address"
   ],
   "note": ""
  },
  {
   "property": "C43",
   "status": "proved",
   "theorems": [
    "C43_wrap_message"
   ],
   "note": "The time tag is left as it was in memory."
  },
  {
   "property": "C25",
   "status": "proved",
   "theorems": [
    "C25_history",
    "C25_get_arg",
    "C25_negative_position_refuted",
    "C25_reinsert_at_end_refuted",
    "C25_negative_index_refuted"
   ],
   "note": "All histories of allocate, append, prepend, insert, remove, free and clear: the message holds exactly the plain list (count, next links, prev links, allocated nodes, values) and the next enabled operation is free of undefined behaviour. Findings: negative insert position, re-inserting a removed atom at the end (cyclic list), negative index."
  },
  {
   "property": "C30",
   "status": "proved",
   "theorems": [
    "C30_history",
    "C30_peek_nth",
    "C30_iterate"
   ],
   "note": "All histories of append, prepend, pops, unlink and clear; peekNth for every int index; iterate visits every element once, in order."
  },
  {
   "property": "C26",
   "status": "proved",
   "theorems": [
    "C26_history",
    "C26_count",
    "C26_no_duplicates",
    "C26_remove_msg_count_refuted",
    "C26_no_address_refuted",
    "C26_add_list_refuted"
   ],
   "note": "All histories of make, add, add-without-duplicates, replace, remove by address, removeMsg, free and clear. Findings: removeMsg leaves the count too high; replace and remove by address crash on a message without address; addMsgList drops the messages present."
  },
  {
   "property": "C29",
   "status": "proved",
   "theorems": [
    "C29_map",
    "C29_map_laws",
    "C29_too_many_slots_refuted",
    "C29_other_length_refuted"
   ],
   "note": "Chains are modelled as lists. Findings: 152287 or more slots read past the prime table; a key stored and looked up with different lengths is not found; storeSafe leaks the element for a key already there."
  },
  {
   "property": "C27",
   "status": "proved",
   "theorems": [
    "C27_unserialized",
    "C27_same_or_wider",
    "C27_get_int",
    "C27_serialized_argument",
    "C27_serialized"
   ],
   "note": ""
  },
  {
   "property": "C28",
   "status": "proved",
   "theorems": [
    "C28_conversion",
    "C28_int32_as_64",
    "C28_small_unsigned_refuted",
    "C28_get_int_refuted"
   ],
   "note": "Findings: getInt64/getUInt64 of a serialized 8 or 16 bit unsigned number reads 8 bytes; getInt of serialized c/u reads a float."
  },
  {
   "property": "C44",
   "status": "proved",
   "theorems": [
    "C44_unserialized",
    "C44_serialized",
    "C44_floats",
    "C44_doubles",
    "C44_integers_rounded",
    "C44_serialized_rounded",
    "C44_doubles_rounded",
    "C44_floats_special"
   ],
   "note": "Exact where the number fits the mantissa, rounded to nearest with ties to even otherwise."
  },
  {
   "property": "C45",
   "status": "proved",
   "theorems": [
    "C45_unserialized",
    "C45_serialized"
   ],
   "note": "Out of range conversions are undefined behaviour in C and modelled as such."
  },
  {
   "property": "C46",
   "status": "proved",
   "theorems": [
    "C46_unserialized",
    "C46_serialized",
    "C46_first_char_refuted"
   ],
   "note": "osc_atom_u's 8 bit reads return the first character (refuted theorem)."
  },
  {
   "property": "C47",
   "status": "proved",
   "theorems": [
    "C47_unserialized",
    "C47_serialized",
    "C47_floats",
    "C47_serialized_floats"
   ],
   "note": ""
  },
  {
   "property": "C48",
   "status": "proved",
   "theorems": [
    "C48_integers",
    "C48_floats",
    "C48_others"
   ],
   "note": ""
  },
  {
   "property": "C31",
   "status": "proved",
   "theorems": [
    "C31_alloc",
    "C31_get",
    "C31_put",
    "C31_clear",
    "C31_copy",
    "C31_resize",
    "C31_resize_to_nothing",
    "C31_copy_into_new",
    "C31_copy_into",
    "C31_history",
    "C31_negative_index_refuted",
    "C31_copy_into_refuted"
   ],
   "note": "Findings: a negative index gives a pointer outside the block; copyInto overflows a destination that is longer or has other element sizes; resize to nothing reports out of memory."
  },
  {
   "property": "C32",
   "status": "proved",
   "theorems": [
    "C32_reads_back",
    "C32_size",
    "C32_fits",
    "C32_last_char",
    "C32_too_small",
    "C32_quoted_size",
    "C32_quoted",
    "C32_quoted_too_small",
    "C32_add_quotes",
    "C32_add_quotes_refuted"
   ],
   "note": "Findings: with a buffer that is too small the terminator is written outside; addQuotesAndQuoteMeta overflows its own allocation by one byte."
  },
  {
   "property": "C49",
   "status": "proved",
   "theorems": [
    "C49_integers",
    "C49_integers_buffer",
    "C49_reads_back",
    "C49_strings",
    "C49_words",
    "C49_blobs",
    "C49_serialized_integers",
    "C49_serialized_strings",
    "C49_uint8_refuted",
    "C49_long_string_refuted"
   ],
   "note": "Floats and time tags go through the C library's %g and strftime, which are not modelled. Findings: unsigned 8 bit numbers below 100 are cut off; strings that do not fit are not terminated."
  },
  {
   "property": "C33",
   "status": "proved",
   "theorems": [
    "C33_queries",
    "C33_lists",
    "C33_related",
    "C33_no_bundle",
    "C33_strip_slash_refuted",
    "C33_strip_no_typetags_refuted"
   ],
   "note": "For every series of queries into one result set, as long as the matcher stays within its backtrack limit. The address of the message is the pattern and the selector the address. Findings: with stripping, a message whose rest is no address (a slash alone) puts an uninitialised array into the result and a message without type tags reads through NULL; a header-only bundle leaves an unmatched bundle of length 0 with a NULL pointer."
  },
  {
   "property": "C34",
   "status": "proved",
   "theorems": [
    "C34_dispatch",
    "C34_dispatch_selectors",
    "C34_dispatch_no_messages",
    "C34_no_delegation_method_refuted",
    "C34_strip_plain",
    "C34_strip_pattern_refuted",
    "C34_strip_out_of_bounds_refuted",
    "C34_table",
    "C34_table_within",
    "C34_growing_table_refuted"
   ],
   "note": "The exact sequence of calls made by a dispatch, for every bundle of well-formed messages and every table, and the table as an ordered list of bindings for every history of additions and rebindings. Stripping uses the length of the selector, which is wrong for addresses with patterns (refuted by witnesses) and right otherwise (C34_strip_plain). A table that grows beyond its initial size has dangling pointers (refuted). osc_vtable_renameEntry is not modelled."
  },
  {
   "property": "C35",
   "status": "proved",
   "theorems": [
    "C35_bundle_accepted",
    "C35_message_accepted",
    "C35_header_exact",
    "C35_slash_exact",
    "C35_address_exact",
    "C35_padding_exact",
    "C35_typetags_exact",
    "C35_message_braces_exact",
    "C35_message_brackets_exact",
    "C35_message_padding_exact",
    "C35_error_kept_refuted",
    "C35_alignment_error_kept_refuted",
    "C35_complete_refuted",
    "C35_sound_refuted",
    "C35_negative_size_refuted"
   ],
   "note": "No error for any bundle of messages in the supported range (sizes below 65536 with lowest byte from 4 to 127, supported type tags, data present), and an exact account of what is rejected in the header, the first byte of an address, addresses, padding and type tags. The second half of the property is false: errors are forgotten (C35_error_kept_refuted, C35_alignment_error_kept_refuted). Outside the supported range valid messages are rejected and everything after some messages is accepted unread (refuted theorems)."
  },
  {
   "property": "C37",
   "status": "proved",
   "theorems": [
    "C37_add",
    "C37_add_overflow",
    "C37_multiply",
    "C37_multiply_overflow",
    "C37_subtract",
    "C37_subtract_wide_refuted",
    "C37_divide_by_zero",
    "C37_divide",
    "C37_divide_uint8",
    "C37_divide_uint8_refuted",
    "C37_two_booleans_refuted"
   ],
   "note": "All combinations of the eight integer types and booleans, every value; signed 32 and 64 bit overflow is undefined in C and proved to be exactly the excluded case. Subtraction is exact only modulo 2^32 and uint8 division is done in int8 (findings)."
  },
  {
   "property": "C38",
   "status": "proved",
   "theorems": [
    "C38_reverse",
    "C38_first",
    "C38_last",
    "C38_nothing",
    "C38_rest",
    "C38_butlast",
    "C38_length",
    "C38_list",
    "C38_list_nothing",
    "C38_nfill",
    "C38_nth",
    "C38_nth_out_of_range",
    "C38_nth_blob",
    "C38_nth_wide_refuted",
    "C38_interleave"
   ],
   "note": "The result is a list of copies of exactly the members the English statement names; no out-of-bounds read (that would be the Ub outcome). Copies of nested bundles go through serialization as in C13."
  },
  {
   "property": "C39",
   "status": "proved",
   "theorems": [
    "C39_elementwise",
    "C39_stops",
    "C39_arity",
    "C39_pairs"
   ],
   "note": "For every infix operator, also one that fails."
  },
  {
   "property": "C40",
   "status": "proved",
   "theorems": [
    "C40_explode",
    "C40_flatten",
    "C40_round_trip",
    "C40_nested_flatten_refuted",
    "C40_other_separator_refuted",
    "C40_continued_address_refuted",
    "C40_slash_separator_refuted",
    "C40_flag_refuted"
   ],
   "note": "The original wishes are false of the code: flattening any nested bundle reads a freed argument (refuted in general; the positive theorems assume the memory is unchanged), other separators recurse for ever, addresses that continue another lose data, the slash as separator of flatten doubles slashes."
  },
  {
   "property": "C50",
   "status": "proved",
   "theorems": [
    "C50_numbers",
    "C50_integers",
    "C50_wide_refuted",
    "C50_strings",
    "C50_string_number",
    "C50_timetags",
    "C50_nil",
    "C50_nil_refuted",
    "C50_bundles",
    "C50_missing"
   ],
   "note": "Integers of more than 53 bits are rounded before they are compared (characterised and refuted); nil has no inequality (refuted)."
  },
  {
   "property": "C51",
   "status": "proved",
   "theorems": [
    "C51_arithmetic",
    "C51_divide_by_zero"
   ],
   "note": "For every pair of numbers with a float or double among them; rounding is stated against a definition of round to nearest even over the rationals."
  },
  {
   "property": "C52",
   "status": "proved",
   "theorems": [
    "C52_strings",
    "C52_numbers",
    "C52_booleans",
    "C52_others"
   ],
   "note": "Floats as text are not modelled."
  },
  {
   "property": "C53",
   "status": "proved",
   "theorems": [
    "C53_and_or",
    "C53_missing",
    "C53_not",
    "C53_not_narrow_refuted",
    "C53_not_wide",
    "C53_nonzero",
    "C53_assign",
    "C53_assign_nothing"
   ],
   "note": "Negation of 8 and 16 bit integers is wrong (refuted), of 64 bit integers it looks at 32 bits (characterised)."
  },
  {
   "property": "C54",
   "status": "proved",
   "theorems": [
    "C54_union",
    "C54_intersection",
    "C54_one_per_address",
    "C54_pattern_refuted"
   ],
   "note": "For literal addresses; addresses that are patterns are taken to be present when they match (refuted example)."
  },
  {
   "property": "C55",
   "status": "proved",
   "theorems": [
    "C55_atom",
    "C55_message",
    "C55_bundle",
    "C55_empty_refuted",
    "C55_short_room_refuted",
    "C55_uint8_refuted",
    "C55_empty_blob_refuted",
    "C55_no_address_refuted"
   ],
   "note": "The texts of floats, doubles and time tags are a parameter. Excluded, with refuting theorems: bundles without messages (uninitialised block), buffers that are too short (written behind their end), 8-bit unsigned integers below 100 (announced size wrong), empty blobs, messages without address."
  },
  {
   "property": "C56",
   "status": "proved",
   "theorems": [
    "C56_atom",
    "C56_message",
    "C56_bundle",
    "C56_serialized",
    "C56_deserialized",
    "C56_empty_refuted",
    "C56_no_slash_refuted"
   ],
   "note": "Same exclusions as C55; a bundle with an address that does not begin with a slash has no text in serialized form (refuted)."
  },
  {
   "property": "C57",
   "status": "proved",
   "theorems": [
    "C57_agrees",
    "C57_top",
    "C57_one_result",
    "C57_capture_refuted"
   ],
   "note": "The meaning is the big-step semantics in EvalSpec.v. Expressions it gives no meaning to are not claimed anything about: functions as values of variables, bundles as arguments of functions about the bundle, eval, prog1 and the other functions EvalStdModel.v lists as unmodelled. Refuted: a string literal equal to the name of a variable is not kept."
  },
  {
   "property": "C58",
   "status": "proved",
   "theorems": [
    "C58_no_effect"
   ],
   "note": ""
  },
  {
   "property": "C59",
   "status": "proved",
   "theorems": [
    "C59_assignment",
    "C59_moved_refuted",
    "C59_pattern_refuted"
   ],
   "note": "Assignment to indexes is part of C57 (rule R_index) and C53. Refuted: when the indexes or the data of an assignment to indexes reallocate the bundle, and that a pattern keeps the address of the message."
  },
  {
   "property": "C60",
   "status": "proved",
   "theorems": [
    "C60_if",
    "C60_shortcut",
    "C60_decides",
    "C60_empty_test_refuted"
   ],
   "note": "A test without values is undefined behaviour (refuted)."
  },
  {
   "property": "C61",
   "status": "proved",
   "theorems": [
    "C61_map",
    "C61_lreduce",
    "C61_lreduce_from",
    "C61_rreduce",
    "C61_rreduce_from",
    "C61_constant_refuted"
   ],
   "note": "For functions without list constants; map and reduce lose these (refuted)."
  },
  {
   "property": "C62",
   "status": "proved",
   "theorems": [
    "C62_functions",
    "C62_names",
    "C62_agrees"
   ],
   "note": ""
  },
  {
   "property": "C63",
   "status": "proved",
   "theorems": [
    "C63_sum_integers",
    "C63_product_integers",
    "C63_sum",
    "C63_product",
    "C63_mean",
    "C63_dot",
    "C63_fraction_refuted"
   ],
   "note": "A sum or product of integers below -2^31 is undefined behaviour; a product of floats is truncated to an integer (refuted, C63_product says exactly what it is)."
  },
  {
   "property": "C64",
   "status": "proved",
   "theorems": [
    "C64_min",
    "C64_max",
    "C64_extrema",
    "C64_range",
    "C64_range_integers",
    "C64_min_none",
    "C64_max_none",
    "C64_infinite_refuted",
    "C64_empty_range_refuted"
   ],
   "note": "Lists of infinities of the wrong sign only and NaN give an atom without type; the range of an empty list is undefined behaviour (both refuted)."
  },
  {
   "property": "C65",
   "status": "proved",
   "theorems": [
    "C65_clip",
    "C65_clip_arity",
    "C65_sign"
   ],
   "note": ""
  },
  {
   "property": "C66",
   "status": "proved",
   "theorems": [
    "C66_sort",
    "C66_sortidx",
    "C66_median",
    "C66_equal_refuted",
    "C66_empty_median_refuted"
   ],
   "note": "qsort is a parameter that satisfies the C standard. sort is only right when no two numbers are equal: its comparison function is inconsistent on equal numbers (refuted). The median of an empty list reads outside its array (refuted)."
  },
  {
   "property": "C67",
   "status": "proved",
   "theorems": [
    "C67_strlen",
    "C67_strcmp",
    "C67_strncmp",
    "C67_strchar",
    "C67_typetags",
    "C67_arity",
    "C67_strcmp_nothing_refuted"
   ],
   "note": "strcmp and strncmp of the C library are a parameter of which only the sign of the result is known. An argument without members is a null pointer for strcmp (refuted)."
  },
  {
   "property": "C68",
   "status": "proved",
   "theorems": [
    "C68_strfind",
    "C68_unique",
    "C68_empty",
    "C68_nothing"
   ],
   "note": ""
  },
  {
   "property": "C69",
   "status": "proved",
   "theorems": [
    "C69_split",
    "C69_unique",
    "C69_characters"
   ],
   "note": ""
  },
  {
   "property": "C70",
   "status": "proved",
   "theorems": [
    "C70_join",
    "C70_split_join",
    "C70_no_separator_refuted",
    "C70_no_strings_refuted",
    "C70_uint8_refuted"
   ],
   "note": "Sizes below 2^31. With an empty first argument a string literal is freed; with nothing to join the result is uninitialised; uint8 members below 10 are lost (refuted)."
  },
  {
   "property": "C71",
   "status": "proved",
   "theorems": [
    "C71_one_argument",
    "C71_one_argument_empty",
    "C71_no_argument_refuted",
    "C71_two_arguments",
    "C71_two_arguments_arity",
    "C71_ilogb",
    "C71_order",
    "C71_arity"
   ],
   "note": "The library functions are parameters. Without any argument the functions of one argument read a list that is not there."
  },
  {
   "property": "C72",
   "status": "proved",
   "theorems": [
    "C72_sequence_integers",
    "C72_sequence",
    "C72_sequence_equal",
    "C72_sequence_arity",
    "C72_running_sums",
    "C72_running_doubles",
    "C72_running_floats",
    "C72_running_empty"
   ],
   "note": "Finite ends. Sums that leave int32 or int64 are undefined and proved to be so."
  },
  {
   "property": "C73",
   "status": "proved",
   "theorems": [
    "C73_and",
    "C73_or",
    "C73_bits_refused",
    "C73_uint8_refuted",
    "C73_ignored_member_refuted",
    "C73_bytes32",
    "C73_bytes64_to_network",
    "C73_bytes64_to_host",
    "C73_there_and_back",
    "C73_there_and_back_refuted"
   ],
   "note": "Findings: uint8 results become int8, a float among ignored members leaves the result untyped, 64-bit types are not kept."
  },
  {
   "property": "C74",
   "status": "proved",
   "theorems": [
    "C74_integers",
    "C74_reals",
    "C74_zero",
    "C74_missing",
    "C74_lists"
   ],
   "note": "A remainder that is no int32 is undefined and proved to be so."
  },
  {
   "property": "C75",
   "status": "proved",
   "theorems": [
    "C75_one_more",
    "C75_one_less",
    "C75_one_more_overflow",
    "C75_int64_refuted",
    "C75_small_refuted",
    "C75_cross",
    "C75_cross_doubles",
    "C75_cross_refused",
    "C75_scale",
    "C75_scale_constant",
    "C75_scale_arity"
   ],
   "note": "Cross products in single precision are modelled; theorems cover integers and double precision. plus1 and minus1 mistreat int64 and small integers (refuted)."
  },
  {
   "property": "C76",
   "status": "proved",
   "theorems": [
    "C76_integers",
    "C76_integers_unique",
    "C76_out_of_range",
    "C76_singles",
    "C76_doubles",
    "C76_truth",
    "C76_no_argument"
   ],
   "note": "Casts of floats and doubles outside the type are undefined and proved to be so. Double of a text is strtod (parameter)."
  },
  {
   "property": "C77",
   "status": "proved",
   "theorems": [
    "C77_texts",
    "C77_small_character",
    "C77_characters_refuted",
    "C77_bytes",
    "C77_unterminated",
    "C77_bundle"
   ],
   "note": "Text of floats and doubles is printf (parameter). Findings: characters of -100 and less lose a digit; the string of a blob made from a list is read past its end."
  },
  {
   "property": "C78",
   "status": "proved",
   "theorems": [
    "C78_dynamic",
    "C78_arity",
    "C78_text_blob",
    "C78_long_refuted"
   ],
   "note": "Findings: a text cast to a blob by type is written past its block; a 64-bit integer becomes a blob of its lower half."
  },
  {
   "property": "C79",
   "status": "proved",
   "theorems": [
    "C79_match",
    "C79_disjoint",
    "C79_partition",
    "C79_one_argument"
   ],
   "note": "Meaning of patterns as in C02. One argument only: the second is read nevertheless (finding)."
  },
  {
   "property": "C80",
   "status": "proved",
   "theorems": [
    "C80_messages",
    "C80_bad_address",
    "C80_address",
    "C80_bytes",
    "C80_blob_refuted",
    "C80_refused",
    "C80_readstring",
    "C80_readstring_refused",
    "C80_readstring_no_argument"
   ],
   "note": "A blob instead of the list of its bytes gives one message too many (refuted)."
  },
  {
   "property": "C81",
   "status": "proved",
   "theorems": [
    "C81_total",
    "C81_bundle"
   ],
   "note": "What flex and bison make of the rules is stated by the model; the limit of bison's stack is not modelled. strtod and the ISO 8601 reader are parameters."
  },
  {
   "property": "C82",
   "status": "proved",
   "theorems": [
    "C82_reads",
    "C82_unambiguous"
   ],
   "note": "A number must be followed by white space, a comma or a closing bracket; an address by white space or a comma and white space, else the characters that follow belong to it (finding)."
  },
  {
   "property": "C83",
   "status": "proved",
   "theorems": [
    "C83_rejects",
    "C83_leftover"
   ],
   "note": "Finding: after a parse error the bundle is set when the messages before it are complete."
  },
  {
   "property": "C84",
   "status": "proved",
   "theorems": [
    "C84_text",
    "C84_round_trip",
    "C84_wide_refuted",
    "C84_blob_refuted"
   ],
   "note": "C84_text says for every type what comes back: integers with 32 bits, floats as doubles. Blobs cannot be read (refuted), 64-bit integers lose their upper half (refuted)."
  },
  {
   "property": "C85",
   "status": "proved",
   "theorems": [
    "C85_reads",
    "C85_reads_r",
    "C85_empty",
    "C85_order",
    "C85_unambiguous",
    "C85_arity",
    "C85_names",
    "C85_power_refuted",
    "C85_member_refuted"
   ],
   "note": "Expressions that use ^ or members of bundles are accepted and lost: these names are not in the table of functions (refuted); the predicate works leaves them out. What flex and bison make of the rules is stated by the model."
  },
  {
   "property": "C86",
   "status": "proved",
   "theorems": [
    "C86_ends",
    "C86_accepted",
    "C86_safe",
    "C86_safe_text",
    "C86_safe_refuted",
    "C86_rejected_refuted"
   ],
   "note": "C86_safe names the tokens that may lead to a NULL pointer or a dangling one (plain)."
  },
  {
   "property": "C87",
   "status": "proved",
   "theorems": [
    "C87_scans",
    "C87_total",
    "C87_open_refuted"
   ],
   "note": "strtod is a parameter. An open quotation ends the text silently (refuted)."
  },
  {
   "property": "C88",
   "status": "proved",
   "theorems": [
    "C88_reads",
    "C88_only"
   ],
   "note": "Of a text that is refused only the code is claimed."
  },
  {
   "property": "C89",
   "status": "proved",
   "theorems": [
    "C89_text",
    "C89_arithmetic",
    "C89_syntax_error_refuted"
   ],
   "note": "One string is evaluated. The syntax error is a finding: the parser's code is dropped."
  },
  {
   "property": "C90",
   "status": "proved",
   "theorems": [
    "C90_built",
    "C90_wire",
    "C90_arrays",
    "C90_alloc_with"
   ],
   "note": "What malloc returns is given with each call; allocations succeed."
  },
  {
   "property": "C91",
   "status": "proved",
   "theorems": [
    "C91_get",
    "C91_assign",
    "C91_set_then_get",
    "C91_creates",
    "C91_no_effect_of_failure_refuted",
    "C91_value_refuted",
    "C91_rest_refuted"
   ],
   "note": "The functions are modelled beside the evaluator, not as two of its cases; expressions inside them are those of the evaluator. The refuted theorems are findings."
  },
  {
   "property": "C92",
   "status": "proved",
   "theorems": [
    "C92_explode",
    "C92_flatten",
    "C92_round_trip",
    "C92_flatten_refuted"
   ],
   "note": "As for C40 the flattening theorems take freed memory to be unchanged; C92_flatten_refuted says that the code reads a freed argument. The time tag is lost (C13_time_tag_refuted)."
  },
  {
   "property": "C93",
   "status": "proved",
   "theorems": [
    "C93_format",
    "C93_overflow",
    "C93_short",
    "C93_long",
    "C93_unbalanced_refuted",
    "C93_overflow_refuted"
   ],
   "note": "The text of a literal is that of C55. C93_format and C93_overflow together decide every program; C93_unbalanced_refuted and C93_overflow_refuted are findings."
  },
  {
   "property": "C94",
   "status": "proved",
   "theorems": [
    "C94_exists",
    "C94_bound",
    "C94_first",
    "C94_lookup",
    "C94_bytes",
    "C94_add_array",
    "C94_add_nodups",
    "C94_no_address_refuted",
    "C94_bound_refuted"
   ],
   "note": "What the matcher selects is explained by C20 and the matcher's own properties. The refuted theorems are findings."
  },
  {
   "property": "C95",
   "status": "proved",
   "theorems": [
    "C95_copy",
    "C95_copy_one",
    "C95_free",
    "C95_copy_freed",
    "C95_original_freed",
    "C95_twice",
    "C95_list_refuted"
   ],
   "note": "The statement is proved for the arguments the parser makes (atoms, expressions, addresses, functions); C95_list_refuted is a finding: osc_expr_arg_copy has no case for lists of atoms. The parser and the evaluator do not make such arguments."
  },
  {
   "property": "C96",
   "status": "proved",
   "theorems": [
    "C96_count",
    "C96_set",
    "C96_append",
    "C96_prepend",
    "C96_first",
    "C96_first_refuted"
   ],
   "note": "C96_first says exactly what an expression without arguments becomes; C96_first_refuted is the finding that the count is wrong then unless one argument is given. C96_set also shows that arguments set before are not freed."
  },
  {
   "property": "C97",
   "status": "proved",
   "theorems": [
    "C97_free",
    "C97_free_message",
    "C97_clear",
    "C97_clear_args",
    "C97_copy",
    "C97_copy_freed",
    "C97_original_freed",
    "C97_replace",
    "C97_replace_none",
    "C97_replace_leak_refuted"
   ],
   "note": "C97_replace is exact about the block that is lost; C97_replace_leak_refuted is the finding that it is. Copies are of messages without bundles among their arguments."
  },
  {
   "property": "C98",
   "status": "proved",
   "theorems": [
    "C98_lookup",
    "C98_empty",
    "C98_add",
    "C98_rename_absent",
    "C98_rename",
    "C98_rename_moved_refuted"
   ],
   "note": "C98_rename says exactly what renaming does when the name is not moved, the surplus element and the dangling key included; C98_rename_moved_refuted is the other case."
  },
  {
   "property": "C99",
   "status": "proved",
   "theorems": [
    "C99_lifetime",
    "C99_clean",
    "C99_clean_kinds",
    "C99_loss_refuted",
    "C99_borrowed_refuted",
    "C99_should_free_refuted"
   ],
   "note": "C99_lifetime is exact for all histories; the refuted statements are findings."
  },
  {
   "property": "C100",
   "status": "proved",
   "theorems": [
    "C100_joined",
    "C100_fits",
    "C100_overflow_refuted",
    "C100_one",
    "C100_short",
    "C100_cut_refuted"
   ],
   "note": "C100_joined and C100_overflow_refuted together say for every list with a separator whether the text is right or the write goes past the end (the boolean enough of the specification decides); C100_fits, C100_one and C100_short evaluate it for all texts that fit, for one text and for texts of one character. Unsigned characters (wrong length, C49), nil, blobs and bundles as members are left out."
  },
  {
   "property": "C101",
   "status": "proved",
   "theorems": [
    "C101_tokenize",
    "C101_plain",
    "C101_all",
    "C101_one",
    "C101_list",
    "C101_long_refuted",
    "C101_escaped_refuted"
   ],
   "note": "C101_tokenize says for every text what each member is (the tokens are those of C87); C101_all is the statement a user expects, for texts it holds for; C101_long_refuted and C101_escaped_refuted are the findings. The copies of the atoms as text that osc_expr_lex makes and never frees are not modelled."
  },
  {
   "property": "C102",
   "status": "proved",
   "theorems": [
    "C102_iterate",
    "C102_select",
    "C102_unmatched",
    "C102_free",
    "C102_add_while_iterating",
    "C102_append_again_refuted"
   ],
   "note": "The bytes of the bundles are those of QueryModel.v and not repeated here; C102_append_again_refuted is the finding about osc_rset_appendResult."
  },
  {
   "property": "C103",
   "status": "proved",
   "theorems": [
    "C103_accuracy",
    "C103_order",
    "C103_order_refuted",
    "C103_era_refuted",
    "C103_never_immediate",
    "C103_round_trip"
   ],
   "note": "C103_accuracy and C103_order say exactly when the expected statement holds and what happens otherwise; C103_order_refuted and C103_era_refuted are the findings."
  },
  {
   "property": "C104",
   "status": "proved",
   "theorems": [
    "C104_clone",
    "C104_independent",
    "C104_null_refuted"
   ],
   "note": "The operations are those of C30; that the data of the two lists are apart is up to the copying function."
  },
  {
   "property": "C105",
   "status": "proved",
   "theorems": [
    "C105_get",
    "C105_free",
    "C105_no_leak_refuted",
    "C105_types_without_names"
   ],
   "note": "Exact: a leak exactly if a call overwrites. The record's own block, the documentation, the categories, the function and the extra field are not in the model."
  },
  {
   "property": "C106",
   "status": "proved",
   "theorems": [
    "C106_copy",
    "C106_unnamed",
    "C106_copy_refuted"
   ],
   "note": "Exact: the copy can be freed if, and only if, all optional arguments are named. Copies into an existing record and the extra field are not in the model."
  },
  {
   "property": "C107",
   "status": "proved",
   "theorems": [
    "C107_arrays",
    "C107_too_long"
   ],
   "note": "What the getters give is C27, C44 to C46 and C48."
  }
 ]
}