{
 "claims": [
  {
   "property": "C01",
   "status": "proved",
   "theorems": [
    "C01_pushes_build_the_text"
   ],
   "note": "Holds for histories that also contain in-place edits."
  },
  {
   "property": "C02",
   "status": "proved",
   "theorems": [
    "C02_directions_agree"
   ],
   "note": ""
  },
  {
   "property": "C03",
   "status": "proved",
   "theorems": [
    "C03_inline_iff_at_most_62",
    "C03_never_back_inline"
   ],
   "note": ""
  },
  {
   "property": "C04",
   "status": "proved",
   "theorems": [
    "C04_bounded_without_alloc",
    "C04_failure_changes_nothing"
   ],
   "note": ""
  },
  {
   "property": "C05",
   "status": "proved",
   "theorems": [
    "C05_reads_are_safe",
    "C05_calls_are_safe",
    "C05_construction"
   ],
   "note": ""
  },
  {
   "property": "C06",
   "status": "partial",
   "theorems": [
    "C06_refuted",
    "C06_slices_initialised_partial",
    "C06_exactly_when_partial"
   ],
   "note": "False as stated (C06_refuted): push_front on a forward string makes a &mut [u8] over uninitialised bytes. Proved: exactly when this happens (a forward in-place push_front of a character with more bytes than the text), what that slice then contains, and that every other slice is initialised."
  },
  {
   "property": "C07",
   "status": "proved",
   "theorems": [
    "C07_conversions_keep_the_text",
    "C07_from_str_panics_iff",
    "C07_round_trip"
   ],
   "note": ""
  },
  {
   "property": "C08",
   "status": "proved",
   "theorems": [
    "C08_try_into_string"
   ],
   "note": ""
  },
  {
   "property": "C09",
   "status": "proved",
   "theorems": [
    "C09_equality_is_text_equality",
    "C09_equivalence",
    "C09_any_str"
   ],
   "note": ""
  },
  {
   "property": "C10",
   "status": "proved",
   "theorems": [
    "C10_order_is_by_code_points",
    "C10_any_str",
    "C10_total_order"
   ],
   "note": ""
  },
  {
   "property": "C11",
   "status": "proved",
   "theorems": [
    "C11_edits_are_kept"
   ],
   "note": ""
  },
  {
   "property": "C12",
   "status": "proved",
   "theorems": [
    "C12_positional_numerals",
    "C12_zero_is_the_zero_digit"
   ],
   "note": ""
  },
  {
   "property": "C13",
   "status": "proved",
   "theorems": [
    "C13_zeroless_counts_from_zero"
   ],
   "note": ""
  },
  {
   "property": "C14",
   "status": "proved",
   "theorems": [
    "C14_one_based_counts_from_one",
    "C14_one_based_keeps_zero",
    "C14_one_based_has_no_effect"
   ],
   "note": ""
  },
  {
   "property": "C15",
   "status": "proved",
   "theorems": [
    "C15_distinct_texts",
    "C15_counting_order",
    "C15_every_string_is_used"
   ],
   "note": ""
  },
  {
   "property": "C16",
   "status": "proved",
   "theorems": [
    "C16_decimal_scripts",
    "C16_han_digits",
    "C16_alphabets"
   ],
   "note": ""
  },
  {
   "property": "C17",
   "status": "proved",
   "theorems": [
    "C17_hexadecimal"
   ],
   "note": ""
  },
  {
   "property": "C18",
   "status": "proved",
   "theorems": [
    "C18_stems_and_branches"
   ],
   "note": ""
  },
  {
   "property": "C19",
   "status": "proved",
   "theorems": [
    "C19_chain",
    "C19_restrict",
    "C19_zero"
   ],
   "note": ""
  },
  {
   "property": "C20",
   "status": "partial",
   "theorems": [
    "C20_wrapped_fixed_partial",
    "C20_wrappers_ignore_fixed_partial",
    "C20_wrapping_keeps_fixed_refuted",
    "C20_one_based_without_effect_refuted"
   ],
   "note": "False of the code beyond the wrapped set's length: OneBased, Restrict and Chain do not forward fixed(), so CjkHeavenlyStem.one_based() prints 11 as two stems (refuted). Proved for every n the wrapped set shows with a single symbol, and for every n that a wrapper prints exactly what the same digits without fixed() would print."
  },
  {
   "property": "C21",
   "status": "partial",
   "theorems": [
    "C21_large_collections_partial",
    "C21_one_based_refuted"
   ],
   "note": "False when counting from one: the single-digit shortcut ignores zero_based (refuted with 256 digits and u8). Proved: always prints digit n, which is right when counting from zero."
  },
  {
   "property": "C22",
   "status": "partial",
   "theorems": [
    "C22_terminates_partial",
    "C22_terminates_refuted",
    "C22_every_set_partial"
   ],
   "note": "False for degenerate sets: one digit with a zero digit loops forever with alloc, an empty set panics (refuted). Proved for every collection built with the API from at least two digits (one when zeroless), and the outcome of every remaining set is given."
  },
  {
   "property": "C23",
   "status": "proved",
   "theorems": [
    "C23_integer_type_does_not_matter"
   ],
   "note": ""
  },
  {
   "property": "C24",
   "status": "proved",
   "theorems": [
    "C24_symbols_add_up",
    "C24_counts_are_unique"
   ],
   "note": ""
  },
  {
   "property": "C25",
   "status": "proved",
   "theorems": [
    "C25_new_accepts_descending_tables",
    "C25_zero_symbol",
    "C25_no_zero_symbol",
    "C25_zero_symbol_is_not_used"
   ],
   "note": ""
  },
  {
   "property": "C26",
   "status": "partial",
   "theorems": [
    "C26_remainder_partial",
    "C26_counts_are_unique",
    "C26_no_remainder_refuted"
   ],
   "note": "False of the code: with symbols for 10 and 5 only, 17 prints as XV (refuted). Proved: the text is worth n less a remainder smaller than every symbol, and counts and remainder are the only ones taking the largest symbol first, so exact when the table has a symbol for 1."
  },
  {
   "property": "C27",
   "status": "proved",
   "theorems": [
    "C27_tables",
    "C27_reads_back",
    "C27_distinct_texts"
   ],
   "note": ""
  },
  {
   "property": "C28",
   "status": "proved",
   "theorems": [
    "C28_roman_below_4000",
    "C28_roman_zero"
   ],
   "note": ""
  },
  {
   "property": "C29",
   "status": "partial",
   "theorems": [
    "C29_vinculum_partial",
    "C29_exactly_when",
    "C29_vinculum_refuted"
   ],
   "note": "False for a nine at the places 10^5 and 10^4: the crate writes D M and L C (overlined) where the pattern calls for C M and X C (refuted). The exact text is proved for every n, and equals the classical one exactly when neither digit is nine."
  },
  {
   "property": "C30",
   "status": "proved",
   "theorems": [
    "C30_decimal_places",
    "C30_georgian",
    "C30_zero"
   ],
   "note": ""
  },
  {
   "property": "C31",
   "status": "partial",
   "theorems": [
    "C31_capitalised_partial",
    "C31_capitalised_refuted"
   ],
   "note": "False when the last digit is one: the capital letter for 1 is followed by a space in the crate's table (refuted). Proved: otherwise the capitalised text, and exactly one trailing space in that case."
  },
  {
   "property": "C32",
   "status": "proved",
   "theorems": [
    "C32_symbols_from_zero",
    "C32_symbols_from_one"
   ],
   "note": ""
  },
  {
   "property": "C33",
   "status": "proved",
   "theorems": [
    "C33_circled",
    "C33_double_circled"
   ],
   "note": ""
  },
  {
   "property": "C34",
   "status": "proved",
   "theorems": [
    "C34_ethiopic_numeric",
    "C34_numeral_is_unique",
    "C34_no_zero"
   ],
   "note": ""
  },
  {
   "property": "C35",
   "status": "proved",
   "theorems": [
    "C35_reads_back",
    "C35_distinct_texts"
   ],
   "note": ""
  },
  {
   "property": "C36",
   "status": "proved",
   "theorems": [
    "C36_hebrew_numeral",
    "C36_no_zero"
   ],
   "note": ""
  },
  {
   "property": "C37",
   "status": "proved",
   "theorems": [
    "C37_letters_add_up",
    "C37_distinct_texts"
   ],
   "note": ""
  },
  {
   "property": "C38",
   "status": "proved",
   "theorems": [
    "C38_up_to_9999"
   ],
   "note": ""
  },
  {
   "property": "C39",
   "status": "proved",
   "theorems": [
    "C39_reads_back",
    "C39_distinct_texts"
   ],
   "note": ""
  },
  {
   "property": "C40",
   "status": "proved",
   "theorems": [
    "C40_bound"
   ],
   "note": ""
  },
  {
   "property": "C41",
   "status": "proved",
   "theorems": [
    "C41_sparing_zeros"
   ],
   "note": ""
  },
  {
   "property": "C42",
   "status": "proved",
   "theorems": [
    "C42_formality"
   ],
   "note": ""
  },
  {
   "property": "C43",
   "status": "proved",
   "theorems": [
    "C43_substitution",
    "C43_one_to_one"
   ],
   "note": ""
  },
  {
   "property": "C44",
   "status": "proved",
   "theorems": [
    "C44_options",
    "C44_same_system"
   ],
   "note": ""
  },
  {
   "property": "C45",
   "status": "partial",
   "theorems": [
    "C45_skipped_group_refuted",
    "C45_gap_rule_partial",
    "C45_short_scale"
   ],
   "note": "False of the code: 1_0000_1000 prints as 一億一千 (refuted). Proved: in the myriad, mid and long scales the zero character appears exactly when what is left starts with a four-digit group below 1000; in the short scale every gap is voiced."
  },
  {
   "property": "C46",
   "status": "proved",
   "theorems": [
    "C46_errors_tell_the_truth"
   ],
   "note": ""
  },
  {
   "property": "C47",
   "status": "proved",
   "theorems": [
    "C47_unwrap_or_decimal",
    "C47_to_nominal_never_fails"
   ],
   "note": ""
  },
  {
   "property": "C48",
   "status": "partial",
   "theorems": [
    "C48_boxed_try_format",
    "C48_boxed_format_partial",
    "C48_box_ignores_own_format",
    "C48_refuted"
   ],
   "note": "False for implementors that override format_nominal: the Box/Rc/Arc impls forward only try_format_nominal, so the box prints the default fallback (refuted). Proved for try_format_nominal always, and for format_nominal when it is not overridden."
  },
  {
   "property": "C49",
   "status": "proved",
   "theorems": [
    "C49_alloc_matters_beyond_62_bytes"
   ],
   "note": ""
  },
  {
   "property": "C50",
   "status": "partial",
   "theorems": [
    "C50_additive_partial",
    "C50_zero_symbol_panics",
    "C50_enumerated_panics",
    "C50_refuted"
   ],
   "note": "False of the code: the symbol for zero of an additive set and every symbol of an enumerated set go through From<&str>, which panics (refuted, with the exact condition proved). Proved for positive numbers of additive sets."
  },
  {
   "property": "C51",
   "status": "proved",
   "theorems": [
    "C51_always_returns"
   ],
   "note": ""
  },
  {
   "property": "C52",
   "status": "proved",
   "theorems": [
    "C52_composition",
    "C52_unique"
   ],
   "note": ""
  },
  {
   "property": "C53",
   "status": "proved",
   "theorems": [
    "C53_distinct_texts",
    "C53_distinct_results",
    "C53_never_empty"
   ],
   "note": ""
  },
  {
   "property": "C54",
   "status": "proved",
   "theorems": [
    "C54_ten_digits",
    "C54_twenty_digits",
    "C54_sharp",
    "C54_additive_limits",
    "C54_all_bytes"
   ],
   "note": ""
  },
  {
   "property": "C55",
   "status": "proved",
   "theorems": [
    "C55_six_bytes_per_digit",
    "C55_three_bytes_per_digit",
    "C55_additive_texts_grow"
   ],
   "note": ""
  },
  {
   "property": "C56",
   "status": "proved",
   "theorems": [
    "C56_fixed_collections",
    "C56_circular_fallback_hangs"
   ],
   "note": ""
  },
  {
   "property": "C57",
   "status": "proved",
   "theorems": [
    "C57_sound_whatever_the_collection",
    "C57_no_state_no_difference"
   ],
   "note": ""
  },
  {
   "property": "C58",
   "status": "partial",
   "theorems": [
    "C58_single_digit_refuted",
    "C58_zero_digit_from_one_partial"
   ],
   "note": "False for a fixed collection with a zero digit that counts from one: the number after its last symbol prints two digits (refuted, with the exact form). Every other fixed collection is covered by C56."
  },
  {
   "property": "C59",
   "status": "proved",
   "theorems": [
    "C59_representation",
    "C59_no_traces"
   ],
   "note": ""
  },
  {
   "property": "C60",
   "status": "proved",
   "theorems": [
    "C60_cheap_end"
   ],
   "note": ""
  },
  {
   "property": "C61",
   "status": "proved",
   "theorems": [
    "C61_one_answer",
    "C61_display",
    "C61_to_string"
   ],
   "note": ""
  },
  {
   "property": "C62",
   "status": "proved",
   "theorems": [
    "C62_debug",
    "C62_debug_alternate",
    "C62_clone"
   ],
   "note": ""
  },
  {
   "property": "C63",
   "status": "proved",
   "theorems": [
    "C63_results_are_strings",
    "C63_results_of_collections"
   ],
   "note": ""
  },
  {
   "property": "C64",
   "status": "proved",
   "theorems": [
    "C64_one_turn_per_digit",
    "C64_exact_turns",
    "C64_exact_turns_of_a_row",
    "C64_few_turns",
    "C64_one_turn_per_symbol",
    "C64_turns_grow_with_the_number"
   ],
   "note": ""
  },
  {
   "property": "C65",
   "status": "proved",
   "theorems": [
    "C65_calls_made"
   ],
   "note": ""
  },
  {
   "property": "C66",
   "status": "partial",
   "theorems": [
    "C66_zero_based_partial",
    "C66_zero_based_refuted",
    "C66_meaning_refuted"
   ],
   "note": "False of the code: zero_based() is also called when fixed() returned true, even if the collection has a zero digit, and true means counting from 0 (both refuted). Proved for collections that are not fixed."
  },
  {
   "property": "C67",
   "status": "proved",
   "theorems": [
    "C67_digits_transliterate",
    "C67_symbols_transliterate",
    "C67_capitals",
    "C67_decimal_scripts",
    "C67_kana"
   ],
   "note": ""
  },
  {
   "property": "C68",
   "status": "proved",
   "theorems": [
    "C68_one_more_digit",
    "C68_counting_on",
    "C68_one_based_is_one_later",
    "C68_one_more_symbol"
   ],
   "note": ""
  },
  {
   "property": "C69",
   "status": "proved",
   "theorems": [
    "C69_pushes",
    "C69_collections",
    "C69_sets",
    "C69_builtin_systems"
   ],
   "note": ""
  },
  {
   "property": "C70",
   "status": "partial",
   "theorems": [
    "C70_steady_collections_partial",
    "C70_chains_partial",
    "C70_fickle_refuted",
    "C70_chains_refuted"
   ],
   "note": "False of the code: a collection that says first that it has no zero digit and then that it has makes remaining -= one underflow, and a chain of more digits than a usize counts overflows in len(); both panic in debug builds and wrap in release builds (refuted). Proved for collections whose has_zero_digit() is constant, and the exact length of a chain."
  },
  {
   "property": "C71",
   "status": "proved",
   "theorems": [
    "C71_display_to",
    "C71_plain",
    "C71_kept",
    "C71_buffer"
   ],
   "note": ""
  },
  {
   "property": "C72",
   "status": "proved",
   "theorems": [
    "C72_any_system",
    "C72_decimal_of_the_number"
   ],
   "note": ""
  },
  {
   "property": "C73",
   "status": "proved",
   "theorems": [
    "C73_numerals_exist",
    "C73_complete_or_not",
    "C73_every_number",
    "C73_remaining"
   ],
   "note": ""
  },
  {
   "property": "C74",
   "status": "proved",
   "theorems": [
    "C74_dictionary_order",
    "C74_zero_padded",
    "C74_padded_order",
    "C74_built_in_order"
   ],
   "note": ""
  },
  {
   "property": "C75",
   "status": "proved",
   "theorems": [
    "C75_ethiopic_ten_thousands",
    "C75_ethiopic_hundreds",
    "C75_ethiopic_small",
    "C75_hebrew_four_hundreds",
    "C75_hebrew_hundreds"
   ],
   "note": ""
  },
  {
   "property": "C76",
   "status": "proved",
   "theorems": [
    "C76_digits",
    "C76_additive",
    "C76_ethiopic",
    "C76_hebrew",
    "C76_chinese"
   ],
   "note": ""
  },
  {
   "property": "C77",
   "status": "proved",
   "theorems": [
    "C77_digit_sets",
    "C77_one_based",
    "C77_restrict",
    "C77_restrict_default",
    "C77_chain",
    "C77_decimal_scripts",
    "C77_alphabets",
    "C77_hexadecimal",
    "C77_fixed_sets"
   ],
   "note": ""
  },
  {
   "property": "C78",
   "status": "proved",
   "theorems": [
    "C78_only_answers_matter",
    "C78_chain_associative",
    "C78_chain_empty",
    "C78_restrict",
    "C78_restrict_chain",
    "C78_one_based"
   ],
   "note": ""
  },
  {
   "property": "C79",
   "status": "proved",
   "theorems": [
    "C79_number_of_digits",
    "C79_never_shorter",
    "C79_out_of_memory",
    "C79_built_in_sets"
   ],
   "note": ""
  },
  {
   "property": "C80",
   "status": "proved",
   "theorems": [
    "C80_values",
    "C80_release",
    "C80_panics"
   ],
   "note": ""
  },
  {
   "property": "C81",
   "status": "partial",
   "theorems": [
    "C81_tens",
    "C81_hundreds_partial",
    "C81_without_zero",
    "C81_hundreds_refuted"
   ],
   "note": "False of collections without a zero digit: the third digit only appears at least + count + count^2 (or one less), which is never among the numbers; the preview of LetterLower has no text of three letters (refuted). Proved for collections with a zero digit; the step from one digit to two is proved for all."
  },
  {
   "property": "C82",
   "status": "proved",
   "theorems": [
    "C82_table"
   ],
   "note": ""
  },
  {
   "property": "C83",
   "status": "partial",
   "theorems": [
    "C83_rows_aligned",
    "C83_header_partial",
    "C83_header_refuted"
   ],
   "note": "False of the code: when the widest text is exactly four columns wider than the name, the heading is padded to the length of the name only, four columns too few (refuted). Proved for all other tables; rows and rule are always as wide as they should be."
  },
  {
   "property": "C84",
   "status": "proved",
   "theorems": [
    "C84_every_build",
    "C84_index",
    "C84_stdout",
    "C84_nothing_falls_back",
    "C84_repository_files",
    "C84_names"
   ],
   "note": ""
  },
  {
   "property": "C85",
   "status": "proved",
   "theorems": [
    "C85_texts_fit",
    "C85_other_systems",
    "C85_limit"
   ],
   "note": ""
  },
  {
   "property": "C86",
   "status": "proved",
   "theorems": [
    "C86_error",
    "C86_error_alternate",
    "C86_errors_told_apart",
    "C86_collection_texts",
    "C86_collections",
    "C86_alternate",
    "C86_chinese_texts",
    "C86_chinese",
    "C86_out_of_memory"
   ],
   "note": ""
  },
  {
   "property": "C87",
   "status": "proved",
   "theorems": [
    "C87_lists",
    "C87_readme",
    "C87_tables",
    "C87_roman",
    "C87_inline_capacity"
   ],
   "note": ""
  },
  {
   "property": "C88",
   "status": "partial",
   "theorems": [
    "C88_stack_partial",
    "C88_stack_refuted"
   ],
   "note": "The documentation is out of date: texts of 48 to 62 bytes are on the stack too (refuted). Proved: those of up to 47 bytes are; the exact limit is C03."
  },
  {
   "property": "C89",
   "status": "partial",
   "theorems": [
    "C89_css_is_a_function",
    "C89_numeric",
    "C89_alphabetic",
    "C89_kana_partial",
    "C89_kana_refuted",
    "C89_fixed_partial",
    "C89_fixed_refuted",
    "C89_letters_partial",
    "C89_east_asian_partial",
    "C89_roman_partial",
    "C89_upper_armenian_partial",
    "C89_upper_armenian_refuted",
    "C89_beyond_refuted",
    "C89_roman_zero_refuted"
   ],
   "note": "False of the code: outside a style's range the crate goes on with its own symbols where CSS falls back (additive styles beyond 9999, 19999, 3999; Roman zero), CjkHeavenlyStem and CjkEarthlyBranch show zero as 0 rather than 〇, ArmenianUpper has a space behind the letter for one, and the syllabaries lack two characters CSS has (each refuted, for exactly those numbers). Proved for all other numbers; without conditions for the numeric styles and the other alphabetic ones."
  },
  {
   "property": "C90",
   "status": "proved",
   "theorems": [
    "C90_well_formed",
    "C90_every_text",
    "C90_arguments",
    "C90_characters"
   ],
   "note": ""
  },
  {
   "property": "C91",
   "status": "proved",
   "theorems": [
    "C91_own_tests",
    "C91_needs_heap",
    "C91_chinese"
   ],
   "note": ""
  },
  {
   "property": "C92",
   "status": "proved",
   "theorems": [
    "C92_debug_to",
    "C92_kept",
    "C92_derived",
    "C92_number",
    "C92_flags",
    "C92_alternate",
    "C92_values"
   ],
   "note": ""
  },
  {
   "property": "C93",
   "status": "proved",
   "theorems": [
    "C93_actions",
    "C93_complete",
    "C93_beginning",
    "C93_in_order",
    "C93_index",
    "C93_printed_first"
   ],
   "note": ""
  },
  {
   "property": "C94",
   "status": "proved",
   "theorems": [
    "C94_lower_bound",
    "C94_attained",
    "C94_documented"
   ],
   "note": ""
  },
  {
   "property": "C95",
   "status": "proved",
   "theorems": [
    "C95_heap_ownership",
    "C95_no_leak",
    "C95_panics_change_nothing",
    "C95_value_model"
   ],
   "note": ""
  },
  {
   "property": "C96",
   "status": "proved",
   "theorems": [
    "C96_allocator_calls"
   ],
   "note": ""
  },
  {
   "property": "C97",
   "status": "proved",
   "theorems": [
    "C97_growth"
   ],
   "note": ""
  },
  {
   "property": "C98",
   "status": "proved",
   "theorems": [
    "C98_formatting_in_memory",
    "C98_short_texts",
    "C98_enough_memory",
    "C98_standard_library"
   ],
   "note": ""
  },
  {
   "property": "C99",
   "status": "proved",
   "theorems": [
    "C99_caller_digits",
    "C99_caller_additive",
    "C99_caller_enumerated"
   ],
   "note": ""
  },
  {
   "property": "C100",
   "status": "proved",
   "theorems": [
    "C100_stateful_digits",
    "C100_no_state_no_difference"
   ],
   "note": ""
  },
  {
   "property": "C101",
   "status": "proved",
   "theorems": [
    "C101_to_nominal",
    "C101_fallback",
    "C101_callers_system"
   ],
   "note": ""
  },
  {
   "property": "C102",
   "status": "proved",
   "theorems": [
    "C102_programs_that_format",
    "C102_built_in_systems_return",
    "C102_no_leak"
   ],
   "note": ""
  },
  {
   "property": "C103",
   "status": "proved",
   "theorems": [
    "C103_digits",
    "C103_built_in_digits",
    "C103_systems"
   ],
   "note": ""
  },
  {
   "property": "C104",
   "status": "proved",
   "theorems": [
    "C104_one_string",
    "C104_to_nominal",
    "C104_callers_digits",
    "C104_callers_sets",
    "C104_logarithmic",
    "C104_chinese"
   ],
   "note": ""
  },
  {
   "property": "C105",
   "status": "proved",
   "theorems": [
    "C105_digits",
    "C105_first_outside",
    "C105_small_numbers",
    "C105_bytes",
    "C105_without_allocator"
   ],
   "note": ""
  },
  {
   "property": "C106",
   "status": "proved",
   "theorems": [
    "C106_no_violation",
    "C106_every_use",
    "C106_changes_are_writes",
    "C106_sources_are_reads"
   ],
   "note": ""
  },
  {
   "property": "C107",
   "status": "proved",
   "theorems": [
    "C107_no_violation",
    "C107_writes_end_others",
    "C107_arguments_are_protected",
    "C107_release_ends_others",
    "C107_bytes_are_separate"
   ],
   "note": ""
  },
  {
   "property": "C108",
   "status": "proved",
   "theorems": [
    "C108_cost_of_a_push",
    "C108_cost_of_leaving",
    "C108_cost_of_a_text",
    "C108_formatters"
   ],
   "note": ""
  },
  {
   "property": "C109",
   "status": "proved",
   "theorems": [
    "C109_no_violation",
    "C109_no_race",
    "C109_unchanged",
    "C109_every_thread",
    "C109_calls_end_alone"
   ],
   "note": ""
  },
  {
   "property": "C110",
   "status": "proved",
   "theorems": [
    "C110_lawful",
    "C110_transparent",
    "C110_units",
    "C110_answers_decide",
    "C110_equal_alike",
    "C110_in_order",
    "C110_wrapped"
   ],
   "note": ""
  },
  {
   "property": "C111",
   "status": "proved",
   "theorems": [
    "C111_results",
    "C111_ethiopic",
    "C111_hebrew",
    "C111_additive",
    "C111_digital",
    "C111_enumerated",
    "C111_chinese"
   ],
   "note": ""
  },
  {
   "property": "C112",
   "status": "proved",
   "theorems": [
    "C112_digit_sets",
    "C112_fixed_sets",
    "C112_hex_sets",
    "C112_additive_sets",
    "C112_enumerated_sets",
    "C112_additive_runs",
    "C112_digit_runs"
   ],
   "note": ""
  },
  {
   "property": "C113",
   "status": "proved",
   "theorems": [
    "C113_one_based",
    "C113_chain",
    "C113_restrict",
    "C113_digit_set",
    "C113_fixed_sets",
    "C113_no_fallback",
    "C113_defaults"
   ],
   "note": ""
  }
 ]
}