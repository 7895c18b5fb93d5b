{
 "claims": [
  {
   "property": "C01",
   "status": "proved",
   "theorems": [
    "C01_short_circuit_meaning",
    "C01_classical_value",
    "C01_failure_is_a_leafs"
   ],
   "note": ""
  },
  {
   "property": "C02",
   "status": "proved",
   "theorems": [
    "C02_laws",
    "C02_commutative",
    "C02_commutative_failing_refuted"
   ],
   "note": "Commutativity only when both operands succeed; refuted otherwise."
  },
  {
   "property": "C03",
   "status": "proved",
   "theorems": [
    "C03_range_sound",
    "C03_range_numeric",
    "C03_reversed_range"
   ],
   "note": ""
  },
  {
   "property": "C04",
   "status": "proved",
   "theorems": [
    "C04_in_disjunction",
    "C04_in_empty",
    "C04_in_set",
    "C04_not_in"
   ],
   "note": ""
  },
  {
   "property": "C05",
   "status": "proved",
   "theorems": [
    "C05_contains",
    "C05_single",
    "C05_monotone",
    "C05_mixed_types_fail"
   ],
   "note": "For java.util.List values without null elements; requests of mixed types are proved to fail."
  },
  {
   "property": "C06",
   "status": "proved",
   "theorems": [
    "C06_numeric_comparisons_exact"
   ],
   "note": ""
  },
  {
   "property": "C07",
   "status": "proved",
   "theorems": [
    "C07_complementary",
    "C07_swap"
   ],
   "note": ""
  },
  {
   "property": "C08",
   "status": "proved",
   "theorems": [
    "C08_total_order",
    "C08_all_texts_refuted",
    "C08_text_order",
    "C08_text_order_total"
   ],
   "note": "Texts that look like dates are excluded; with them transitivity is refuted. C08_text_order (in PropsMixed.v) says which order it is for texts."
  },
  {
   "property": "C09",
   "status": "proved",
   "theorems": [
    "C09_trichotomy_refuted",
    "C09_trichotomy_text_integer"
   ],
   "note": "Expected property refuted by a witness, and characterised for text against whole numbers."
  },
  {
   "property": "C10",
   "status": "proved",
   "theorems": [
    "C10_versions_component_wise",
    "C10_versions_equal"
   ],
   "note": ""
  },
  {
   "property": "C11",
   "status": "proved",
   "theorems": [
    "C11_spelling",
    "C11_null_check",
    "C11_never_fails_refuted",
    "C11_symmetry_refuted"
   ],
   "note": "The 'never fails' part is refuted for NaN/infinite floating point fields and proved otherwise; symmetry refuted for every operand. C11_spelling says what lower case means, character by character."
  },
  {
   "property": "C12",
   "status": "proved",
   "theorems": [
    "C12_path_found",
    "C12_path_absent",
    "C12_flat_key_never_found",
    "C12_every_name",
    "C12_name_found",
    "C12_name_absent",
    "C12_only_dots_refuted"
   ],
   "note": ""
  },
  {
   "property": "C13",
   "status": "proved",
   "theorems": [
    "C13_missing_arithmetic",
    "C13_missing_condition",
    "C13_missing_name",
    "C13_missing_name_condition"
   ],
   "note": ""
  },
  {
   "property": "C14",
   "status": "proved",
   "theorems": [
    "C14_boolean_depends_on_fields",
    "C14_arithmetic_depends_on_fields",
    "C14_same_field",
    "C14_same_name"
   ],
   "note": ""
  },
  {
   "property": "C15",
   "status": "proved",
   "theorems": [
    "C15_add_multiply",
    "C15_small_operands"
   ],
   "note": ""
  },
  {
   "property": "C16",
   "status": "proved",
   "theorems": [
    "C16_subtract_32",
    "C16_subtract_64",
    "C16_negate",
    "C16_subtract_add_negate",
    "C16_subtract_add_negate_refuted"
   ],
   "note": "The identity a - b = a + (-b) is refuted at the boundary and proved away from it."
  },
  {
   "property": "C17",
   "status": "proved",
   "theorems": [
    "C17_decimal_exact"
   ],
   "note": ""
  },
  {
   "property": "C18",
   "status": "proved",
   "theorems": [
    "C18_divide",
    "C18_divide_by_zero"
   ],
   "note": ""
  },
  {
   "property": "C19",
   "status": "proved",
   "theorems": [
    "C19_modulus",
    "C19_modulus_zero",
    "C19_modulus_decimal"
   ],
   "note": ""
  },
  {
   "property": "C20",
   "status": "proved",
   "theorems": [
    "C20_power_exact"
   ],
   "note": "Relative to the documented contract of Math.pow (hypothesis pow_documented, met by exact_env)."
  },
  {
   "property": "C21",
   "status": "proved",
   "theorems": [
    "C21_min_decimal",
    "C21_max_decimal",
    "C21_min_whole",
    "C21_max_whole",
    "C21_min_long",
    "C21_max_long",
    "C21_nearest_unique",
    "C21_min_long_refuted"
   ],
   "note": "Whole numbers up to magnitude 2^53 exactly (C21_min_whole, C21_max_whole); beyond, the nearest double of the extreme (C21_min_long, C21_max_long), so the plain claim is refuted there."
  },
  {
   "property": "C22",
   "status": "proved",
   "theorems": [
    "C22_sum_decimal",
    "C22_sum_whole",
    "C22_sum_long"
   ],
   "note": "C22_sum_long covers every magnitude: reduction to 64 bits, then the nearest double."
  },
  {
   "property": "C23",
   "status": "proved",
   "theorems": [
    "C23_same",
    "C23_decimal",
    "C23_whole"
   ],
   "note": ""
  },
  {
   "property": "C24",
   "status": "proved",
   "theorems": [
    "C24_median",
    "C24_order"
   ],
   "note": ""
  },
  {
   "property": "C25",
   "status": "proved",
   "theorems": [
    "C25_mode"
   ],
   "note": ""
  },
  {
   "property": "C26",
   "status": "proved",
   "theorems": [
    "C26_len_text",
    "C26_len_list",
    "C26_len_single",
    "C26_len_empty",
    "C26_len_members_refuted"
   ],
   "note": "LEN as the number of members is refuted for a one-element text list and fails for the empty list."
  },
  {
   "property": "C27",
   "status": "proved",
   "theorems": [
    "C27_int"
   ],
   "note": ""
  },
  {
   "property": "C28",
   "status": "proved",
   "theorems": [
    "C28_days_elapsed",
    "C28_text",
    "C28_clamped_text_fails",
    "C28_other"
   ],
   "note": "Text with a four-digit year; text with a day past the end of a short month is proved to fail although C30 treats it as a date."
  },
  {
   "property": "C29",
   "status": "proved",
   "theorems": [
    "C29_reject_left",
    "C29_reject_right",
    "C29_reject_negation",
    "C29_reject_function"
   ],
   "note": ""
  },
  {
   "property": "C30",
   "status": "proved",
   "theorems": [
    "C30_text",
    "C30_value",
    "C30_order",
    "C30_days_unique"
   ],
   "note": ""
  },
  {
   "property": "C31",
   "status": "proved",
   "theorems": [
    "C31_maximal_munch",
    "C31_pieces_are_the_text",
    "C31_white_space_irrelevant",
    "C31_no_other_character_lost_refuted"
   ],
   "note": "Lexical rules restated as regular expressions in SpecLex; silent dropping of unrecognised characters stated as a general theorem (_refuted)."
  },
  {
   "property": "C32",
   "status": "proved",
   "theorems": [
    "C32_two_spellings",
    "C32_mixed_case_refuted",
    "C32_longer_word",
    "C32_field_names"
   ],
   "note": "The documented case-insensitivity of keywords is refuted for every mixed-case spelling."
  },
  {
   "property": "C33",
   "status": "proved",
   "theorems": [
    "C33_quoted_alone",
    "C33_quoted_compared"
   ],
   "note": ""
  },
  {
   "property": "C34",
   "status": "proved",
   "theorems": [
    "C34_positional",
    "C34_numerals",
    "C34_integer_literal",
    "C34_decimal_literal",
    "C34_integer_observed"
   ],
   "note": "C34_positional and C34_numerals pin down the decimal notation the other statements speak of."
  },
  {
   "property": "C35",
   "status": "proved",
   "theorems": [
    "C35_tree_found",
    "C35_tree_unique",
    "C35_sentence_or_not",
    "C35_two_operators",
    "C35_chains_group_left",
    "C35_parentheses_kept"
   ],
   "note": "For every token sequence that has a tree respecting the declared levels (SpecGrammar.v) the parser, with ANTLR's error recovery, returns that tree, and there is at most one. Token sequences without such a tree are the subject of C49 and C50."
  },
  {
   "property": "C36",
   "status": "proved",
   "theorems": [
    "C36_arithmetic_grouping",
    "C36_minus_plus_refuted",
    "C36_multiply_divide_refuted",
    "C36_connective_grouping",
    "C36_or_and_refuted",
    "C36_sum_compared_refuted"
   ],
   "note": "The conventional reading is refuted (for comparisons of sums without parentheses for all operands and data); the actual grouping of two operators is proved."
  },
  {
   "property": "C37",
   "status": "proved",
   "theorems": [
    "C37_condition_text",
    "C37_arithmetic_text",
    "C37_connectives",
    "C37_negation",
    "C37_parentheses",
    "C37_arithmetic_parts",
    "C37_syntax_tree"
   ],
   "note": "For the conditions of the inductive definition 'written' (parenthesised parts, any size) and, for any layout, for the trees of 'loose'. The excluded shapes are those the library mishandles (C38, C39, C40 and findings in DESIGN.md)."
  },
  {
   "property": "C38",
   "status": "proved",
   "theorems": [
    "C38_comparison_second_refuted",
    "C38_bare_comparison_second_refuted",
    "C38_comparison_first"
   ],
   "note": "Refuted for all operands; the accepted order is proved to have the meaning of the connective."
  },
  {
   "property": "C39",
   "status": "proved",
   "theorems": [
    "C39_longer_lists_refuted",
    "C39_longer_lists_row",
    "C39_odd_elements",
    "C39_simple_elements",
    "C39_longer_elements_refuted",
    "C39_sum_refuted"
   ],
   "note": "Positive part for one operator between plain operands (and functions of such); refuted for all elements with two operators, in calls and in the lists of IN, NOT IN and CONTAINS, also inside rows of conditions. Elements in parentheses (or with NOT, a minus sign, AND, OR or CONTAINS) are rejected wherever the list stands (C39_odd_elements). An element with three or more operators is not covered by a theorem of its own."
  },
  {
   "property": "C40",
   "status": "proved",
   "theorems": [
    "C40_bare_field_false",
    "C40_bare_field_refuted",
    "C40_bare_field_value",
    "C40_bare_boolean_refuted",
    "C40_bare_quoted",
    "C40_not_field",
    "C40_bare_number_text"
   ],
   "note": "Refuted for every field name and data map; NOT of a bare field does work."
  },
  {
   "property": "C41",
   "status": "proved",
   "theorems": [
    "C41_default_written",
    "C41_default_irrelevant",
    "C41_comparison",
    "C41_lone_operand_refuted"
   ],
   "note": "Proved except where the whole text or the operand of a NOT is omitted, which is refuted."
  },
  {
   "property": "C42",
   "status": "proved",
   "theorems": [
    "C42_transparent",
    "C42_transparent_one_default",
    "C42_transparent_refuted",
    "C42_absent_default_refuted"
   ],
   "note": "Under the proviso of the statement; refuted without it."
  },
  {
   "property": "C43",
   "status": "proved",
   "theorems": [
    "C43_failure_not_cached",
    "C43_failure_repeats",
    "C43_success_computed_once"
   ],
   "note": ""
  },
  {
   "property": "C44",
   "status": "proved",
   "theorems": [
    "C44_result_type",
    "C44_negate_type",
    "C44_concatenation",
    "C44_shown",
    "C44_only_text",
    "C44_texts"
   ],
   "note": "C44_shown says what the printed form of every value is and C44_only_text that it has no other; floating point numbers, versions, arrays and foreign objects carry their text with them."
  },
  {
   "property": "C45",
   "status": "proved",
   "theorems": [
    "C45_negate_decimal",
    "C45_negate_float_refuted"
   ],
   "note": "Decimals; refuted for Float/Double operands. Whole numbers are in C16_negate."
  },
  {
   "property": "C46",
   "status": "proved",
   "theorems": [
    "C46_lookups_served",
    "C46_lookups_served_racy",
    "C46_parser_only_refuted"
   ],
   "note": "Both for sequentially consistent interleavings and for every happens-before consistent execution of the Java memory model. For types and functions a thread that has only constructed a parser is refuted."
  },
  {
   "property": "C47",
   "status": "proved",
   "theorems": [
    "C47_registration_refuted"
   ],
   "note": "Refuted."
  },
  {
   "property": "C48",
   "status": "proved",
   "theorems": [
    "C48_text",
    "C48_value",
    "C48_order",
    "C48_mixed_fails"
   ],
   "note": ""
  },
  {
   "property": "C49",
   "status": "proved",
   "theorems": [
    "C49_parsing_ends"
   ],
   "note": "Each of the five exceptions does occur (C49_case). Stack overflow on deeply nested texts is not modelled."
  },
  {
   "property": "C50",
   "status": "proved",
   "theorems": [
    "C50_trailing_text_refuted",
    "C50_parentheses_refuted",
    "C50_unclosed_list_refuted",
    "C50_unclosed_call_rejected",
    "C50_stray_word_refuted",
    "C50_broken_list_refuted",
    "C50_stray_argument_refuted",
    "C50_broken_call"
   ],
   "note": "Six families of malformed texts that are accepted; that they are not sentences is part of each theorem. The unclosed function call and the call with several stray words are the positive part. Stray words are covered for the lists of conditions and the arguments of calls that begin a text, with fields and literals as elements."
  },
  {
   "property": "C51",
   "status": "proved",
   "theorems": [
    "C51_arithmetic_text",
    "C51_boolean_text",
    "C51_spelled"
   ],
   "note": "Combines C14 with the origin of the fields in the tree parsed from any text. C51_spelled says by the words of the text which field names a literal can be taken for."
  },
  {
   "property": "C52",
   "status": "proved",
   "theorems": [
    "C52_characters",
    "C52_generated_lexer",
    "C52_same_tokens"
   ],
   "note": "LexerTable.v is copied from the Java source by a script; the simulator is a reading of the ANTLR runtime, whose source is not in /repo. C52_characters compares the classes of characters with explicit tables."
  },
  {
   "property": "C53",
   "status": "proved",
   "theorems": [
    "C53_layout",
    "C53_condition",
    "C53_date_refuted"
   ],
   "note": "Strengthens C31 and C37 from white space between all words to white space only where it is needed. The date case is the finding."
  },
  {
   "property": "C54",
   "status": "proved",
   "theorems": [
    "C54_right_operand",
    "C54_negative_number",
    "C54_function_list_refuted",
    "C54_in_list_refuted",
    "C54_contains_list_refuted",
    "C54_range_refuted",
    "C54_left_operand_refuted"
   ],
   "note": "The right-hand side is proved positively; lists, ranges and the left-hand side are refuted for all operands."
  },
  {
   "property": "C55",
   "status": "proved",
   "theorems": [
    "C55_not_comparison_refuted"
   ],
   "note": "Refuted for all operands."
  },
  {
   "property": "C56",
   "status": "proved",
   "theorems": [
    "C56_condition_as_arithmetic",
    "C56_arithmetic_as_condition_refuted"
   ],
   "note": "The arithmetic evaluator rejects; the boolean evaluator does not (refuted for all expressions)."
  },
  {
   "property": "C57",
   "status": "proved",
   "theorems": [
    "C57_comparison_refuted",
    "C57_arithmetic_refuted"
   ],
   "note": "Refuted for all plain operands."
  },
  {
   "property": "C58",
   "status": "proved",
   "theorems": [
    "C58_numeral_compared_refuted",
    "C58_numeral_looked_up_refuted"
   ],
   "note": "Refuted for all such words."
  },
  {
   "property": "C59",
   "status": "proved",
   "theorems": [
    "C59_answers",
    "C59_exclusive",
    "C59_parsed_once",
    "C59_finishes"
   ],
   "note": "Caffeine's get is modelled as: answer from the entry, else take the lock of the key's hash bin and run the mapping function, else wait. Collision of keys is C42's finding and a hypothesis here."
  },
  {
   "property": "C60",
   "status": "proved",
   "theorems": [
    "C60_plain_private",
    "C60_plain_undisturbed",
    "C60_plain_new_kept",
    "C60_plain_old_kept",
    "C60_cached_readers",
    "C60_cached_refuted",
    "C60_cached_setters_refuted"
   ],
   "note": "Heap model with node objects, setters and mutable lists. Refuted for the caching parser for every setter and list of the top object; a parse is taken to allocate its objects at once. The trees of different plain calls are shown to have no object in common."
  },
  {
   "property": "C61",
   "status": "proved",
   "theorems": [
    "C61_condition",
    "C61_arithmetic"
   ],
   "note": "Each exception of the condition list is shown to occur; NoSuchElement in the arithmetic list is an upper bound only. Exhaustion of memory or of the Java stack is not modelled."
  },
  {
   "property": "C62",
   "status": "proved",
   "theorems": [
    "C62_decoded",
    "C62_language",
    "C62_tree",
    "C62_result",
    "C62_recovery_sets",
    "C62_sync_sets"
   ],
   "note": "Of the ANTLR runtime, the contract of adaptivePredict (lowest viable alternative) is assumed; runs with errors are covered by Recover.v, whose token sets are proved equal to the automaton's."
  },
  {
   "property": "C63",
   "status": "proved",
   "theorems": [
    "C63_comparison",
    "C63_unrelated_fail",
    "C63_text_beyond_int",
    "C63_text_decimal",
    "C63_not_finite_left",
    "C63_not_finite_right"
   ],
   "note": "C63_comparison is the whole table; the others are its consequences a user meets first. The order of versions is version_compare (C10 says what it is on dotted numeric versions). Which texts denote numbers is the specification written_number, proved equivalent to the model of new BigDecimal(String)."
  },
  {
   "property": "C64",
   "status": "proved",
   "theorems": [
    "C64_rewrites",
    "C64_texts",
    "C64_distribute_right_refuted",
    "C64_mixed_range_refuted",
    "C64_field_elements_refuted",
    "C64_mixed_contains_refuted",
    "C64_constants_refuted"
   ],
   "note": "The laws are the inductive relation rewrites in SpecRewrite. Texts are those of SpecText (compound parts in parentheses). The refuted theorems give the classical laws that change a failure."
  },
  {
   "property": "C65",
   "status": "proved",
   "theorems": [
    "C65_order",
    "C65_texts",
    "C65_mode_refuted"
   ],
   "note": "Results are compared by same_outcome: equal, or two decimals of equal value (MIN(1.5, 1.50) keeps the scale of the first). The arguments are assumed to evaluate; which operand fails first does depend on the order. Null members of collections are excluded."
  },
  {
   "property": "C66",
   "status": "proved",
   "theorems": [
    "C66_tree",
    "C66_unique",
    "C66_text",
    "C66_operand",
    "C66_any_text"
   ],
   "note": "The forms covered are those of loose and written (see C37). The recorded types in other trees (compound right operands in malformed texts) are not specified beyond C66_any_text."
  },
  {
   "property": "C67",
   "status": "proved",
   "theorems": [
    "C67_arithmetic",
    "C67_not_finite",
    "C67_negation",
    "C67_types"
   ],
   "note": "The power function is a parameter : the theorem says what becomes of the double it returns. The power function is that of C20; null operands do not arise from texts and data (C13)."
  },
  {
   "property": "C68",
   "status": "proved",
   "theorems": [
    "C68_seen",
    "C68_seen_arithmetic",
    "C68_still",
    "C68_still_arithmetic",
    "C68_accesses",
    "C68_accesses_arithmetic",
    "C68_short_circuit",
    "C68_single",
    "C68_single_arithmetic",
    "C68_mixture",
    "C68_mixture_arithmetic",
    "C68_twice_refuted",
    "C68_midnight_refuted"
   ],
   "note": "A dotted name is looked up in one access, and objects once looked up do not change (Reads.v). The refuted theorems are the general claim of a single moment."
  },
  {
   "property": "C69",
   "status": "proved",
   "theorems": [
    "C69_number",
    "C69_huge_refuted",
    "C69_scientific_decimal_refuted",
    "C69_small_double_refuted",
    "C69_large_double_refuted",
    "C69_boolean",
    "C69_date",
    "C69_datetime_refuted",
    "C69_text",
    "C69_quote_refuted",
    "C69_quote_letter",
    "C69_literal"
   ],
   "note": "The refuted theorems cover the values outside the positive ones except dates outside the years 1 to 9999 (cases only). The bounds on the scale and on the length of a printed BigDecimal are those of Java's int and String. What toString prints is the model of BigDecimal.toString, LocalDate.toString and LocalDateTime.toString; for doubles and floats it is any text of the shape float_text."
  },
  {
   "property": "C70",
   "status": "proved",
   "theorems": [
    "C70_order",
    "C70_written",
    "C70_dot"
   ],
   "note": "ComparableVersion belongs to a dependency whose source is not in the repository; Version.v models it from its documented algorithm, and C70 relies on that. Labels outside the list, several labels in one version and numbers after ga or final are not covered, nor is a label after a dot against another label."
  },
  {
   "property": "C71",
   "status": "proved",
   "theorems": [
    "C71_call",
    "C71_text",
    "C71_not_finite",
    "C71_failing"
   ],
   "note": "Integers are within the range of their Java types and dates within the calendar (argument_type). MODE returns the first value to become most frequent (C25)."
  },
  {
   "property": "C72",
   "status": "proved",
   "theorems": [
    "C72_common",
    "C72_same",
    "C72_function_refuted",
    "C72_contains_parsed",
    "C72_contains_refuted",
    "C72_truth_values"
   ],
   "note": "The expected property holds except in Turkish and Azeri default locales, where it is refuted in general (the _refuted theorems). toLowerCase and toUpperCase are those of the Java API documentation on ASCII letters."
  },
  {
   "property": "C73",
   "status": "proved",
   "theorems": [
    "C73_written",
    "C73_any_text",
    "C73_words",
    "C73_depth",
    "C73_chain",
    "C73_linear_refuted"
   ],
   "note": "The linear bound is refuted for arbitrary accepted texts (C73_linear_refuted, with the exact depth in C73_chain); it is proved for written expressions, and a quadratic one for all texts. Objects are the nodes of the tree; the values in them are not counted."
  },
  {
   "property": "C74",
   "status": "proved",
   "theorems": [
    "C74_in",
    "C74_in_not_finite",
    "C74_contains",
    "C74_missing",
    "C74_failing",
    "C74_range",
    "C74_range_missing"
   ],
   "note": "With C01, C12, C63, C67 and C71 every node of a tree has its outcome on values of all types. Integers are within the range of their Java types and dates within the calendar (stands)."
  },
  {
   "property": "C75",
   "status": "proved",
   "theorems": [
    "C75_decimals",
    "C75_operators",
    "C75_quotient",
    "C75_power",
    "C75_negation",
    "C75_extremes",
    "C75_sum",
    "C75_average",
    "C75_median",
    "C75_mode",
    "C75_printed",
    "C75_text_equal",
    "C75_text_refuted",
    "C75_exponent"
   ],
   "note": "The scale of BigDecimal results is modelled as an unbounded integer (see BigDec.v). C75_text_refuted refutes that a text denoting the value of a result is equal to it."
  },
  {
   "property": "C76",
   "status": "proved",
   "theorems": [
    "C76_operator",
    "C76_negation",
    "C76_call"
   ],
   "note": "The specification is complete: it determines the outcome. The power of two numbers is taken from the environment (Math.pow is not modelled), as in C67."
  },
  {
   "property": "C77",
   "status": "proved",
   "theorems": [
    "C77_value",
    "C77_answer",
    "C77_sentence",
    "C77_one_value",
    "C77_one_answer",
    "C77_texts",
    "C77_lengths"
   ],
   "note": "The rules are inductive definitions (SpecMeaning); single comparisons, list tests, operators and calls come from the specifications of C63, C74 and C76. LEN is assumed to be asked only of texts and lists that fit into a Java array. Malformed texts with ranges that are not between numbers are excluded from the theorem on conditions (hypothesis numeric_ranges), and every sentence of the grammar meets it (C77_sentence)."
  },
  {
   "property": "C78",
   "status": "proved",
   "theorems": [
    "C78_places",
    "C78_fits"
   ],
   "note": "This bounds what the model leaves out: its BigDecimal has an unbounded scale, Java's is an int. Math.pow's results are assumed to be doubles (exponent at least -1074), LEN as in C77."
  },
  {
   "property": "C79",
   "status": "proved",
   "theorems": [
    "C79_position",
    "C79_side",
    "C79_written",
    "C79_thresholds",
    "C79_thresholds_written",
    "C79_transitive_refuted"
   ],
   "note": "The labels ga and final, and a dash with 0, are covered by C70 only where nothing follows them; for other texts beginning so C79_position still gives a place, but C79_side does not say which. The circle of versions is a property of the ComparableVersion class the library uses."
  },
  {
   "property": "C80",
   "status": "proved",
   "theorems": [
    "C80_renamed",
    "C80_renamed_arithmetic",
    "C80_nested",
    "C80_nested_arithmetic",
    "C80_literal_refuted",
    "C80_null_refuted"
   ],
   "note": "For well-formed texts (sentences of the grammar). The exceptions are C80_literal_refuted and C80_null_refuted."
  },
  {
   "property": "C81",
   "status": "proved",
   "theorems": [
    "C81_same",
    "C81_same_arithmetic",
    "C81_speaks",
    "C81_speaks_arithmetic",
    "C81_missing",
    "C81_missing_arithmetic",
    "C81_comparison",
    "C81_operator",
    "C81_negation",
    "C81_call",
    "C81_side_refuted",
    "C81_value_left",
    "C81_value_refuted",
    "C81_right_refuted",
    "C81_words",
    "C81_distinct",
    "C81_condition"
   ],
   "note": "Messages of the library's own exceptions during evaluation; those of the JDK's exceptions and of a malformed text are not modelled. The exceptions are C81_side_refuted, C81_value_refuted and C81_right_refuted. C81_condition gives the name of each kind of condition. The words used for operators, types and functions are checked against a separate table and are distinct."
  },
  {
   "property": "C82",
   "status": "proved",
   "theorems": [
    "C82_plain",
    "C82_plain_arithmetic",
    "C82_gets",
    "C82_gets_arithmetic",
    "C82_field",
    "C82_field_one",
    "C82_throws",
    "C82_throws_arithmetic",
    "C82_null_map",
    "C82_null_map_arithmetic",
    "C82_cast_refuted",
    "C82_null_text",
    "C82_cached_others",
    "C82_cached_same",
    "C82_cached_null",
    "C82_cached_null_refuted"
   ],
   "note": "A map object is a function of the key: get has no side effects here (maps that change meanwhile are C68's). The exceptions are C82_cast_refuted and C82_cached_null_refuted."
  },
  {
   "property": "C83",
   "status": "proved",
   "theorems": [
    "C83_magnitude",
    "C83_length",
    "C83_digits",
    "C83_words"
   ],
   "note": "Math.pow's results are assumed to be finite doubles (m * 2^e, e at least -1074, below 2^1024), LEN as in C77."
  },
  {
   "property": "C84",
   "status": "proved",
   "theorems": [
    "C84_condition",
    "C84_formula",
    "C84_condition_meaning",
    "C84_formula_meaning",
    "C84_negated_twice",
    "C84_two_sides_refuted"
   ],
   "note": "Comparisons with two compound sides are outside the conditions covered: C84_two_sides_refuted shows that the obvious text fails. Arguments of calls are fields and literals, as in C37."
  },
  {
   "property": "C85",
   "status": "proved",
   "theorems": [
    "C85_alone",
    "C85_first",
    "C85_second_refuted"
   ],
   "note": "After AND and OR the property fails: C85_second_refuted, a general theorem."
  },
  {
   "property": "C86",
   "status": "proved",
   "theorems": [
    "C86_same",
    "C86_same_arithmetic",
    "C86_quotes",
    "C86_speaks",
    "C86_speaks_arithmetic",
    "C86_swallowed",
    "C86_swallowed_bare",
    "C86_plain",
    "C86_operands",
    "C86_array_refuted"
   ],
   "note": "For texts with a syntax error the messages are not modelled (the quoted text contains what ANTLR's recovery put in). C86_array_refuted is about the wording only."
  },
  {
   "property": "C87",
   "status": "proved",
   "theorems": [
    "C87_left_to_right",
    "C87_all",
    "C87_none",
    "C87_nested",
    "C87_arithmetic",
    "C87_grouped_somehow",
    "C87_grouped_once",
    "C87_same_operator",
    "C87_superfluous"
   ],
   "note": "A row may not begin with an IN, a range or a CONTAINS followed by a comparison (mishandled, C38). Sides of comparisons that are compound stand in parentheses (comparison operators bind tighter than arithmetic, C36); arguments of calls are fields and literals, as in C37."
  },
  {
   "property": "C88",
   "status": "proved",
   "theorems": [
    "C88_trend",
    "C88_text",
    "C88_stays_true",
    "C88_field_rises",
    "C88_literal_rises",
    "C88_sum_rises",
    "C88_sum_refuted"
   ],
   "note": "Which operands rise is a hypothesis on their values; C88_field_rises, C88_literal_rises and C88_sum_rises discharge it for fields, literals and sums. C88_sum_refuted shows that the hypothesis is needed for sums."
  },
  {
   "property": "C89",
   "status": "proved",
   "theorems": [
    "C89_any",
    "C89_all",
    "C89_in",
    "C89_in_end",
    "C89_len_rises",
    "C89_max_rises",
    "C89_min_rises",
    "C89_sum_rises",
    "C89_int_rises",
    "C89_decimal_rises",
    "C89_request_refuted"
   ],
   "note": "Exactness of MIN, MAX and SUM is a hypothesis (precise: a decimal among the members, or whole numbers within 2^53), because beyond it the code goes through doubles (C21, C22). C88_trend and C88_text cover the combinations with NOT, AND and OR; C89_request_refuted shows that the request must stay of one type."
  },
  {
   "property": "C90",
   "status": "proved",
   "theorems": [
    "C90_condition",
    "C90_text",
    "C90_field",
    "C90_literal",
    "C90_arithmetic",
    "C90_quotient",
    "C90_int",
    "C90_both_ways",
    "C90_negate_refuted",
    "C90_modulus_refuted",
    "C90_text_refuted",
    "C90_contains_refuted",
    "C90_difference_refuted"
   ],
   "note": "The exceptions in the statement are theorems of their own (C90_negate_refuted, C90_modulus_refuted, C90_text_refuted, C90_contains_refuted, C90_difference_refuted)."
  },
  {
   "property": "C91",
   "status": "proved",
   "theorems": [
    "C91_alone",
    "C91_first",
    "C91_later_refuted",
    "C91_arithmetic_refuted"
   ],
   "note": "The library breaks the property in later places: C91_later_refuted and C91_arithmetic_refuted say for all inputs what it answers instead."
  },
  {
   "property": "C92",
   "status": "proved",
   "theorems": [
    "C92_rejected_refuted",
    "C92_difference"
   ],
   "note": "The expectation fails: C92_rejected_refuted holds for every text with such a comparison. C92_difference is the way around it. Two calls without parentheses are compared (C85)."
  },
  {
   "property": "C93",
   "status": "proved",
   "theorems": [
    "C93_course",
    "C93_text",
    "C93_stays_true",
    "C93_field",
    "C93_literal",
    "C93_texts_refuted",
    "C93_two_parts_refuted"
   ],
   "note": "C93_text and C93_stays_true for dates, date-times and versions; C93_texts_refuted and C93_two_parts_refuted where the expectation fails."
  },
  {
   "property": "C94",
   "status": "proved",
   "theorems": [
    "C94_condition",
    "C94_text",
    "C94_numeral",
    "C94_numeral_unique",
    "C94_sum_refuted",
    "C94_fraction_refuted",
    "C94_equal_refuted",
    "C94_both_refuted"
   ],
   "note": "C94_condition and C94_text within the limits; the four refuted theorems show the limits are needed."
  },
  {
   "property": "C95",
   "status": "proved",
   "theorems": [
    "C95_condition",
    "C95_text",
    "C95_field",
    "C95_literal",
    "C95_elapsed",
    "C95_contains_refuted",
    "C95_elapsed_refuted"
   ],
   "note": "C95_condition and C95_text for comparisons and lists, C95_elapsed for DAYS_ELAPSED; the two refuted theorems show the limits are needed."
  },
  {
   "property": "C96",
   "status": "proved",
   "theorems": [
    "C96_condition",
    "C96_text",
    "C96_in",
    "C96_contains",
    "C96_call",
    "C96_compared",
    "C96_members",
    "C96_permuted",
    "C96_in_refuted",
    "C96_compared_refuted",
    "C96_mode_refuted"
   ],
   "note": "C96_condition and C96_text (never the opposite answer), C96_in, C96_contains and C96_call (exactly the same outcome); the three refuted theorems show the limits."
  },
  {
   "property": "C97",
   "status": "proved",
   "theorems": [
    "C97_mirror",
    "C97_itself",
    "C97_replace",
    "C97_transitive",
    "C97_text_refuted",
    "C97_version_refuted"
   ],
   "note": "C97_mirror and C97_itself for all values, C97_replace and C97_transitive within a family; the two refuted theorems show what happens across families."
  },
  {
   "property": "C98",
   "status": "proved",
   "theorems": [
    "C98_printed",
    "C98_equal",
    "C98_order",
    "C98_number",
    "C98_against_decimal",
    "C98_whole_refuted",
    "C98_other_refuted"
   ],
   "note": "C98_equal and C98_order for all values, C98_number and C98_against_decimal for numbers; the two refuted theorems show the limits. C98_printed says how whole numbers are written."
  }
 ]
}