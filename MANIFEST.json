{
 "claims": [
  {
   "property": "C01",
   "status": "proved",
   "theorems": [
    "C01_evaluate_total",
    "C01_evaluator_new_returns"
   ],
   "note": ""
  },
  {
   "property": "C02",
   "status": "proved",
   "theorems": [
    "C02_five_card_class"
   ],
   "note": ""
  },
  {
   "property": "C03",
   "status": "proved",
   "theorems": [
    "C03_comparison"
   ],
   "note": ""
  },
  {
   "property": "C04",
   "status": "proved",
   "theorems": [
    "C04_best_five"
   ],
   "note": ""
  },
  {
   "property": "C05",
   "status": "proved",
   "theorems": [
    "C05_order_irrelevant"
   ],
   "note": ""
  },
  {
   "property": "C06",
   "status": "proved",
   "theorems": [
    "C06_suits_interchangeable"
   ],
   "note": ""
  },
  {
   "property": "C07",
   "status": "proved",
   "theorems": [
    "C07_more_cards"
   ],
   "note": ""
  },
  {
   "property": "C08",
   "status": "proved",
   "theorems": [
    "C08_exactly_7462_values"
   ],
   "note": ""
  },
  {
   "property": "C09",
   "status": "proved",
   "theorems": [
    "C09_bounds",
    "C09_bounds_attained",
    "C09_royal_flush"
   ],
   "note": ""
  },
  {
   "property": "C10",
   "status": "proved",
   "theorems": [
    "C10_total_order",
    "C10_methods"
   ],
   "note": ""
  },
  {
   "property": "C11",
   "status": "proved",
   "theorems": [
    "C11_predicates"
   ],
   "note": ""
  },
  {
   "property": "C12",
   "status": "proved",
   "theorems": [
    "C12_class_order"
   ],
   "note": ""
  },
  {
   "property": "C13",
   "status": "proved",
   "theorems": [
    "C13_layout",
    "C13_identity"
   ],
   "note": ""
  },
  {
   "property": "C14",
   "status": "proved",
   "theorems": [
    "C14_accepted",
    "C14_parse_print",
    "C14_print_parse",
    "C14_text"
   ],
   "note": ""
  },
  {
   "property": "C15",
   "status": "proved",
   "theorems": [
    "C15_parse_errors",
    "C15_message"
   ],
   "note": ""
  },
  {
   "property": "C16",
   "status": "proved",
   "theorems": [
    "C16_try_from_chars"
   ],
   "note": ""
  },
  {
   "property": "C17",
   "status": "proved",
   "theorems": [
    "C17_one_result_per_string",
    "C17_collect_ok",
    "C17_collect_first_error",
    "C17_other_methods_agree"
   ],
   "note": ""
  },
  {
   "property": "C18",
   "status": "proved",
   "theorems": [
    "C18_words",
    "C18_words_are_words",
    "C18_any_layout",
    "C18_idents"
   ],
   "note": ""
  },
  {
   "property": "C19",
   "status": "proved",
   "theorems": [
    "C19_deck"
   ],
   "note": ""
  },
  {
   "property": "C20",
   "status": "proved",
   "theorems": [
    "C20_shuffled",
    "C20_dealt_cards_evaluate",
    "C20_every_order_reachable"
   ],
   "note": ""
  },
  {
   "property": "C21",
   "status": "proved",
   "theorems": [
    "C21_concatenates",
    "C21_hand_and_board_commute"
   ],
   "note": ""
  },
  {
   "property": "C22",
   "status": "partial",
   "theorems": [
    "C22_order_laws_partial",
    "C22_equal_iff_eq_refuted",
    "C22_text_refuted"
   ],
   "note": "The clause 'Equal iff ==' is false of the code: Ord compares ranks only, Eq compares cards. Refuted with As/Ah; every other clause is proved."
  },
  {
   "property": "C23",
   "status": "partial",
   "theorems": [
    "C23_reports_characters_refuted",
    "C23_reports_characters_partial",
    "C23_reports_bytes",
    "C23_bytes_are_characters",
    "C23_misleading",
    "C23_text_refuted"
   ],
   "note": "False as stated: the message reports bytes. Refuted with the one-character string U+00E9, whose message says 'length 2, expected 2'; proved for ASCII input."
  },
  {
   "property": "C24",
   "status": "proved",
   "theorems": [
    "C24_lists_duplicates"
   ],
   "note": ""
  },
  {
   "property": "C25",
   "status": "partial",
   "theorems": [
    "C25_default_refuted",
    "C25_new_and_clones_partial",
    "C25_text_refuted"
   ],
   "note": "False for default(): #[derive(Default)] leaves the tables empty and every five-card evaluation panics. Proved for new() and clones."
  },
  {
   "property": "C26",
   "status": "proved",
   "theorems": [
    "C26_same_tables",
    "C26_tables_passing_the_test",
    "C26_test_does_not_fix_the_class"
   ],
   "note": "The generated files themselves are not part of the checkout. Holds when the embedded tables equal the built ones. The build-time test alone does not fix the class (C26_test_does_not_fix_the_class); what it does fix is C26_tables_passing_the_test."
  },
  {
   "property": "C27",
   "status": "proved",
   "theorems": [
    "C27_each_call_as_if_alone",
    "C27_every_thread_finishes",
    "C27_join_order_irrelevant",
    "C27_best_of_threads"
   ],
   "note": ""
  },
  {
   "property": "C28",
   "status": "proved",
   "theorems": [
    "C28_combinations",
    "C28_too_few",
    "C28_sequence_determined"
   ],
   "note": ""
  },
  {
   "property": "C29",
   "status": "proved",
   "theorems": [
    "C29_ties",
    "C29_equal_results"
   ],
   "note": ""
  },
  {
   "property": "C30",
   "status": "proved",
   "theorems": [
    "C30_text",
    "C30_text_determines_class"
   ],
   "note": ""
  },
  {
   "property": "C31",
   "status": "proved",
   "theorems": [
    "C31_turn",
    "C31_program"
   ],
   "note": "An overflow panic (debug builds) is possible after 2^52 lines of input, and only for this reason."
  },
  {
   "property": "C32",
   "status": "proved",
   "theorems": [
    "C32_ledger"
   ],
   "note": ""
  },
  {
   "property": "C33",
   "status": "partial",
   "theorems": [
    "C33_chart_refuted",
    "C33_chart_partial",
    "C33_paid",
    "C33_better_class_pays_no_less",
    "C33_jacks_or_better"
   ],
   "note": "The README table disagrees with the code for straight flush and royal flush. Refuted with witnesses; what the code does pay is proved."
  },
  {
   "property": "C34",
   "status": "proved",
   "theorems": [
    "C34_repl"
   ],
   "note": ""
  },
  {
   "property": "C35",
   "status": "proved",
   "theorems": [
    "C35_table_contents",
    "C35_rank_numbers",
    "C35_no_overwriting",
    "C35_products_differ"
   ],
   "note": ""
  },
  {
   "property": "C36",
   "status": "proved",
   "theorems": [
    "C36_odds"
   ],
   "note": ""
  },
  {
   "property": "C37",
   "status": "proved",
   "theorems": [
    "C37_next_pattern",
    "C37_all_patterns"
   ],
   "note": ""
  },
  {
   "property": "C38",
   "status": "proved",
   "theorems": [
    "C38_rank_chars",
    "C38_suit_chars",
    "C38_display",
    "C38_equality"
   ],
   "note": ""
  },
  {
   "property": "C39",
   "status": "proved",
   "theorems": [
    "C39_wager",
    "C39_swaps",
    "C39_numbers",
    "C39_answers_determined"
   ],
   "note": ""
  },
  {
   "property": "C40",
   "status": "proved",
   "theorems": [
    "C40_five_of_a_suit",
    "C40_four_of_a_rank",
    "C40_whole_deck"
   ],
   "note": ""
  },
  {
   "property": "C41",
   "status": "partial",
   "theorems": [
    "C41_draw_partial",
    "C41_any_draw",
    "C41_discards_gone_refuted"
   ],
   "note": "The clause 'a discarded card is out of play' is false of the code: discards go back into the deck before the redeal, so even the same hand can be dealt back. Every other clause is proved."
  },
  {
   "property": "C42",
   "status": "proved",
   "theorems": [
    "C42_always_a_move"
   ],
   "note": ""
  },
  {
   "property": "C43",
   "status": "proved",
   "theorems": [
    "C43_size_guarantees",
    "C43_size_tight",
    "C43_best_from_49",
    "C43_not_from_48"
   ],
   "note": ""
  },
  {
   "property": "C44",
   "status": "proved",
   "theorems": [
    "C44_weakest_bound",
    "C44_weakest_attained"
   ],
   "note": ""
  },
  {
   "property": "C45",
   "status": "proved",
   "theorems": [
    "C45_one_script_per_order",
    "C45_every_script_shuffles",
    "C45_bounds_asked"
   ],
   "note": "The claim is about the numbers rand answers; C59 goes down to the words it draws. The generator of the words is not modelled (see DESIGN.md)."
  },
  {
   "property": "C46",
   "status": "proved",
   "theorems": [
    "C46_equivalence",
    "C46_equal_evaluators_agree",
    "C46_built_are_equal",
    "C46_built_not_default"
   ],
   "note": ""
  },
  {
   "property": "C47",
   "status": "proved",
   "theorems": [
    "C47_both_ends"
   ],
   "note": "The DoubleEndedIterator and ExactSizeIterator impls exist, but parse_to_iter returns ParseToIter<impl Iterator>, so callers outside the crate cannot use them on its result (finding in DESIGN.md)."
  },
  {
   "property": "C48",
   "status": "proved",
   "theorems": [
    "C48_best_pattern"
   ],
   "note": ""
  },
  {
   "property": "C49",
   "status": "proved",
   "theorems": [
    "C49_six_card_odds",
    "C49_seven_card_odds"
   ],
   "note": ""
  },
  {
   "property": "C50",
   "status": "proved",
   "theorems": [
    "C50_class",
    "C50_compare"
   ],
   "note": ""
  },
  {
   "property": "C51",
   "status": "proved",
   "theorems": [
    "C51_rejected",
    "C51_accepted",
    "C51_number"
   ],
   "note": ""
  },
  {
   "property": "C52",
   "status": "proved",
   "theorems": [
    "C52_deals",
    "C52_hands",
    "C52_odds"
   ],
   "note": ""
  },
  {
   "property": "C53",
   "status": "proved",
   "theorems": [
    "C53_cards",
    "C53_classes",
    "C53_results",
    "C53_errors",
    "C53_card_text",
    "C53_class_text",
    "C53_result_text",
    "C53_error_text",
    "C53_hash",
    "C53_hash_separates"
   ],
   "note": "Debug of ParseCardError is C63, of Evaluator C68; no caller can print a ParseToIter (see DESIGN.md)."
  },
  {
   "property": "C54",
   "status": "proved",
   "theorems": [
    "C54_skipped",
    "C54_succeeds",
    "C54_footprint",
    "C54_offline",
    "C54_status_ignored"
   ],
   "note": "The URL's content is not part of the checkout; the claim is about any content."
  },
  {
   "property": "C55",
   "status": "proved",
   "theorems": [
    "C55_return"
   ],
   "note": ""
  },
  {
   "property": "C56",
   "status": "proved",
   "theorems": [
    "C56_shuffles",
    "C56_bounds",
    "C56_draw"
   ],
   "note": ""
  },
  {
   "property": "C57",
   "status": "proved",
   "theorems": [
    "C57_classes",
    "C57_strict",
    "C57_ranks"
   ],
   "note": ""
  },
  {
   "property": "C58",
   "status": "proved",
   "theorems": [
    "C58_classes_reported",
    "C58_number"
   ],
   "note": ""
  },
  {
   "property": "C59",
   "status": "proved",
   "theorems": [
    "C59_index_unbiased",
    "C59_index_range",
    "C59_refines",
    "C59_shuffle_fair"
   ],
   "note": "rand is a dependency, not part of /repo: ModelRand.v is written from memory of the published version 0.8.5 and was not compared with its source, which is not available in the sandbox. ChaCha12, which makes the words, is not modelled."
  },
  {
   "property": "C60",
   "status": "proved",
   "theorems": [
    "C60_printed",
    "C60_read_back"
   ],
   "note": ""
  },
  {
   "property": "C61",
   "status": "proved",
   "theorems": [
    "C61_hands_alike"
   ],
   "note": ""
  },
  {
   "property": "C62",
   "status": "proved",
   "theorems": [
    "C62_six_cards",
    "C62_seven_cards"
   ],
   "note": ""
  },
  {
   "property": "C63",
   "status": "proved",
   "theorems": [
    "C63_text",
    "C63_reads",
    "C63_apart",
    "C63_one_line",
    "C63_plain"
   ],
   "note": "The standard library's escaping is written from memory; its Unicode tables are an arbitrary predicate."
  },
  {
   "property": "C64",
   "status": "proved",
   "theorems": [
    "C64_card",
    "C64_cards",
    "C64_box_cards",
    "C64_two_variables",
    "C64_no_form"
   ],
   "note": "Tokens are simplified: an expression is one token (see ModelMacros.v)."
  },
  {
   "property": "C65",
   "status": "proved",
   "theorems": [
    "C65_shows",
    "C65_jacks",
    "C65_repl",
    "C65_prompt",
    "C65_both_prompts",
    "C65_any_input_refuted"
   ],
   "note": "The escape sequences of the colored crate are written from memory of version 2. The second half, about input with escape characters, is C65_any_input_refuted."
  },
  {
   "property": "C66",
   "status": "proved",
   "theorems": [
    "C66_readme",
    "C66_lines",
    "C66_odds",
    "C66_threads"
   ],
   "note": "Equally likely answers of rand are an assumption here (see C45, C59)."
  },
  {
   "property": "C67",
   "status": "proved",
   "theorems": [
    "C67_winners",
    "C67_winners_read_off",
    "C67_somebody_wins",
    "C67_winners_tie",
    "C67_same_ranks_tie",
    "C67_not_below_board"
   ],
   "note": ""
  },
  {
   "property": "C68",
   "status": "proved",
   "theorems": [
    "C68_one_line",
    "C68_same_characters",
    "C68_class_lines",
    "C68_result_lines",
    "C68_error_lines",
    "C68_classes_apart",
    "C68_results_apart",
    "C68_errors_apart",
    "C68_evaluator"
   ],
   "note": "The standard library's builders for {:?} and {:#?} are written from memory."
  },
  {
   "property": "C69",
   "status": "proved",
   "theorems": [
    "C69_positions",
    "C69_dealings",
    "C69_seats"
   ],
   "note": "Equally likely answers of rand are an assumption here (see C45, C59)."
  },
  {
   "property": "C70",
   "status": "proved",
   "theorems": [
    "C70_suite_passes",
    "C70_static_suite_passes",
    "C70_tables_test",
    "C70_static_combos",
    "C70_tools"
   ],
   "note": ""
  },
  {
   "property": "C71",
   "status": "proved",
   "theorems": [
    "C71_turned_away",
    "C71_missing",
    "C71_found",
    "C71_agreement",
    "C71_agreement_with_new"
   ],
   "note": ""
  },
  {
   "property": "C72",
   "status": "proved",
   "theorems": [
    "C72_next",
    "C72_lazy",
    "C72_fold",
    "C72_vec",
    "C72_vec_fails",
    "C72_endless",
    "C72_any_collection",
    "C72_any_collection_fails",
    "C72_whatever_collection",
    "C72_list"
   ],
   "note": ""
  },
  {
   "property": "C73",
   "status": "proved",
   "theorems": [
    "C73_five_carry",
    "C73_fewer_cards",
    "C73_parts",
    "C73_parts_of_a_size",
    "C73_one_card_less",
    "C73_results_do_not_add_up"
   ],
   "note": ""
  },
  {
   "property": "C74",
   "status": "proved",
   "theorems": [
    "C74_cards",
    "C74_evaluator",
    "C74_evaluate",
    "C74_methods",
    "C74_combinations",
    "C74_patterns",
    "C74_turn",
    "C74_program"
   ],
   "note": ""
  },
  {
   "property": "C75",
   "status": "proved",
   "theorems": [
    "C75_display",
    "C75_to_string",
    "C75_debug",
    "C75_debug_default",
    "C75_debug_without_numbers",
    "C75_debug_numbers",
    "C75_width",
    "C75_digits",
    "C75_one_numeral",
    "C75_full_buffer",
    "C75_nothing_lost"
   ],
   "note": "core::fmt is written from memory of the standard library. A quoted text within {:?} is handed over in one piece here, in several by the standard library."
  },
  {
   "property": "C76",
   "status": "proved",
   "theorems": [
    "C76_read",
    "C76_64",
    "C76_turn",
    "C76_wider",
    "C76_program",
    "C76_release"
   ],
   "note": ""
  },
  {
   "property": "C77",
   "status": "proved",
   "theorems": [
    "C77_game",
    "C77_asked",
    "C77_going",
    "C77_no_panic",
    "C77_piped",
    "C77_repl",
    "C77_repl_lines",
    "C77_repl_answered"
   ],
   "note": ""
  },
  {
   "property": "C78",
   "status": "proved",
   "theorems": [
    "C78_place",
    "C78_category",
    "C78_all_places",
    "C78_ahead",
    "C78_behind"
   ],
   "note": ""
  },
  {
   "property": "C79",
   "status": "proved",
   "theorems": [
    "C79_orders",
    "C79_result_operators",
    "C79_card_operators",
    "C79_rank_operators",
    "C79_class_operators",
    "C79_choosing",
    "C79_clamp",
    "C79_sorting",
    "C79_sorted_hand",
    "C79_sorted_results",
    "C79_collecting",
    "C79_card_set",
    "C79_card_set_evaluated",
    "C79_result_set",
    "C79_sort_dedup_results",
    "C79_sort_dedup_cards_refuted"
   ],
   "note": ""
  },
  {
   "property": "C80",
   "status": "proved",
   "theorems": [
    "C80_one_average",
    "C80_exchange",
    "C80_stand",
    "C80_renew",
    "C80_low_pair",
    "C80_sensible",
    "C80_beaten"
   ],
   "note": ""
  },
  {
   "property": "C81",
   "status": "proved",
   "theorems": [
    "C81_credits",
    "C81_sensible",
    "C81_stand",
    "C81_typed",
    "C81_plans"
   ],
   "note": ""
  },
  {
   "property": "C82",
   "status": "proved",
   "theorems": [
    "C82_any_questions",
    "C82_next",
    "C82_whole_deck"
   ],
   "note": ""
  },
  {
   "property": "C83",
   "status": "proved",
   "theorems": [
    "C83_dictionary",
    "C83_keys",
    "C83_tables",
    "C83_counts",
    "C83_swaps",
    "C83_card_set",
    "C83_result_set"
   ],
   "note": "The code of the standard library's and rustc-hash's maps is not in /repo: ModelHash.v is written from memory, one slot searched at a time."
  },
  {
   "property": "C84",
   "status": "proved",
   "theorems": [
    "C84_lookup",
    "C84_tested",
    "C84_entries_test",
    "C84_entries_test_alone",
    "C84_combos_test_alone",
    "C84_generated",
    "C84_docs"
   ],
   "note": "phf 0.11 is written from memory; SipHash is an arbitrary function. Where phf divides by zero the model finds nothing, which panics as well."
  },
  {
   "property": "C85",
   "status": "proved",
   "theorems": [
    "C85_opponents",
    "C85_rivals",
    "C85_pairs",
    "C85_ties",
    "C85_wins"
   ],
   "note": ""
  },
  {
   "property": "C86",
   "status": "proved",
   "theorems": [
    "C86_flush",
    "C86_quads",
    "C86_full_house",
    "C86_straight",
    "C86_straight_flush",
    "C86_dry"
   ],
   "note": ""
  },
  {
   "property": "C87",
   "status": "proved",
   "theorems": [
    "C87_readable",
    "C87_cards",
    "C87_parse",
    "C87_compare"
   ],
   "note": "About the text of src/ as read by RustSyntax.v and run by RustSemantics.v, a parser and an interpreter written for this text (see DESIGN.md)."
  },
  {
   "property": "C88",
   "status": "proved",
   "theorems": [
    "C88_new",
    "C88_errors",
    "C88_five",
    "C88_versus",
    "C88_best"
   ],
   "note": "About the text of src/ as read by RustSyntax.v and run by RustSemantics.v, a parser and an interpreter written for this text (see DESIGN.md)."
  },
  {
   "property": "C89",
   "status": "proved",
   "theorems": [
    "C89_combos",
    "C89_short"
   ],
   "note": "About the text of src/ as read by RustSyntax.v and run by RustSemantics.v, a parser and an interpreter written for this text (see DESIGN.md)."
  },
  {
   "property": "C90",
   "status": "proved",
   "theorems": [
    "C90_results"
   ],
   "note": "About the text of src/ as read by RustSyntax.v and run by RustSemantics.v, a parser and an interpreter written for this text (see DESIGN.md)."
  },
  {
   "property": "C91",
   "status": "proved",
   "theorems": [
    "C91_cards",
    "C91_classes",
    "C91_parse_errors",
    "C91_size_errors",
    "C91_duplicates"
   ],
   "note": "About the text of src/ as read by RustSyntax.v and run by RustSemantics.v, a parser and an interpreter written for this text (see DESIGN.md)."
  },
  {
   "property": "C92",
   "status": "proved",
   "theorems": [
    "C92_deck"
   ],
   "note": "About the text of src/ as read by RustSyntax.v and run by RustSemantics.v, a parser and an interpreter written for this text (see DESIGN.md)."
  },
  {
   "property": "C93",
   "status": "proved",
   "theorems": [
    "C93_chars",
    "C93_strings",
    "C93_fold"
   ],
   "note": "About the text of src/ as read by RustSyntax.v and run by RustSemantics.v, a parser and an interpreter written for this text (see DESIGN.md)."
  },
  {
   "property": "C94",
   "status": "proved",
   "theorems": [
    "C94_results",
    "C94_cards"
   ],
   "note": "About the text of src/ as read by RustSyntax.v and run by RustSemantics.v, a parser and an interpreter written for this text (see DESIGN.md). A hasher is the list of integers fed to it; which impls are derived is part of the interpreter."
  },
  {
   "property": "C95",
   "status": "proved",
   "theorems": [
    "C95_shuffled",
    "C95_orders"
   ],
   "note": "About the text of src/ as read by RustSyntax.v and run by RustSemantics.v, a parser and an interpreter written for this text (see DESIGN.md). The shuffle of the rand crate is written from memory."
  },
  {
   "property": "C96",
   "status": "proved",
   "theorems": [
    "C96_bounds"
   ],
   "note": "About the text of src/ as read by RustSyntax.v and run by RustSemantics.v, a parser and an interpreter written for this text (see DESIGN.md)."
  },
  {
   "property": "C97",
   "status": "proved",
   "theorems": [
    "C97_order",
    "C97_suits",
    "C97_more",
    "C97_laws"
   ],
   "note": "About the text of src/ as read by RustSyntax.v and run by RustSemantics.v, a parser and an interpreter written for this text (see DESIGN.md)."
  },
  {
   "property": "C98",
   "status": "proved",
   "theorems": [
    "C98_cards",
    "C98_evaluate",
    "C98_results",
    "C98_written"
   ],
   "note": "About the text of src/ as read by RustSyntax.v and run by RustSemantics.v, a parser and an interpreter written for this text (see DESIGN.md)."
  },
  {
   "property": "C99",
   "status": "proved",
   "theorems": [
    "C99_five",
    "C99_six",
    "C99_seven",
    "C99_values"
   ],
   "note": "About the text of src/ as read by RustSyntax.v and run by RustSemantics.v, a parser and an interpreter written for this text (see DESIGN.md)."
  },
  {
   "property": "C100",
   "status": "proved",
   "theorems": [
    "C100_class",
    "C100_versus",
    "C100_showdown"
   ],
   "note": "About the text of src/ as read by RustSyntax.v and run by RustSemantics.v, a parser and an interpreter written for this text (see DESIGN.md)."
  },
  {
   "property": "C101",
   "status": "proved",
   "theorems": [
    "C101_unique",
    "C101_index",
    "C101_index_apart",
    "C101_hand_product",
    "C101_bits_product",
    "C101_high_rank",
    "C101_tables",
    "C101_numbers",
    "C101_next_pattern"
   ],
   "note": "About the text of src/ as read by RustSyntax.v and run by RustSemantics.v, a parser and an interpreter written for this text (see DESIGN.md)."
  },
  {
   "property": "C102",
   "status": "proved",
   "theorems": [
    "C102_size",
    "C102_size_tight",
    "C102_best_from_49",
    "C102_ties",
    "C102_classes",
    "C102_five_carry"
   ],
   "note": "About the text of src/ as read by RustSyntax.v and run by RustSemantics.v, a parser and an interpreter written for this text (see DESIGN.md)."
  },
  {
   "property": "C103",
   "status": "proved",
   "theorems": [
    "C103_best_pattern",
    "C103_parts",
    "C103_weakest",
    "C103_weakest_attained",
    "C103_board"
   ],
   "note": "About the text of src/ as read by RustSyntax.v and run by RustSemantics.v, a parser and an interpreter written for this text (see DESIGN.md)."
  }
 ]
}