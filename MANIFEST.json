{"claims":[
{"property": "C01", "status": "proved", "theorems": ["C01_get_returns_last_push", "C01_pushes_are_arguments", "C01_one_push_per_resumption", "C01_one_push_at_construction", "C01_all_delivered", "C01_sequence"], "note": ""},
{"property": "C02", "status": "proved", "theorems": ["C02_get_returns_last_push", "C02_push_transfers", "C02_one_push_at_entry", "C02_one_push_per_turn", "C02_sequence"], "note": ""},
{"property": "C03", "status": "proved", "theorems": ["C03_pull_eager", "C03_pull_entered", "C03_push_lazy", "C03_push_entered_by_push", "C03_first_push_enters", "C03_once"], "note": ""},
{"property": "C04", "status": "proved", "theorems": ["C04_code", "C04_acts", "C04_determined", "C04_code_unique", "C04_pending"], "note": "Code in control is its own code advanced by the results of its own calls; a pending context does nothing."},
{"property": "C05", "status": "proved", "theorems": ["C05_yield", "C05_end", "C05_returns_to_resumer", "C05_throws_to_resumer", "C05_constructor"], "note": "Yield, end and exception all go to the call by which the coroutine was resumed last."},
{"property": "C06", "status": "proved", "theorems": ["C06_bool", "C06_empty_origin", "C06_escaped_counterpart_refuted"], "note": ""},
{"property": "C07", "status": "proved", "theorems": ["C07_bool_not", "C07_not_bool", "C07_code"], "note": ""},
{"property": "C08", "status": "proved", "theorems": ["C08_returns_at_once", "C08_changes_nothing", "C08_code", "C08_future"], "note": ""},
{"property": "C09", "status": "proved", "theorems": ["C09_handed", "C09_tests_true", "C09_value_available"], "note": ""},
{"property": "C10", "status": "proved", "theorems": ["C10_constructor_throws", "C10_no_object", "C10_other_exceptions"], "note": ""},
{"property": "C11", "status": "proved", "theorems": ["C11_rethrown", "C11_only_there", "C11_complete_afterwards"], "note": ""},
{"property": "C12", "status": "proved", "theorems": ["C12_rethrown", "C12_only_there", "C12_constructor"], "note": ""},
{"property": "C13", "status": "proved", "theorems": ["C13_language", "C13_applies", "C13_raised", "C13_innermost_first", "C13_none_left", "C13_unwinds", "C13_before_release", "C13_before_return"], "note": "For functions written in a structured language with automatic objects, nested coroutine objects and try/catch (Cpp.v)."},
{"property": "C14", "status": "proved", "theorems": ["C14_destructor_nothrow", "C14_unwind_where", "C14_unwind_leaves", "C14_not_rethrown", "C14_destructor_returns"], "note": ""},
{"property": "C15", "status": "proved", "theorems": ["C15_never_runs", "C15_only_push", "C15_released"], "note": ""},
{"property": "C16", "status": "proved", "theorems": ["C16_no_code", "C16_only_releases"], "note": ""},
{"property": "C17", "status": "proved", "theorems": ["C17_allocated", "C17_one_per_construction", "C17_freed_once", "C17_freed_allocated", "C17_not_while_owned", "C17_not_while_running", "C17_freed_by_destructor", "C17_freed_by_throwing_constructor", "C17_freed_by_empty_constructor"], "note": ""},
{"property": "C18", "status": "proved", "theorems": ["C18_no_undefined_behaviour"], "note": ""},
{"property": "C19", "status": "proved", "theorems": ["C19_move_ctor", "C19_code"], "note": ""},
{"property": "C20", "status": "proved", "theorems": ["C20_assign", "C20_self", "C20_code", "C20_code_self", "C20_documented_refuted"], "note": ""},
{"property": "C21", "status": "proved", "theorems": ["C21_one_owner", "C21_owner_alive", "C21_owned_until_destroyed", "C21_memory", "C21_history_is_memory"], "note": ""},
{"property": "C22", "status": "proved", "theorems": ["C22_tests_false", "C22_destroy", "C22_move", "C22_code"], "note": ""},
{"property": "C23", "status": "proved", "theorems": ["C23_get_value", "C23_get_does_not_transfer"], "note": ""},
{"property": "C24", "status": "proved", "theorems": ["C24_get_reference", "C24_pushed_reference", "C24_nothing_destroyed"], "note": ""},
{"property": "C25", "status": "proved", "theorems": ["C25_at_most_one", "C25_none_leaked", "C25_throwing_copy_refuted"], "note": "Proved for all programs in which no copy/move into an occupied slot throws (the contract, Contract.v `spoiled`, rules out pushing to or destroying the coroutine after such a failure). The unrestricted claim is false: C25_throwing_copy_refuted shows a double destruction after a throwing copy."},
{"property": "C26", "status": "proved", "theorems": ["C26_failing_push"], "note": ""},
{"property": "C27", "status": "proved", "theorems": ["C27_stays_false", "C27_stays_not"], "note": ""},
{"property": "C28", "status": "proved", "theorems": ["C28_deref", "C28_increment", "C28_increment_throws", "C28_sequence", "C28_range_for", "C28_range_for_throws"], "note": ""},
{"property": "C29", "status": "proved", "theorems": ["C29_end_iff_false", "C29_compare"], "note": ""},
{"property": "C30", "status": "proved", "theorems": ["C30_assign_pushes", "C30_assign_pushes_ref", "C30_end_iff_false", "C30_reset", "C30_begin", "C30_documented_refuted"], "note": ""},
{"property": "C31", "status": "proved", "theorems": ["C31_empty", "C31_end_iterator", "C31_active", "C31_self", "C31_complete", "C31_counterpart"], "note": ""},
{"property": "C32", "status": "proved", "theorems": ["C32_swallow", "C32_yield"], "note": ""},
{"property": "C33", "status": "proved", "theorems": ["C33_touched", "C33_others", "C33_others_end"], "note": "Internal events concern the coroutine operated on, or ones destroyed with it; all others keep validity, value, progress and owner."},
{"property": "C34", "status": "proved", "theorems": ["C34_fits", "C34_waste", "C34_fits_old", "C34_align_bits", "C34_small_stack_refuted"], "note": ""},
{"property": "C35", "status": "proved", "theorems": ["C35_set", "C35_clear", "C35_toggle", "C35_double_complement", "C35_reachable"], "note": ""},
{"property": "C36", "status": "proved", "theorems": ["C36_variants_same_history", "C36_variants_same_outcome", "C36_same_contract"], "note": ""},
{"property": "C37", "status": "proved", "theorems": ["C37_throwing_constructor", "C37_allocation_fails", "C37_copy_fails", "C37_copy_failure_leaks", "C37_copy_failure_refuted"], "note": ""},
{"property": "C38", "status": "proved", "theorems": ["C38_histories_agree", "C38_one_outcome"], "note": ""},
{"property": "C39", "status": "proved", "theorems": ["C39_same_fringe", "C39_prefix", "C39_longer"], "note": "all trees; prefix and undefined cases of std::equal stated separately"},
{"property": "C40", "status": "proved", "theorems": ["C40_parser", "C40_function", "C40_sound", "C40_complete", "C40_rejected"], "note": "all texts; soundness and completeness with respect to the grammar; the example does not check the end of the text"},
{"property": "C41", "status": "proved", "theorems": ["C41_layout", "C41_last_row", "C41_full_row"], "note": "all word lists and num > 0"},
{"property": "C42", "status": "proved", "theorems": ["C42_objects", "C42_push_argument"], "note": ""},
{"property": "C43", "status": "proved", "theorems": ["C43_not_a_coroutine"], "note": ""},
{"property": "C44", "status": "proved", "theorems": ["C44_push_through", "C44_resume_through", "C44_destroy", "C44_code"], "note": ""},
{"property": "C45", "status": "proved", "theorems": ["C45_comes_back", "C45_forever"], "note": "PropsMore.v; the second theorem is the corollary for programs that never end"},
{"property": "C46", "status": "proved", "theorems": ["C46_sound", "C46_complete", "C46_ends"], "note": "PropsMore.v; the abstract machine is Spec.v"},
{"property": "C47", "status": "proved", "theorems": ["C47_fibonacci", "C47_lazy", "C47_first"], "note": "fibonacci.cpp for every n; a generator without end under a consumer that stops after n values"},
{"property": "C48", "status": "proved", "theorems": ["C48_disciplined", "C48_tidy", "C48_no_undefined_behaviour", "C48_range_for", "C48_pipeline", "C48_stopping", "C48_feeding"], "note": "static rules imply the contract, for all value types: the rules ask that a pushed value's own copy or move does not throw (with throwing ones see C25)"},
{"property": "C49", "status": "proved", "theorems": ["C49_owned", "C49_nothing_left", "C49_clean", "C49_stacks", "C49_functions", "C49_values"], "note": "C49_owned and C49_nothing_left need only the contract; C49_clean and its parts the scoping rules of C48; C49_forgotten shows what happens if an owner is left"},
{"property": "C50", "status": "proved", "theorems": ["C50_ends", "C50_throws", "C50_reaches", "C50_exactly", "C50_so_far", "C50_further", "C50_contract", "C50_clean", "C50_lists", "C50_map", "C50_filter", "C50_append", "C50_take", "C50_bind", "C50_walk", "C50_infinite"], "note": "for all programs of the generator language of Gens.v; meaning as lists of effects, exact in both directions; list corollaries"},
{"property": "C51", "status": "proved", "theorems": ["C51_same_meaning", "C51_unit", "C51_pass_on", "C51_map", "C51_filter", "C51_bind", "C51_append", "C51_take", "C51_take_all", "C51_unroll"], "note": "for all programs and contexts of the generator language; equivalence covers outputs, ends and programs without end"},
{"property": "C52", "status": "proved", "theorems": ["C52_ends", "C52_exactly", "C52_so_far", "C52_contract", "C52_clean", "C52_machine", "C52_composition", "C52_map", "C52_filter", "C52_take"], "note": "Chains of consumers of any length; value types whose move does not throw"},
{"property": "C53", "status": "proved", "theorems": ["C53_exact", "C53_safe", "C53_nothrow", "C53_failed_push_refuted", "C53_code_refuted"], "note": "Converse of the contract's soundness: with no failing push, respecting the contract and staying within the reference semantics are the same. The condition is needed (C53_failed_push_refuted). Not every rejected program goes wrong in the code (C53_code_refuted)."},
{"property": "C54", "status": "proved", "theorems": ["C54_ends", "C54_throws", "C54_reaches", "C54_exactly", "C54_so_far", "C54_further", "C54_contract", "C54_clean", "C54_gives", "C54_zip", "C54_number", "C54_merge", "C54_same", "C54_same_early", "C54_same_fringe", "C54_exchange"], "note": "for all programs of the language of Many.v; generators given by closed programs (a generator does not use the objects of the scope around it); value types whose move does not throw"},
{"property": "C55", "status": "proved", "theorems": ["C55_ends", "C55_throws", "C55_reaches", "C55_exactly", "C55_so_far", "C55_same", "C55_as_inside", "C55_contract", "C55_clean", "C55_chain", "C55_chain_throws"], "note": "For all programs of the language of Many.v and all choices of declarations to move outwards; value types whose move does not throw"},
{"property": "C56", "status": "proved", "theorems": ["C56_owner", "C56_clean", "C56_no_moves", "C56_unconditional_refuted"], "note": "For all programs in the structured language that respect the contract; the condition on moves is needed (C56_unconditional_refuted)"},
{"property": "C57", "status": "proved", "theorems": ["C57_text", "C57_push", "C57_pull", "C57_push_exactly", "C57_push_so_far", "C57_symmetry", "C57_contract", "C57_clean", "C57_mixed", "C57_mixed_passes", "C57_mixed_exactly", "C57_mixed_so_far", "C57_mixed_symmetry", "C57_mixed_contract", "C57_mixed_clean", "C57_after_loop_refuted", "C57_early_return_refuted"], "note": "push chains, pull chains and chains of both kinds of the same functions write the same and end alike, with exceptions; contract, clean-up; refuted for code after the loop and for early returns"}
]}
