{
 "claims": [
  {
   "property": "C01",
   "status": "partial",
   "theorems": [
    "C01_read_is_gregorian",
    "C01_build_then_read_refuted",
    "C01_build_then_read",
    "C01_build_in_window_is_previous_day",
    "C01_build_out_of_range_invalid",
    "C01_read_then_build",
    "C01_excel_round_trip",
    "C01_string_round_trip"
   ],
   "note": "The full round trip is false of the code (date.cpp:33, days 2034-03-01..2100-02-28): refuted, with the exact set of days for which it holds proved; reading, Excel and text forms proved on the whole domain."
  },
  {
   "property": "C02",
   "status": "proved",
   "theorems": [
    "C02_day_arithmetic",
    "C02_diff_then_add",
    "C02_add_days_calendar",
    "C02_increment_is_next_day",
    "C02_order_agrees",
    "C02_day_of_week",
    "C02_weekend",
    "C02_wraps_refuted"
   ],
   "note": "In range, as stated; the silent wrap outside the range is exhibited."
  },
  {
   "property": "C03",
   "status": "partial",
   "theorems": [
    "C03_days_in_month",
    "C03_days_in_month_refuted",
    "C03_end_of_month",
    "C03_end_of_month_refuted",
    "C03_add_months",
    "C03_add_months_refuted"
   ],
   "note": "Proved outside the months damaged by the construction defect of C01 and outside June 2149; refuted inside."
  },
  {
   "property": "C04",
   "status": "proved",
   "theorems": [
    "C04_next_business_day",
    "C04_previous_business_day",
    "C04_business_day_fixed",
    "C04_next_monotone",
    "C04_previous_monotone",
    "C04_terminates_iff",
    "C04_end_of_range_refuted",
    "C04_calendar_text"
   ],
   "note": "For every calendar with a business day in the search direction; termination characterised exactly; the 16-bit wrap at the end of the range is refuted as a finding."
  },
  {
   "property": "C05",
   "status": "proved",
   "theorems": [
    "C05_count_is_enumeration",
    "C05_count_merged_calendar",
    "C05_tally_determined",
    "C05_reversed_interval_is_zero"
   ],
   "note": "For every interval, calendar text and reachable registry/cache state."
  },
  {
   "property": "C06",
   "status": "proved",
   "theorems": [
    "C06_nth_business_day_after",
    "C06_nth_business_day_before",
    "C06_zero_is_adjustment",
    "C06_forward_then_back",
    "C06_from_holiday_refuted",
    "C06_increment_calendar",
    "C06_compound",
    "C06_tenor_kind"
   ],
   "note": "From business days; the round trip from a holiday is shown false."
  },
  {
   "property": "C07",
   "status": "partial",
   "theorems": [
    "C07_act_fixed",
    "C07_act_fixed_additive",
    "C07_act_act_isda",
    "C07_act_act_isda_within_year",
    "C07_act_act_additive",
    "C07_act_act_terminates_refuted",
    "C07_act_act_isda_refuted",
    "C07_act_365l_annual_partial",
    "C07_act_365l_other_coupons",
    "C07_act_365l_other_coupons_refuted",
    "C07_act_365l_terminates_refuted",
    "C07_act_365l_leap_end_refuted",
    "C07_bond_agrees_iff",
    "C07_bond_value",
    "C07_bond_refuted"
   ],
   "note": "Fixed-denominator bases, ACT/365L with non-annual coupons outside the exceptional years and ACT/ACT (ISDA) inside an era proved; non-termination of ACT/ACT across year ends ending in 2035 or later, ACT/365L hangs and the 30/360 month-end clauses are refuted."
  },
  {
   "property": "C08",
   "status": "partial",
   "theorems": [
    "C08_forward",
    "C08_backward",
    "C08_day_tenor_advances",
    "C08_week_tenor_advances",
    "C08_month_tenor_advances",
    "C08_day_tenor_retreats",
    "C08_week_tenor_retreats",
    "C08_month_tenor_retreats",
    "C08_following",
    "C08_following_ends",
    "C08_unadjusted",
    "C08_zero_tenor_refuted",
    "C08_empty_compound_refuted",
    "C08_eom_refuted",
    "C08_wrap_refuted",
    "C08_backward_wrap_refuted",
    "C08_modified_following_refuted",
    "C08_increment_text",
    "C08_special_text"
   ],
   "note": "Forward and backward generation proved for every strictly moving tenor, with day, week, month and year tenors shown to be such; following and unadjusted adjustment proved; text form of increments proved. Zero, empty-compound and EOM tenors and the end of the date range are refuted."
  },
  {
   "property": "C09",
   "status": "partial",
   "theorems": [
    "C09_imm_day_is_third_wednesday",
    "C09_imm_day_refuted",
    "C09_imm_forward",
    "C09_imm_backward",
    "C09_cds_forward",
    "C09_cds_backward",
    "C09_quarterly_roll_refuted",
    "C09_eom_backward",
    "C09_eom_forward_refuted"
   ],
   "note": "Monthly IMM proved; quarterly IMM/CDS proved from quarterly months or past the target day, refuted otherwise; EOM backward proved, EOM forward not strict (refuted)."
  },
  {
   "property": "C10",
   "status": "partial",
   "theorems": [
    "C10_registry_contents",
    "C10_registered_exists",
    "C10_lookup",
    "C10_outcome",
    "C10_index_stable",
    "C10_centres_well_formed",
    "C10_concurrent_registration_refuted"
   ],
   "note": "Sequential registry proved in full; concurrent registration refuted (lost update)."
  },
  {
   "property": "C11",
   "status": "proved",
   "theorems": [
    "C11_reads",
    "C11_unambiguous",
    "C11_layout",
    "C11_round_trip",
    "C11_round_trip_text",
    "C11_brackets",
    "C11_bracketed",
    "C11_case",
    "C11_junk_refuted",
    "C11_bracket_comparison_refuted",
    "C11_characters_refuted",
    "C11_lenient_refuted"
   ],
   "note": "Every text of an independent grammar is parsed to its tree, whatever the blanks and the case of keywords; every source tree is printed with the fewest brackets and parsed back. Exceptions found and proved: a comparison that begins with a bracket is refused, junk inside brackets and unknown characters are dropped, a caret is taken for a variable, stray commas accepted."
  },
  {
   "property": "C12",
   "status": "partial",
   "theorems": [
    "C12_terminates",
    "C12_no_overread",
    "C12_overread_refuted"
   ],
   "note": "Termination proved for all token lists. Reading past the end proved impossible for guarded token lists (no function name last, END last if there is an IF, complete DCF arguments) and refuted without the guards (x = SPOT, IF x > 1, DCF(ACT365)). How often each token is read is not counted."
  },
  {
   "property": "C13",
   "status": "proved",
   "theorems": [
    "C13_names_in_order",
    "C13_same_index_iff_same_name",
    "C13_constants",
    "C13_payoff",
    "C13_payoff_default"
   ],
   "note": "For every list of events; payoff lookup and constant table included."
  },
  {
   "property": "C14",
   "status": "partial",
   "theorems": [
    "C14_compiled_is_interpreted",
    "C14_without_else",
    "C14_compiled_with_room_below",
    "C14_indexed_products",
    "C14_if_else_refuted",
    "C14_max_refuted",
    "C14_tolerance_refuted"
   ],
   "note": "Proved for every product, scenario and evaluator history when the arithmetic satisfies the listed laws and no condition is tested with the truth-value stack below its start; an IF with ELSE followed by another IF, MAX/MIN with NaN and the tolerance of constant >= tests are refuted."
  },
  {
   "property": "C15",
   "status": "proved",
   "theorems": [
    "C15_marks_are_right",
    "C15_known_variables"
   ],
   "note": "Marks right on every execution of any scenario; only marks change; the processor never fails on indexed trees."
  },
  {
   "property": "C16",
   "status": "proved",
   "theorems": [
    "C16_dead_branches",
    "C16_dead_branches_code",
    "C16_verdicts",
    "C16_log_refuted",
    "C16_max_refuted",
    "C16_tolerance_refuted",
    "C16_small_factor_refuted",
    "C16_infinity_refuted",
    "C16_second_time_refuted",
    "C16_division_refuted"
   ],
   "note": "proved for the analysis with exact comparisons on the reals and any script; for the comparisons of the code (tolerance 2e-14, 1e29 for infinity) on scripts whose bounds stay on a grid away from them; refuted with witnesses outside: LOG range, MAX/MIN with more than two arguments, numbers within the tolerance or beyond 1e29, a second analysis, constant division by zero"
  },
  {
   "property": "C17",
   "status": "proved",
   "theorems": [
    "C17_affected_variables",
    "C17_nothing_else_changes"
   ],
   "note": "Every product nested at most 128 deep (the limit is shown to be exact); lists, nesting and the absence of other effects."
  },
  {
   "property": "C18",
   "status": "partial",
   "theorems": [
    "C18_meaning",
    "C18_clear_is_ordinary",
    "C18_negation_refuted",
    "C18_laws_hold",
    "C18_weighted_average",
    "C18_zero_width_refuted"
   ],
   "note": "Refinement to degree-weighted meaning for every negation-free product and any sequence of paths; equality with ordinary evaluation away from the switching points; weighted average in exact arithmetic. Negated conditions and zero smoothing width are refuted."
  },
  {
   "property": "C19",
   "status": "proved",
   "theorems": [
    "C19_paths_are_independent",
    "C19_simulation",
    "C19_past",
    "C19_past_payments_refuted"
   ],
   "note": "Tree evaluator on any sequence of paths; past evaluation proved up to the stack limit, and the leak of past payments refuted beyond it."
  },
  {
   "property": "C20",
   "status": "proved",
   "theorems": [
    "C20_timeline",
    "C20_accepted",
    "C20_periods",
    "C20_fixing_not_last_refuted",
    "C20_inside_names_refuted",
    "C20_schedule_text_refuted"
   ],
   "note": "Tokenizer and statement parser are abstract functions of the event text; macro values are taken without further macros. The position of FIXING in a schedule, substitution inside longer names and truncated schedule texts are refuted."
  },
  {
   "property": "C21",
   "status": "proved",
   "theorems": [
    "C21_partition",
    "C21_every_path_once",
    "C21_numbers_reused_refuted",
    "C21_limits_refuted"
   ],
   "note": "Task list, reserved capacity and per-thread areas for every path count below 2^31-1 and every pool; any order and assignment of tasks. Reuse of random numbers by later batches, INT_MAX and larger path counts are refuted separately."
  },
  {
   "property": "C22",
   "status": "partial",
   "theorems": [
    "C22_numbers",
    "C22_skip_is_generation",
    "C22_even_batches",
    "C22_normals_repeat_refuted",
    "C22_odd_refuted",
    "C22_irn_refuted"
   ],
   "note": "MRG32k3a: the numbers after any SkipTo are the recurrence from place n*dim/2; equality with the sequential stream for batches of uniforms starting at an even path. Odd starts, normals (used by the simulation) and the other generator are refuted."
  },
  {
   "property": "C23",
   "status": "proved",
   "theorems": [
    "C23_mrg_in_open_interval",
    "C23_irn_in_open_interval",
    "C23_short_vector_refuted"
   ],
   "note": "Both pseudo-random generators, every seed, dimension and sequence of fills and skips, in exact binary64 arithmetic. Vectors shorter than the dimension are refuted. Sobol sequences are not in the repository sources and not modelled."
  },
  {
   "property": "C24",
   "status": "proved",
   "theorems": [
    "C24_each_time_once",
    "C24_orthogonal",
    "C24_dimension_0_refuted"
   ],
   "note": "Index search and linear map for every dimension >= 1, weights in exact reals (rounding of doubles not modelled); dimension 0 refuted."
  },
  {
   "property": "C25",
   "status": "proved",
   "theorems": [
    "C25_repository",
    "C25_found_until_erased",
    "C25_tilde_refuted",
    "C25_racing_additions_refuted"
   ],
   "note": "Types and names without a tilde, addresses printing distinctly; names with a tilde and two racing additions are refuted. The regular expression engine is an arbitrary function."
  },
  {
   "property": "C26",
   "status": "proved",
   "theorems": [
    "C26_last_write_wins",
    "C26_dates",
    "C26_override_undone",
    "C26_programs",
    "C26_move_assign_refuted",
    "C26_replace_by_type_refuted",
    "C26_empty_value_refuted"
   ],
   "note": "For values that are not empty and names without a tilde; move-assigning an override, replacement by type and empty values are refuted. Today is taken as fixed."
  },
  {
   "property": "C27",
   "status": "proved",
   "theorems": [
    "C27_fixings",
    "C27_recorded_total",
    "C27_repository_keeps",
    "C27_empty_history_refuted"
   ],
   "note": "For any store keeping what it is given (the repository is shown to be one); storing an empty history is refuted. The library itself installs no fixings store, so without one installed every call dereferences a null pointer."
  },
  {
   "property": "C28",
   "status": "proved",
   "theorems": [
    "C28_tree",
    "C28_fits",
    "C28_typed",
    "C28_sharing",
    "C28_depth",
    "C28_members_refuted",
    "C28_width_refuted"
   ],
   "note": "Trees of tables, objects and tags written to the rectangular sheet are read back member by member; graphs with shared objects are rebuilt with the same sharing. The file of comma-separated values under the sheet is C69. Refuted: objects without members, empty vectors, blank text entries, objects with 28 or more members."
  },
  {
   "property": "C29",
   "status": "proved",
   "theorems": [
    "C29_lookup",
    "C29_round_trip",
    "C29_text",
    "C29_portable_text",
    "C29_portable_date",
    "C29_portable_int",
    "C29_values_refuted",
    "C29_six_decimals_refuted"
   ],
   "note": "Lookup by any spelling of a key, duplicates refused, text round trip for every dictionary whose keys and values have a text form (text, 32-bit whole numbers, dates outside the bad window). double and DateTime_ printing/reading are parameters. C29_values_refuted and C29_six_decimals_refuted list the cells that do not survive."
  },
  {
   "property": "C30",
   "status": "partial",
   "theorems": [
    "C30_join_then_split",
    "C30_split_cuts_at_separators",
    "C30_split_without_empties",
    "C30_trailing_empty_piece_refuted",
    "C30_equality_is_up_to_case",
    "C30_order_total",
    "C30_order_transitive",
    "C30_order_respects_equality",
    "C30_condensed_idempotent",
    "C30_condensed_equal_iff",
    "C30_condensed_defined",
    "C30_equivalent_iff",
    "C30_equivalent_is_condensed_equality",
    "C30_condensed_non_ascii_refuted"
   ],
   "note": "Case-insensitive order, split/join, Condensed and Equivalent proved; the trailing empty piece and non-ASCII bytes are refuted."
  },
  {
   "property": "C31",
   "status": "proved",
   "theorems": [
    "C31_next_name_fresh",
    "C31_next_name_keeps_stem"
   ],
   "note": ""
  },
  {
   "property": "C32",
   "status": "proved",
   "theorems": [
    "C32_gradient",
    "C32_paths",
    "C32_tiny_refuted",
    "C32_before_mark_refuted"
   ],
   "note": "Any recorded program of the operations of expr.hpp over the reals: adjoints are derivatives, provided no adjoint was dropped for being <= 2e-14 (C32_tiny_refuted shows the code drops them) and every operation is at a point where it is differentiable; also the mark/rewind path loop. Single-result mode; double rounding not modelled here."
  },
  {
   "property": "C33",
   "status": "proved",
   "theorems": [
    "C33_refines",
    "C33_pointers",
    "C33_runs",
    "C33_full_block_refuted",
    "C33_stale_mark_refuted"
   ],
   "note": "Block list against the list specification for all operation sequences, addresses stable, runs of slots disjoint. Refuted: forward iteration when the last block is exactly full; a mark ahead of the end."
  },
  {
   "property": "C34",
   "status": "proved",
   "theorems": [
    "C34_linearizable",
    "C34_fifo_exactly_once",
    "C34_pop_fails_only_after_interrupt",
    "C34_mutual_exclusion",
    "C34_no_lost_wakeup"
   ],
   "note": "Every interleaving of any number of threads with separate lock, critical-section, wait and notify steps and spurious wake-ups. ResetInterrupt and Clear (no lock, only used by Stop) are not modelled."
  },
  {
   "property": "C35",
   "status": "proved",
   "theorems": [
    "C35_no_deadlock",
    "C35_terminates",
    "C35_always_completes",
    "C35_thread_numbers",
    "C35_foreign_wait_refuted"
   ],
   "note": "Any number of threads, every schedule, tasks that wait for tasks they spawned; waiting for a task of another task is refuted."
  },
  {
   "property": "C36",
   "status": "proved",
   "theorems": [
    "C36_scoped",
    "C36_innermost_first"
   ],
   "note": "Every nesting of ENV_ADD, ENV_SEED, calls and lookups."
  },
  {
   "property": "C37",
   "status": "proved",
   "theorems": [
    "C37_total",
    "C37_knots",
    "C37_flat",
    "C37_between",
    "C37_monotone",
    "C37_repeated_knot_refuted",
    "C37_empty_refuted",
    "C37_2d_knots",
    "C37_2d_between",
    "C37_2d_range",
    "C37_2d_monotone"
   ],
   "note": "over the real numbers; table with strictly increasing abscissae and at least one point; repeated knots and the empty table are refuted separately"
  },
  {
   "property": "C38",
   "status": "proved",
   "theorems": [
    "C38_spline",
    "C38_refused"
   ],
   "note": "over the real numbers: rounding is not modelled"
  },
  {
   "property": "C39",
   "status": "proved",
   "theorems": [
    "C39_multiply",
    "C39_solve",
    "C39_solve_inverts",
    "C39_decompose",
    "C39_in_place_refuted",
    "C39_pde_steps"
   ],
   "note": "over the real numbers; multiplying in place with the matrix object is refuted separately"
  },
  {
   "property": "C40",
   "status": "proved",
   "theorems": [
    "C40_bracket",
    "C40_refused",
    "C40_root",
    "C40_search",
    "C40_hunt",
    "C40_converged",
    "C40_both_zero_refuted",
    "C40_report_first_refuted"
   ],
   "note": "Real numbers stand for doubles. For every sequence of reported values; hunt shown to terminate for strictly monotone functions; two refutations (zeros at both ends give NaN; PutY before NextX)."
  },
  {
   "property": "C41",
   "status": "proved",
   "theorems": [
    "C41_constant_value",
    "C41_constant_integral",
    "C41_linear_value",
    "C41_linear_integral",
    "C41_discount_composes",
    "C41_discount_rates",
    "C41_discount_decreasing",
    "C41_apply_dx",
    "C41_repeated_knot_refuted",
    "C41_empty_refuted"
   ],
   "note": "Real numbers stand for doubles, dates are integers. Integral of the curve stated as the sum over days, on each of which the curve is linear. Refutations: repeated knots of a constant curve; empty linear curve."
  },
  {
   "property": "C42",
   "status": "partial",
   "theorems": [
    "C42_array_new",
    "C42_array_write",
    "C42_array_cells",
    "C42_cube",
    "C42_array_resize_partial",
    "C42_origin_refuted",
    "C42_grow_refuted",
    "C42_empty_refuted",
    "C42_report",
    "C42_report_names",
    "C42_report_cells",
    "C42_set_all",
    "C42_store",
    "C42_alias_refuted",
    "C42_lost_refuted",
    "C42_same_name_refuted"
   ],
   "note": "Addresses, growth, SetAll and storing are proved for every number of axes. Resizing an n-dimensional array keeps the common values only when no axis grows and not at the origin (code defects, refuted); header tables are C64."
  },
  {
   "property": "C43",
   "status": "proved",
   "theorems": [
    "C43_resize",
    "C43_resize_new",
    "C43_write",
    "C43_transpose",
    "C43_vectors_round_trip",
    "C43_matrix_round_trip",
    "C43_ragged",
    "C43_append",
    "C43_append_narrow_refuted",
    "C43_apply",
    "C43_empty_refuted",
    "C43_new_row_refuted",
    "C43_long_row_refuted"
   ],
   "note": "Elements of any type; whether growing moves the storage is quantified over. Refutations: first new row not default, narrow append refused, quiet long rows overrun, empty shapes are UB."
  },
  {
   "property": "C44",
   "status": "proved",
   "theorems": [
    "C44_format",
    "C44_nothing",
    "C44_inside",
    "C44_parse_ends",
    "C44_text",
    "C44_lower_case",
    "C44_empty_part_refuted"
   ],
   "note": "Any cells, any nesting; argument tables any made matrix; integers unbounded. Format text with each part in parentheses is read back exactly. Refutation: an empty part is undefined behaviour."
  },
  {
   "property": "C45",
   "status": "proved",
   "theorems": [
    "C45_range_prob",
    "C45_continuous",
    "C45_expectation",
    "C45_all_in_range",
    "C45_interval",
    "C45_negative_refuted",
    "C45_hourly_refuted",
    "C45_tiny_refuted",
    "C45_wrap_refuted",
    "C45_extremum_refuted"
   ],
   "note": "Exact real arithmetic for the bounds, the ramp, continuity and the product over monitoring times. In binary64: slightly negative probabilities, hourly fixings missed by the monitoring grid, endless loops for tiny intervals or at the last date are refuted; Extremum is not an extremum."
  },
  {
   "property": "C46",
   "status": "proved",
   "theorems": [
    "C46_latest",
    "C46_order",
    "C46_algebra",
    "C46_once",
    "C46_spelling_refuted",
    "C46_parent_refuted"
   ],
   "note": "For every way of collecting needs (Include and += in any grouping). The spelling kept for a name and the parent handle are those met first (refuted as order-independent)."
  },
  {
   "property": "C47",
   "status": "proved",
   "theorems": [
    "C47_round_trip",
    "C47_other_parsers",
    "C47_distinct",
    "C47_fx_round_trip",
    "C47_misread_refuted",
    "C47_bracket_refuted",
    "C47_fx_refuted",
    "C47_malformed_refuted",
    "C47_equity_fixing",
    "C47_fx_fixing",
    "C47_fx_reciprocal",
    "C47_no_store_refuted"
   ],
   "note": "Equity names without a closing bracket, any delay text, any delivery date outside the misread years 2034-2100 (refuted there, see C01); names identify the index. FX names read back once their parser is registered (the library does not register it: refuted). Fixings over real numbers; without a fixings store FX fixing is UB (refuted)."
  },
  {
   "property": "C48",
   "status": "proved",
   "theorems": [
    "C48_payoff",
    "C48_parity",
    "C48_zero_vol",
    "C48_black_greeks",
    "C48_bachelier_greeks",
    "C48_bounds",
    "C48_vol_increasing",
    "C48_implied",
    "C48_implied_round_trip",
    "C48_bachelier_negative_refuted",
    "C48_bachelier_iv_refuted",
    "C48_black_negative_refuted",
    "C48_names_refuted",
    "C48_equation",
    "C48_greek_bounds",
    "C48_negative_vega_refuted",
    "C48_exchange",
    "C48_unit",
    "C48_unit_refuted",
    "C48_bachelier_exchange",
    "C48_bachelier_shift",
    "C48_bachelier_shift_refuted"
   ],
   "note": "parity and straddle for payoffs, Black and Bachelier; zero volatility; greeks are derivatives; bounds; monotone in volatility; implied volatility; gamma and the lognormal equation; bounds and parity of the greeks; exchange of forward and strike; units; refuted: zero or negative forwards, own parameter names, units in which the tolerance decides"
  },
  {
   "property": "C49",
   "status": "proved",
   "theorems": [
    "C49_exact",
    "C49_constants",
    "C49_returns",
    "C49_maximum"
   ],
   "note": "over the real numbers"
  },
  {
   "property": "C50",
   "status": "proved",
   "theorems": [
    "C50_budget",
    "C50_ends",
    "C50_last",
    "C50_approximate",
    "C50_root",
    "C50_root_binary64",
    "C50_nan_refuted",
    "C50_guess_refuted",
    "C50_k_min_refuted"
   ],
   "note": "evaluation and gradient budgets, termination, returned points solve within tolerance (exact and binary64), Approximate within budget; refuted: NaN residual accepted, guess not tested, shortening factor not the minimiser"
  },
  {
   "property": "C51",
   "status": "proved",
   "theorems": [
    "C51_fill",
    "C51_keeps",
    "C51_short",
    "C51_even",
    "C51_tolerance_refuted",
    "C51_min_dx_refuted",
    "C51_order_refuted",
    "C51_near_duplicate_refuted",
    "C51_absorbed_refuted",
    "C51_empty_refuted",
    "C51_zero_refuted"
   ],
   "note": "Over the reals, for every increasing set of required points, every set of added points further apart than the smallest step and a smallest step of at most half the longest: strictly increasing, all required points kept, an added point merged only into one within the smallest step, no step longer than max/(1-2e-14), gaps divided evenly by the smallest number of steps; points kept for every kind of number including binary64. Refuted outside those hypotheses: two added points near one required point break the order; a smallest step above half the longest leaves a step half as long again; steps exceed the maximum by a hair; binary64 leaves points 1.1e-16 apart with the default smallest step and never ends when the step is absorbed; empty input or maximum 0 undefined."
  },
  {
   "property": "C52",
   "status": "proved",
   "theorems": [
    "C52_path",
    "C52_covariance",
    "C52_past_date_refuted",
    "C52_no_dates_refuted",
    "C52_today_twice_refuted",
    "C52_local_vol",
    "C52_half_day_refuted",
    "C52_no_forwards_refuted"
   ],
   "note": "Black-Scholes and local volatility, over the reals, whatever the model was used for before: no access out of range, one sample per product date in order with its own spot, numeraire, forwards and discounts, one draw per simulated step, Brownian covariance of the weights; local volatility steps follow the surface at their beginning. Refuted outside increasing dates from today on: a past date or today given twice shifts the samples and leaves the last one unwritten; no dates is undefined; a first date within half a day of today replaces today and gets no drift or draw; a local volatility sample without forwards is undefined."
  },
  {
   "property": "C53",
   "status": "proved",
   "theorems": [
    "C53_hour",
    "C53_clock",
    "C53_text",
    "C53_recognised",
    "C53_accepted",
    "C53_msec",
    "C53_exact_refuted",
    "C53_text_refuted",
    "C53_msec_refuted",
    "C53_negative_refuted",
    "C53_lenient_refuted",
    "C53_order",
    "C53_plus"
   ],
   "note": "Over binary64: the hour read back is always right, the minute and second at most one unit low (and whole quarter hours exact); text round trip within that; milliseconds come back or one less. Order and addition over the reals. The exact round trip is refuted (00:33:00 prints 00:33:59, 11 s prints 10 s, 31 ms gives 30 ms)."
  },
  {
   "property": "C54",
   "status": "proved",
   "theorems": [
    "C54_uniform",
    "C54_concentrating",
    "C54_required",
    "C54_concentrates",
    "C54_refused",
    "C54_uniform_refused",
    "C54_two_points_refuted",
    "C54_one_point_refuted"
   ],
   "note": "Over the reals, for every size from 2 to INT_MAX: bounds, strict order, distances, required point on the grid (from 3 points), denser towards the concentration point. Refuted for two points with a required point and for fewer than two points."
  },
  {
   "property": "C55",
   "status": "proved",
   "theorems": [
    "C55_matrix_matrix",
    "C55_matrix_vector",
    "C55_vector_matrix",
    "C55_misfit",
    "C55_weighted",
    "C55_square_upper",
    "C55_vols",
    "C55_small_vol_refuted"
   ],
   "note": "Over the reals, for every shape and every aliasing of operands and result; correlations for volatilities of at least 2e-14 (below, the diagonal is not 1: refuted)."
  },
  {
   "property": "C56",
   "status": "proved",
   "theorems": [
    "C56_decomposition",
    "C56_pivots",
    "C56_solve_in_place",
    "C56_rejected",
    "C56_quadratic_form",
    "C56_diagonal",
    "C56_triangular",
    "C56_multiply_left_refuted",
    "C56_multiply_left",
    "C56_dense_quadratic_form_refuted",
    "C56_perfect_correlation_refuted",
    "C56_next_number_refuted"
   ],
   "note": "Over the reals: error bound, in-place solves, rejection, diagonal and triangular systems, quadratic forms for a correct solver. Refuted with witnesses: MultiplyLeft of a lower triangular matrix leaves the diagonal out; the default quadratic form of a dense Cholesky decomposition is undefined behaviour; in binary64 perfectly correlated factors give an infinite number; MakeCorrelated does not return the next unused number."
  },
  {
   "property": "C57",
   "status": "proved",
   "theorems": [
    "C57_biorthogonal",
    "C57_within_tolerance",
    "C57_two_sided",
    "C57_finds",
    "C57_symmetric",
    "C57_from_solution_refuted"
   ],
   "note": "Exact arithmetic, division by zero arbitrary. Refuted in binary64: started from the exact solution CGSolve divides zero by zero and throws after any number of iterations."
  },
  {
   "property": "C58",
   "status": "partial",
   "theorems": [
    "C58_read_back",
    "C58_writes",
    "C58_multiply",
    "C58_lower_solve",
    "C58_symmetric_refuted",
    "C58_decompose_refuted",
    "C58_factor_refuted",
    "C58_transpose_solve_refuted",
    "C58_accumulator_refuted",
    "C58_solve_right_refuted",
    "C58_accumulator_shape"
   ],
   "note": "Storage, both products and the lower solve proved for every size and band width. The rest is false of the code and refuted: IsSymmetric reads past the last row and is never true, Decompose never succeeds, the factorization throws for every matrix of two or more rows, the transposed solve reads out of range, the accumulator keeps the wrong norm, SolveRight solves the untransposed system."
  },
  {
   "property": "C59",
   "status": "partial",
   "theorems": [
    "C59_history",
    "C59_top_and_pop_refuted",
    "C59_push_after_clear_refuted",
    "C59_debug",
    "C59_unambiguous"
   ],
   "note": "Proved for all histories of proper use and all products. TopAndPop is refuted: it reads the cell above the top. Pushing on a stack that was cleared or moved from is undefined behaviour."
  },
  {
   "property": "C60",
   "status": "partial",
   "theorems": [
    "C60_succeeds",
    "C60_rejects",
    "C60_minimizes_partial",
    "C60_range",
    "C60_first_refuted",
    "C60_minimizes_refuted"
   ],
   "note": "Proved: the result minimizes the sum with the penalties shifted by one place (the first pair is not joined and each later pair gets the distance of the pair before), keeps the weighted total and the range, and bad input is rejected. The minimality as stated is refuted: the first value is never smoothed and with two values nothing is."
  },
  {
   "property": "C61",
   "status": "partial",
   "theorems": [
    "C61_covariance",
    "C61_rejects",
    "C61_symmetric",
    "C61_bilinear",
    "C61_shift",
    "C61_variance",
    "C61_correlation_range",
    "C61_correlation_value",
    "C61_self_refuted",
    "C61_scale_refuted",
    "C61_centralized",
    "C61_l1",
    "C61_l2",
    "C61_empty_refuted"
   ],
   "note": "Proved in exact arithmetic: covariance formula, symmetry, bilinearity, shift invariance, variance, range and value of the correlation, centralizing, norms. Refuted: unit self-correlation and independence of units (the 1e-14 added to each norm decides the result for small data), and empty vectors, which give NaN instead of being refused."
  },
  {
   "property": "C62",
   "status": "partial",
   "theorems": [
    "C62_as_int",
    "C62_nearest",
    "C62_nearest_refuted",
    "C62_refused",
    "C62_wide",
    "C62_wide_refuted"
   ],
   "note": "Proved for every double (via Flocq): the value of AsInt, NearestInt for all doubles but two, the refusals, and the 64-bit version except its least argument. Refuted: NearestInt(0.49999999999999994) is 1 and AsInt of the least 64-bit number is undefined; the extreme ints are refused."
  },
  {
   "property": "C63",
   "status": "partial",
   "theorems": [
    "C63_messages",
    "C63_after",
    "C63_temporary_refuted",
    "C63_leak_refuted"
   ],
   "note": "Proved by refinement for every program whose notices are about variables in scope: the run with the global stack agrees with a reading in which each throw sees the notes around it; balanced, and never undefined. Refuted: a NOTICE of a temporary (report.cpp:134) is read after its death, and an error raised with no notes leaves the stack object allocated."
  },
  {
   "property": "C64",
   "status": "partial",
   "theorems": [
    "C64_tables",
    "C64_unknown",
    "C64_store",
    "C64_same_refuted",
    "C64_refused_refuted"
   ],
   "note": "Refused rows: a row of the wrong width or at a negative offset is undefined, not refused (C64_refused_refuted: the check reads memory of a dead temporary or none at all). A table shorter than its grown axis comes back with blank rows (C64_same_refuted)."
  },
  {
   "property": "C65",
   "status": "partial",
   "theorems": [
    "C65_maturity",
    "C65_surface",
    "C65_dupire",
    "C65_flat",
    "C65_flat_close",
    "C65_view",
    "C65_bump",
    "C65_gap_refuted",
    "C65_outside_refuted",
    "C65_rates_refuted"
   ],
   "note": "Over the real numbers. A grid without a point in the band is not refused: the volatilities are zeros or the behaviour is undefined (C65_gap_refuted, C65_outside_refuted). With rates the formula is applied to undiscounted prices (C65_rates_refuted)."
  },
  {
   "property": "C66",
   "status": "partial",
   "theorems": [
    "C66_series",
    "C66_no_jumps",
    "C66_bounds",
    "C66_vol_increasing",
    "C66_zero_size_refuted",
    "C66_implied_refuted",
    "C66_all_jumps",
    "C66_expectation"
   ],
   "note": "Over the real numbers. The weights of ten and more jumps are left out, so that jumps of size zero lower the price (C66_zero_size_refuted) and calls with a low strike fall under their payoff and have no implied volatility (C66_implied_refuted)."
  },
  {
   "property": "C67",
   "status": "partial",
   "theorems": [
    "C67_fast",
    "C67_tail_refuted",
    "C67_kink_refuted",
    "C67_symmetric",
    "C67_domain",
    "C67_ends_refuted",
    "C67_inverse_symmetric",
    "C67_increasing",
    "C67_polish"
   ],
   "note": "C67_fast (symmetric, strictly increasing, continuous, inside (0,1), vanishing at minus infinity, through the table), C67_symmetric, C67_domain, C67_inverse_symmetric, C67_increasing (unpolished, across the joints at 0.02425 and 0.97575) and C67_polish (one step squares the error for approximations within four deviations) are proved over the real numbers. Refuted: the join and tail of the fast version (C67_kink_refuted, C67_tail_refuted) and a number at 0 and 1 (C67_ends_refuted). Missing: the distance of the spline and of the rational approximation from the normal law, order of the polished inverse, rounding."
  },
  {
   "property": "C68",
   "status": "proved",
   "theorems": [
    "C68_batches",
    "C68_compiled",
    "C68_value",
    "C68_value_code",
    "C68_unknown_model",
    "C68_no_variables_refuted",
    "C68_twice_refuted",
    "C68_schedule_refuted",
    "C68_threads_refuted"
   ],
   "note": "On real numbers with the elimination (exact comparisons, or the code's comparisons for scripts away from its tolerances), when the analysis succeeds and the paths are safe; in any arithmetic without the elimination. The generator must really be able to skip to a path (Sobol: C22; MRG does not: C21_numbers_reused_refuted). The models that make the paths are C52."
  },
  {
   "property": "C69",
   "status": "partial",
   "theorems": [
    "C69_sheet",
    "C69_tree",
    "C69_objects",
    "C69_text",
    "C69_whole_numbers",
    "C69_values",
    "C69_decimals_refuted",
    "C69_last_line",
    "C69_numbers",
    "C69_long_line_refuted",
    "C69_long_vector_refuted",
    "C69_missing_file_refuted",
    "C69_text_refuted",
    "C69_lines",
    "C69_numerals",
    "C69_cells"
   ],
   "note": "Proved for every sheet, tree and object graph whose cells survive and whose lines have at most 2047 characters; the texts that survive are characterised exactly. The unrestricted statement is refuted: a line of more than 2047 characters silently ends the reading (a vector of 1100 numbers is enough) and the object is then built from an empty table, which reads outside it; so does a missing or empty file; texts that look like numbers, truth values or =text=, and texts with commas or quotes, come back as something else; numbers that are not whole keep six decimals."
  },
  {
   "property": "C70",
   "status": "partial",
   "theorems": [
    "C70_risks",
    "C70_no_ties",
    "C70_traces",
    "C70_names",
    "C70_same_name_refuted",
    "C70_compiled_constants_refuted",
    "C70_constant_payoff_refuted"
   ],
   "note": "Proved for interpreted scripts through symbolic traces: any tape that records the numbers the evaluation computes. Refuted: compiled scripts have no sensitivity to constant variables, a payoff that is a constant variable leaves the tape, and a constant named like a parameter takes its place in the report. The recording itself is a hypothesis (which number is recorded where), met in the example."
  },
  {
   "property": "C71",
   "status": "partial",
   "theorems": [
    "C71_copy",
    "C71_exact_values",
    "C71_not_an_object",
    "C71_missing_member",
    "C71_precision_refuted",
    "C71_whole_numbers_refuted",
    "C71_flag_refuted",
    "C71_sizes_refuted",
    "C71_cells_refuted",
    "C71_quote_refuted",
    "C71_backslash_refuted",
    "C71_empty_matrix_refuted",
    "C71_infinite_refuted",
    "C71_date_number"
   ],
   "note": "C71_copy proves the round trip for the storable values; C71_exact_values says when the values are exactly the same. Refuted of the code: six decimals only (C71_precision_refuted), whole numbers and single flags cannot be read back (C71_whole_numbers_refuted, with a generator and a report as cases), empty cells and texts like dates change (C71_cells_refuted), quotes and backslashes (C71_quote_refuted, C71_backslash_refuted), matrices without columns (C71_empty_matrix_refuted), numbers that are not finite (C71_infinite_refuted); bad texts are undefined, not reported (C71_not_an_object, C71_missing_member). RapidJSON is modelled from its documentation, without the \\u escapes."
  },
  {
   "property": "C72",
   "status": "partial",
   "theorems": [
    "C72_facts",
    "C72_reference",
    "C72_reference_refuted",
    "C72_init",
    "C72_init_once",
    "C72_name_taken_refuted",
    "C72_calendars",
    "C72_conventions",
    "C72_renminbi",
    "C72_other_currencies_refuted"
   ],
   "note": "Refuted parts: with a shipped name already registered the start-up fails for ever; every currency but CNY has no fixing calendar, so no Libor start date; a reference to a convention dangles once the value is replaced."
  },
  {
   "property": "C73",
   "status": "partial",
   "theorems": [
    "C73_enums",
    "C73_rate_text",
    "C73_find_rate",
    "C73_rate_found",
    "C73_future_refuted",
    "C73_nominal_maturity",
    "C73_nominal_months",
    "C73_dates",
    "C73_renminbi",
    "C73_start_time_refuted",
    "C73_new_df",
    "C73_collateral_refuted",
    "C73_names",
    "C73_named",
    "C73_days_refuted",
    "C73_ambiguous_refuted",
    "C73_unparsed_refuted"
   ],
   "note": "Refuted of the code: the future is found as the cleared rate, a start with a time of day is moved by the convention, the collateral of a discount factor is dropped, names with commas or tenors like a rate's are shared, offsets in days have no name, and no interest-rate name is read back. The rest is proved; names are proved to tell indices apart when no part can be mistaken for another."
  },
  {
   "property": "C74",
   "status": "proved",
   "theorems": [
    "C74_made",
    "C74_inverse",
    "C74_derivatives",
    "C74_shape",
    "C74_range",
    "C74_identity"
   ],
   "note": "Over the real numbers, with the library's sinh, cosh and asinh taken as the real functions. A range whose square is within 2e-14 of 1 gives the identity, so it is reached up to 2e-14."
  },
  {
   "property": "C75",
   "status": "partial",
   "theorems": [
    "C75_remembers",
    "C75_show",
    "C75_ask",
    "C75_destination",
    "C75_ask_changes_nothing",
    "C75_give_back",
    "C75_bag",
    "C75_bag_sizes",
    "C75_auditor_bag",
    "C75_unset_refuted",
    "C75_first_refuted",
    "C75_passive_refuted"
   ],
   "note": "Proved for auditors that have been given a mode, once a question has reached an auditor or the first auditor asked holds something. Refuted otherwise: an auditor without a mode (C75_unset_refuted), the first question put to an empty auditor (C75_first_refuted), and a passive auditor, which throws instead of ignoring (C75_passive_refuted)."
  },
  {
   "property": "C76",
   "status": "partial",
   "theorems": [
    "C76_layout",
    "C76_freed",
    "C76_block",
    "C76_line",
    "C76_matrix",
    "C76_round_trip",
    "C76_round_trip_block",
    "C76_vector",
    "C76_values",
    "C76_dictionary",
    "C76_no_rows_refuted",
    "C76_integer_refuted",
    "C76_optional_refuted",
    "C76_text_refuted",
    "C76_gap_refuted",
    "C76_characters",
    "C76_high_characters_refuted"
   ],
   "note": "Proved except where it is false of the code. Refuted: a result without rows (such as one empty vector) is said to have a row it does not have, and reading or freeing it goes beyond the array; whole numbers of the spreadsheet's integer type are read through the wrong member of a union; an optional value given as one blank cell in a range is refused; a text with a zero character or longer than 65535 comes back cut; a vector of texts with an empty one among them comes back short."
  },
  {
   "property": "C77",
   "status": "partial",
   "theorems": [
    "C77_flag",
    "C77_vector",
    "C77_list",
    "C77_integer",
    "C77_cells",
    "C77_enum",
    "C77_trailing_refuted",
    "C77_signed_refuted",
    "C77_junk_refuted"
   ],
   "note": "Proved except where it is false of the code. Refuted: an empty flag after the last comma is not noticed; a text of four or five characters outside ASCII is undefined instead of refused; a whole number read from text may be followed by anything."
  },
  {
   "property": "C78",
   "status": "proved",
   "theorems": [
    "C78_sensible",
    "C78_held",
    "C78_kept",
    "C78_linear",
    "C78_smoothed",
    "C78_cubic",
    "C78_surface",
    "C78_failed",
    "C78_find",
    "C78_find_nothing_refuted",
    "C78_replaced",
    "C78_error_text",
    "C78_refused",
    "C78_knock_on_refuted"
   ],
   "note": "The whole of the property, for sessions in which names have no tilde and a new object does not live where a held one lives (C78_sensible shows that such calls are plentiful). Proved: C78_held (what is held after a call), C78_kept, C78_linear, C78_smoothed, C78_cubic, C78_surface, C78_failed, C78_find, C78_replaced, C78_error_text, C78_refused. Refuted of the code: the answer to a search that matches nothing can be read and freed (C78_find_nothing_refuted); an error text passed on as a handle is shown as it was (C78_knock_on_refuted)."
  },
  {
   "property": "C79",
   "status": "partial",
   "theorems": [
    "C79_alone",
    "C79_never_fails",
    "C79_split",
    "C79_pairs",
    "C79_numbers",
    "C79_irn_numbers",
    "C79_made",
    "C79_names",
    "C79_kinds",
    "C79_stored",
    "C79_restart_refuted",
    "C79_name_refuted",
    "C79_second_seed_refuted",
    "C79_last_seed_refuted"
   ],
   "note": "Proved for every session: isolation of generators, no failure after making, splitting of draws, mirrored pairs, MRG32 numbers, names, storing of new generators. Refuted of the code: storing after draws (restarts), a name of one's own, two generators of one kind at once, the last int as an MRG32 seed."
  },
  {
   "property": "C80",
   "status": "partial",
   "theorems": [
    "C80_value_only",
    "C80_table",
    "C80_black_scholes",
    "C80_dupire",
    "C80_dupire_names",
    "C80_close_spots_refuted",
    "C80_dates",
    "C80_fraction",
    "C80_bad_date_refuted",
    "C80_sizes",
    "C80_events",
    "C80_roll",
    "C80_debug",
    "C80_all_past_refuted"
   ],
   "note": "Proved: dates, fractions, sizes, rolling of the evaluation date, printing, table of values, parameter names. Refuted of the code: whole numbers that are no dates are accepted as an event that is always past; a product whose events are all past cannot be printed; spots (or times) that agree to two decimals share a row, which shows only the last one's risk."
  },
  {
   "property": "C81",
   "status": "partial",
   "theorems": [
    "C81_independent",
    "C81_simulated",
    "C81_names",
    "C81_clone",
    "C81_spared",
    "C81_stored",
    "C81_renamed",
    "C81_slides_refuted",
    "C81_shape_refuted",
    "C81_labels",
    "C81_labels_refuted"
   ],
   "note": "Proved: independence, copies, names, storage, renaming. Refuted of the code: a copy of a description with a slide reads its name through a null pointer; volatilities with more rows than spots or more columns than times are accepted and making the model is undefined; the description of a local volatility model names no parameters although the model has at least three."
  },
  {
   "property": "C82",
   "status": "partial",
   "theorems": [
    "C82_jacobian",
    "C82_again",
    "C82_one_by_one",
    "C82_too_many_refuted",
    "C82_late_refuted",
    "C82_one_result_refuted"
   ],
   "note": "Proved: one pass gives every derivative, further passes after a reset, agreement with one result at a time; as in C32 for passes in which no row of adjoints was left out as too small. Refuted of the code: numbers made before the setting is switched on (propagation reads a null pointer); more results than a block holds; PropagateToStart while the setting is on, which leaves Adjoint() of the inputs at zero."
  },
  {
   "property": "C83",
   "status": "partial",
   "theorems": [
    "C83_charts",
    "C83_tables",
    "C83_plain_tables",
    "C83_vectors",
    "C83_labelled_vectors",
    "C83_one_function",
    "C83_texts",
    "C83_names",
    "C83_table_made",
    "C83_chart_made",
    "C83_first",
    "C83_labels_refuted",
    "C83_chart_labels_refuted",
    "C83_taken_refuted",
    "C83_longer_refuted",
    "C83_title_refuted"
   ],
   "note": "Proved: charts whose outputs are as long as their inputs, labelled and plain tables and texts, for all sessions; names; when a call ends well. Refuted of the code: outputs longer than the inputs lose their end in the chart; too few row labels for a table's rows is read past the end; a call that throws because its name is taken leaves a sheet, or numbers and a chart without a name, behind. Excel itself is modelled as sheets of cells and a list of charts."
  },
  {
   "property": "C84",
   "status": "partial",
   "theorems": [
    "C84_poll",
    "C84_product",
    "C84_table",
    "C84_copy",
    "C84_same",
    "C84_exchange",
    "C84_deep_refuted",
    "C84_dropped_refuted"
   ],
   "note": "Proved: polling, product, copies, unchanged copies, exchange at any depth by repeated copying. Refuted of the code: one copy sees only changes of the direct base, not of bases further down; a change to an empty handle or to a component that is no discount curve silently leaves the copy without a base. Over the real numbers; the interest of a single curve is C41."
  },
  {
   "property": "C85",
   "status": "partial",
   "theorems": [
    "C85_sobol",
    "C85_mrg32",
    "C85_irn_one_task",
    "C85_irn_refuted",
    "C85_names",
    "C85_irn_first_refuted"
   ],
   "note": "Proved for sobol (the generator itself is not in the repository: it is assumed to keep to one sequence, with SkipTo going to a place of it) and for mrg32, exactly in binary64 with the code's seeds; irn with a single batch. Refuted for irn with several batches: SkipTo does nothing there, so the numbers of a path depend on which thread ran which batch before. The bridge is a function of the vector filled (C24)."
  },
  {
   "property": "C86",
   "status": "partial",
   "theorems": [
    "C86_records",
    "C86_written",
    "C86_nothing",
    "C86_exists",
    "C86_negative_refuted",
    "C86_blank_row_refuted",
    "C86_lost_refuted"
   ],
   "note": "Proved: records of a range, of a table written, of nothing; existence of a field. Refuted of the code: a blank range of one row counts as a record; a row whose values are to the right of the block ends the records although it has values; a negative column reads the row before, or outside the range. A record is the list of the fields its constructor asks for, without conditions between fields."
  },
  {
   "property": "C87",
   "status": "proved",
   "theorems": [
    "C87_mrg32",
    "C87_sobol",
    "C87_compiled",
    "C87_unknown_method",
    "C87_bs_mrg32",
    "C87_bs_sobol",
    "C87_bs_mrg32_code",
    "C87_bs_sobol_code"
   ],
   "note": "The Sobol generator is not in the repository: it is a parameter asked to keep to one sequence (C85); the inverse normal distribution and the bridge are parameters too (C67, C24). The arithmetic is any for the totals and exact for the Black-Scholes value, with the draws taken as the real numbers they are. irn is left out: its draws do depend on the schedule (C85_irn_refuted)."
  },
  {
   "property": "C88",
   "status": "partial",
   "theorems": [
    "C88_unique",
    "C88_black",
    "C88_bachelier",
    "C88_bachelier_zero_refuted",
    "C88_european",
    "C88_can_price"
   ],
   "note": "Exact arithmetic, with the normal law the one C67 constructs. Bachelier's formula holds where forward times strike reaches the threshold; below it, also for negative products, the code gives the payout whatever the volatility (C88_bachelier_zero_refuted). The simulated mean converges to it in mean square (C89)."
  },
  {
   "property": "C89",
   "status": "proved",
   "theorems": [
    "C89_unique",
    "C89_unbiased",
    "C89_error",
    "C89_martingale",
    "C89_forward",
    "C89_european",
    "C89_value_mrg32",
    "C89_value_sobol"
   ],
   "note": "The draws are ideal: independent and normal. That the generator's are as good as that is not claimed. Independent draws are iterated integrals. The average is that of C87 and C68 with exact arithmetic."
  },
  {
   "property": "C90",
   "status": "proved",
   "theorems": [
    "C90_returns",
    "C90_monotone",
    "C90_error",
    "C90_converges"
   ],
   "note": "Exact arithmetic. The time step's error is bounded to first order for every theta (the higher order of theta one half is not claimed), and the second difference's to first order in the spacing, as on an uneven grid. The ends keep their values, as RollBwd leaves them: a caller who overwrites them between steps, as the example does, changes them only for the next step."
  },
  {
   "property": "C91",
   "status": "proved",
   "theorems": [
    "C91_martingale",
    "C91_forward",
    "C91_bounds",
    "C91_flat"
   ],
   "note": "Exact arithmetic, with the product dates C52 covers (the first one today or more than half a day away; C52_half_day_refuted says what happens otherwise). Expectations are iterated one-dimensional ones over the draws as in C89. That the expectation of a call exists is not shown for a general surface."
  },
  {
   "property": "C92",
   "status": "proved",
   "theorems": [
    "C92_unique",
    "C92_black",
    "C92_bachelier",
    "C92_average",
    "C92_european",
    "C92_simulated"
   ],
   "note": "Exact arithmetic and ideal draws: independent and normal, as in C88 and C89. That the sensitivities a simulation reports are derivatives of its value at the draws it took is C70, for the fuzzy evaluator; here the evaluation is the ordinary one. A vega is per unit of volatility (C48)."
  },
  {
   "property": "C93",
   "status": "partial",
   "theorems": [
    "C93_rows",
    "C93_batches",
    "C93_twice_refuted",
    "C93_error_any",
    "C93_independent",
    "C93_error_partial",
    "C93_error_refuted",
    "C93_value_partial"
   ],
   "note": "True of one batch of paths only. C93_error_any gives the error of an average for any choice of rows and C93_independent says that it is that of independent paths exactly when no row is used twice. C93_rows and C93_value_partial say which rows of the stream the value averages over, C93_error_partial that the average is unbiased and what its error is: for b full batches of an even size, (2 - 1/b) times that of as many independent paths. C93_twice_refuted and C93_error_refuted refute the property for two batches or more. Batches of odd size overlap too (C22_normals_repeat_refuted) but not row on row, and are left out of the statement about the error. The rows are taken for ideal draws, as in C89."
  },
  {
   "property": "C94",
   "status": "partial",
   "theorems": [
    "C94_black",
    "C94_bachelier",
    "C94_threshold_refuted",
    "C94_merton",
    "C94_value_mrg32",
    "C94_value_sobol"
   ],
   "note": "Exact arithmetic. Proved for the formulas where forward times strike reaches the threshold under which the code gives the payout (for the jump-diffusion price after every number of jumps), and for the simulation without restriction. Across the threshold it is refuted: the call with the lower strike is the cheaper one (C94_threshold_refuted)."
  }
 ]
}