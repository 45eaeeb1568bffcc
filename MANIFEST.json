{
 "claims": [
  {
   "property": "C01",
   "status": "proved",
   "theorems": [
    "C01_parse_floor",
    "C01_parse_exact",
    "C01_parse_succeeds"
   ],
   "note": "Literal = [-]digits[.digits]; success condition and exact result."
  },
  {
   "property": "C02",
   "status": "partial",
   "theorems": [
    "C02_sign_symmetry_refuted",
    "C02_sign_symmetry_partial"
   ],
   "note": "The code violates the property (big.Int.Div floors): refuted by -0.011 vs 0.011 at 2 decimals. Partial: the gap is at most one minor unit, and symmetric exactly when the reading is exact."
  },
  {
   "property": "C03",
   "status": "proved",
   "theorems": [
    "C03_amount_round_trip"
   ],
   "note": "Guard: commodity has at most 50 decimals (bigPow10 table)."
  },
  {
   "property": "C04",
   "status": "proved",
   "theorems": [
    "C04_width",
    "C04_width_too_big",
    "C04_width_fewer_decimals_refuted"
   ],
   "note": "Width at the amount's own decimals or more. With fewer decimals (not claimed by the property) it can be off: C04_width_fewer_decimals_refuted."
  },
  {
   "property": "C05",
   "status": "proved",
   "theorems": [
    "C05_rounding"
   ],
   "note": ""
  },
  {
   "property": "C06",
   "status": "proved",
   "theorems": [
    "C06_sum_exact",
    "C06_order_independent",
    "C06_add_converted"
   ],
   "note": ""
  },
  {
   "property": "C07",
   "status": "proved",
   "theorems": [
    "C07_times",
    "C07_times_total",
    "C07_times_negated"
   ],
   "note": ""
  },
  {
   "property": "C08",
   "status": "partial",
   "theorems": [
    "C08_equal_symmetric_refuted",
    "C08_compare_partial",
    "C08_compare_truncates",
    "C08_order_partial",
    "C08_magnitude_partial",
    "C08_magnitude_refuted"
   ],
   "note": "Symmetry of IsEqual is refuted for amounts of different decimals; proved: agreement with the order of values when the receiver has at least as many decimals."
  },
  {
   "property": "C09",
   "status": "proved",
   "theorems": [
    "C09_pow10",
    "C09_big_pow10",
    "C09_log10",
    "C09_big_log10",
    "C09_set_fraction"
   ],
   "note": ""
  },
  {
   "property": "C10",
   "status": "proved",
   "theorems": [
    "C10_convert_iff_chain",
    "C10_convert_terminates",
    "C10_convert_ok_or_error",
    "C10_db_ok_reachable"
   ],
   "note": "All map iteration orders; databases as built by ResolvePrices (C10_db_ok_reachable)."
  },
  {
   "property": "C11",
   "status": "proved",
   "theorems": [
    "C11_convert_along_chain",
    "C11_direct_price_preferred",
    "C11_nothing_to_convert"
   ],
   "note": ""
  },
  {
   "property": "C12",
   "status": "partial",
   "theorems": [
    "C12_order_independence_refuted",
    "C12_order_independence_partial"
   ],
   "note": "Refuted: with two chains and no direct price the result depends on Go map iteration order. Partial: success is order independent, and so is the result with a direct price or at most one currency per commodity."
  },
  {
   "property": "C13",
   "status": "partial",
   "theorems": [
    "C13_target_commodity_refuted",
    "C13_target_commodity_partial"
   ],
   "note": "Refuted: Convert returns an amount still labelled (and scaled) with the source commodity. Partial: the exact label it always carries."
  },
  {
   "property": "C14",
   "status": "proved",
   "theorems": [
    "C14_first_price_is_latest",
    "C14_lists_complete",
    "C14_reading_order_irrelevant",
    "C14_global_list_sorted"
   ],
   "note": "sort.Slice is modelled as any sorted permutation; among prices of one instant which comes first is unspecified."
  },
  {
   "property": "C15",
   "status": "proved",
   "theorems": [
    "C15_date_round_trip",
    "C15_calendar_date_round_trip",
    "C15_date_in_line"
   ],
   "note": "Also shown inside a line (C15_date_in_line). Year 99 and below is a counterexample outside the claimed range."
  },
  {
   "property": "C16",
   "status": "partial",
   "theorems": [
    "C16_two_digit_year_partial",
    "C16_two_digit_year_refuted"
   ],
   "note": "Refuted for a today like 1999 (98/1/1 becomes 1198): the century base is taken from the millennium. Partial: proved while today's year mod 1000 <= 150, i.e. 2000..2150."
  },
  {
   "property": "C17",
   "status": "partial",
   "theorems": [
    "C17_within_six_months",
    "C17_closest_date_partial",
    "C17_closest_date_refuted"
   ],
   "note": "Refuted (5 March 2020, 9/22 is read as 2020): the year is chosen by month distance. Proved: always within six calendar months; the closest date when the month is at most four months away around the year."
  },
  {
   "property": "C18",
   "status": "proved",
   "theorems": [
    "C18_days",
    "C18_typed_offset",
    "C18_typed_offset_today",
    "C18_months_keep_day",
    "C18_years_keep_day",
    "C18_back_and_forth"
   ],
   "note": "Offsets up to 10^9 (beyond that Go int arithmetic overflow is not modelled)."
  },
  {
   "property": "C19",
   "status": "proved",
   "theorems": [
    "C19_every_day_is_a_date",
    "C19_every_date_is_a_day",
    "C19_consecutive",
    "C19_origin",
    "C19_normalise"
   ],
   "note": "Proleptic Gregorian calendar, all integers; proved by integer arithmetic; the month table is checked per day of year."
  },
  {
   "property": "C20",
   "status": "proved",
   "theorems": [
    "C20_week",
    "C20_month",
    "C20_quarter",
    "C20_year",
    "C20_idempotent_monotone",
    "C20_same_period"
   ],
   "note": ""
  },
  {
   "property": "C21",
   "status": "proved",
   "theorems": [
    "C21_transactions_round_trip",
    "C21_ledger_round_trip",
    "C21_large_amount_refuted"
   ],
   "note": "Round trip proved for every list of transactions whose fields can be written; amounts limited to int64 minor units (the parser's guard, shown necessary by C21_large_amount_refuted)."
  },
  {
   "property": "C22",
   "status": "partial",
   "theorems": [
    "C22_format_command_partial",
    "C22_format_idempotent_partial",
    "C22_format_idempotent_refuted"
   ],
   "note": "Proved for the whole format command (with and without -t, whatever the ledger holds) for files whose completed transactions are writable (transaction_ok); the unguarded claim is false (refuted theorem)."
  },
  {
   "property": "C23",
   "status": "partial",
   "theorems": [
    "C23_header_round_trip_partial",
    "C23_header_text_refuted"
   ],
   "note": "Guarded round trip; refuted theorem lists headers that change when re-read."
  },
  {
   "property": "C24",
   "status": "partial",
   "theorems": [
    "C24_note_line_partial",
    "C24_note_line_refuted"
   ],
   "note": "Non-empty comment lines proved neutral; refuted: empty comment line creates a phantom posting, comment-only transaction panics."
  },
  {
   "property": "C25",
   "status": "partial",
   "theorems": [
    "C25_entry_end_partial",
    "C25_entry_end_refuted"
   ],
   "note": "A separating line without a word after white space ends the entry; without it the next entry is swallowed (refuted)."
  },
  {
   "property": "C26",
   "status": "proved",
   "theorems": [
    "C26_line_numbers"
   ],
   "note": ""
  },
  {
   "property": "C27",
   "status": "partial",
   "theorems": [
    "C27_commodity_round_trip_partial",
    "C27_commodity_symbol_refuted"
   ],
   "note": "All fields but the symbol, which the writer drops (refuted)."
  },
  {
   "property": "C28",
   "status": "partial",
   "theorems": [
    "C28_account_round_trip_partial",
    "C28_account_description_refuted"
   ],
   "note": "Round trip for descriptions of length <> 1; a one-letter description makes the file unloadable (refuted)."
  },
  {
   "property": "C29",
   "status": "proved",
   "theorems": [
    "C29_price_round_trip"
   ],
   "note": ""
  },
  {
   "property": "C30",
   "status": "proved",
   "theorems": [
    "C30_tag_line_round_trip",
    "C30_modify_argument"
   ],
   "note": "The tag sets ranged over are those the parser produces (modify only generates lines from parsed tags)."
  },
  {
   "property": "C31",
   "status": "partial",
   "theorems": [
    "C31_inverted_filter_partial",
    "C31_inverted_filter_meaning",
    "C31_expression",
    "C31_inverted_filter_refuted"
   ],
   "note": "True for single tags; refuted in general. C31_expression says what [!]KEY[:VALUE] selects. Regular expressions of the user are an arbitrary predicate."
  },
  {
   "property": "C32",
   "status": "partial",
   "theorems": [
    "C32_account_pattern_partial",
    "C32_ambiguous_refuted"
   ],
   "note": "All clauses but ambiguity rejection, which is refuted."
  },
  {
   "property": "C33",
   "status": "proved",
   "theorems": [
    "C33_accepted_iff",
    "C33_completion_unique",
    "C33_loaded_transactions_balance",
    "C33_one_commodity",
    "C33_rejected",
    "C33_accepted"
   ],
   "note": ""
  },
  {
   "property": "C34",
   "status": "proved",
   "theorems": [
    "C34_registers"
   ],
   "note": ""
  },
  {
   "property": "C35",
   "status": "proved",
   "theorems": [
    "C35_add",
    "C35_delete",
    "C35_add_twice",
    "C35_delete_undoes_add",
    "C35_sequences",
    "C35_move"
   ],
   "note": ""
  },
  {
   "property": "C36",
   "status": "partial",
   "theorems": [
    "C36_running_balances",
    "C36_one_commodity",
    "C36_other_commodity_refuted"
   ],
   "note": "Proved for every load; an assertion in a commodity other than the account's is compared by its number only (C36_other_commodity_refuted)."
  },
  {
   "property": "C37",
   "status": "proved",
   "theorems": [
    "C37_cumulative_totals",
    "C37_root_is_zero",
    "C37_own_commodity"
   ],
   "note": "Single commodity, as stated; the root total is also shown to be zero for every choice of days (-b/-e)."
  },
  {
   "property": "C38",
   "status": "proved",
   "theorems": [
    "C38_account_tree"
   ],
   "note": "All iteration orders of the account map; result independent of the recursion bound from some bound on."
  },
  {
   "property": "C39",
   "status": "proved",
   "theorems": [
    "C39_transaction_order"
   ],
   "note": ""
  },
  {
   "property": "C40",
   "status": "partial",
   "theorems": [
    "C40_format_keeps_checks_partial",
    "C40_format_keeps_checks_refuted"
   ],
   "note": "False of the code: format sorts same-day asserting transactions last, so a rewritten ledger can fail assertions that held (C40_format_keeps_checks_refuted). Proved: when no asserting transaction precedes a same-day plain one sharing an account, the rewritten file loads with the same registers and exactly the same warnings."
  },
  {
   "property": "C41",
   "status": "proved",
   "theorems": [
    "C41_day"
   ],
   "note": ""
  },
  {
   "property": "C42",
   "status": "proved",
   "theorems": [
    "C42_drop_undoes_load"
   ],
   "note": ""
  },
  {
   "property": "C43",
   "status": "proved",
   "theorems": [
    "C43_range",
    "C43_consecutive_ranges",
    "C43_register"
   ],
   "note": ""
  },
  {
   "property": "C44",
   "status": "proved",
   "theorems": [
    "C44_running_total",
    "C44_one_commodity"
   ],
   "note": ""
  },
  {
   "property": "C45",
   "status": "proved",
   "theorems": [
    "C45_aggregation",
    "C45_periods"
   ],
   "note": ""
  },
  {
   "property": "C46",
   "status": "partial",
   "theorems": [
    "C46_merge_partial",
    "C46_merge_keys_partial",
    "C46_other_commodity_refuted"
   ],
   "note": "Proved for timelines in one commodity (C46_merge_partial, C46_merge_keys_partial). False in general: an amount without a price into the parent's commodity is silently left out (C46_other_commodity_refuted)."
  },
  {
   "property": "C47",
   "status": "partial",
   "theorems": [
    "C47_top_keeps_totals_partial",
    "C47_one_left_over_refuted"
   ],
   "note": "Proved unless exactly one account is left over (C47_top_keeps_totals_partial); that account is then dropped (C47_one_left_over_refuted)."
  },
  {
   "property": "C48",
   "status": "partial",
   "theorems": [
    "C48_prints_partial",
    "C48_crashes_refuted"
   ],
   "note": "False of the code: four crashes in C48_crashes_refuted. C48_prints_partial: with at least one selected posting, non-empty categories and n at least the number of accounts the report is printed."
  },
  {
   "property": "C49",
   "status": "proved",
   "theorems": [
    "C49_cumulative",
    "C49_not_with_categories"
   ],
   "note": ""
  },
  {
   "property": "C50",
   "status": "proved",
   "theorems": [
    "C50_shorten"
   ],
   "note": ""
  },
  {
   "property": "C51",
   "status": "partial",
   "theorems": [
    "C51_crash_points_partial",
    "C51_finished",
    "C51_test_update",
    "C51_file_missing_refuted",
    "C51_write_error_refuted"
   ],
   "note": "Refuted as stated: between os.Remove and os.Rename there is no file of that name (C51_file_missing_refuted), and format -i / modify ignore write errors, so a truncated text replaces the file (C51_write_error_refuted). Proved: with successful writes, at every crash point (after every byte) the file is old, new, or missing with the complete new text in the temporary file, and no other file changes; `coin test` additionally survives any failing write."
  },
  {
   "property": "C52",
   "status": "partial",
   "theorems": [
    "C52_format_partial",
    "C52_format_alone",
    "C52_files",
    "C52_entries_kept_refuted"
   ],
   "note": "False as stated: only transactions survive (C52_entries_kept_refuted). Proved: the output is exactly the file's transactions, completed and in ledger order, it reads back as them, several files are handled independently and nothing stays in the registers."
  },
  {
   "property": "C53",
   "status": "partial",
   "theorems": [
    "C53_modify_partial",
    "C53_quantities_kept",
    "C53_all_moved_refuted"
   ],
   "note": "False as stated: only the first matching posting of a transaction is changed (C53_all_moved_refuted). Proved: an exact characterisation of what each transaction becomes and of the count; quantities and balances never change."
  },
  {
   "property": "C54",
   "status": "partial",
   "theorems": [
    "C54_cycles_partial",
    "C54_self_include",
    "C54_cycle_found_refuted"
   ],
   "note": "False as stated: only an include that matches its own file is detected (C54_self_include); a longer cycle is ended only by the operating system's limit of open files (C54_cycle_found_refuted). Proved: whatever loads successfully contains no include cycle and no chain longer than that limit (C54_cycles_partial)."
  },
  {
   "property": "C55",
   "status": "proved",
   "theorems": [
    "C55_post_conversion",
    "C55_post_balances"
   ],
   "note": ""
  },
  {
   "property": "C56",
   "status": "partial",
   "theorems": [
    "C56_rules_file_partial",
    "C56_lookup_ends",
    "C56_self_reference_refuted",
    "C56_lost_pattern_refuted",
    "C56_blank_line_refuted"
   ],
   "note": "Proved for every rules file of the documented shape (file_is, good_file) and, for lookups, for every file that reads. Full property refuted in three ways: a set that refers to itself makes the lookup endless (C56_self_reference_refuted), a one-character pattern or an account with '/' in its name turns into a rule that matches everything (C56_lost_pattern_refuted), rules below an empty line are taken for set names (C56_blank_line_refuted)."
  },
  {
   "property": "C57",
   "status": "partial",
   "theorems": [
    "C57_import_partial",
    "C57_balance_lost_refuted",
    "C57_time_of_day_refuted",
    "C57_other_commodity_refuted"
   ],
   "note": "Proved for a ledger and batch whose postings to an account have the same number of decimals: the output is the batch in ledger order without the transactions like an old one and without repetitions, nothing else dropped. In full it fails: FindEqual returns its argument, so MergeDuplicate merges a transaction into itself and a balance that comes with the dropped duplicate is lost (C57_balance_lost_refuted); records of the same day at another time are not recognised (C57_time_of_day_refuted); the commodity is ignored and excess decimals are cut before comparing (C57_other_commodity_refuted)."
  },
  {
   "property": "C58",
   "status": "partial",
   "theorems": [
    "C58_record_partial",
    "C58_exact",
    "C58_balanced",
    "C58_total",
    "C58_rounding_refuted"
   ],
   "note": "Two postings with opposite amounts in the same commodity, for every record; the amount of the statement is exact if the commodity has enough decimals (C58_exact), otherwise rounded down, so that a deposit and the same withdrawal differ by one unit (C58_rounding_refuted)."
  },
  {
   "property": "C59",
   "status": "partial",
   "theorems": [
    "C59_weekly_dates",
    "C59_weekly_count",
    "C59_weekly_ascending_partial",
    "C59_weekly_ascending_refuted",
    "C59_monthly_dates",
    "C59_monthly_count",
    "C59_monthly_ascending"
   ],
   "note": "Dates in range, requested days, count and interval proved for weekly and monthly; ascending proved for monthly, and for weekly when the requested days are in ascending order or picked at random; refuted for weekly(2,1,Friday,Tuesday) (C59_weekly_ascending_refuted)."
  },
  {
   "property": "C60",
   "status": "proved",
   "theorems": [
    "C60_any_label",
    "C60_batches"
   ],
   "note": ""
  },
  {
   "property": "C61",
   "status": "partial",
   "theorems": [
    "C61_pow_partial",
    "C61_pow_negative",
    "C61_pow_refuted"
   ],
   "note": "Proved modulo 2^64 for 0 <= e < 2^62; 1 for e <= 0; for larger exponents the loop never ends (C61_pow_refuted: no fuel suffices)."
  },
  {
   "property": "C62",
   "status": "partial",
   "theorems": [
    "C62_every_read_size_partial",
    "C62_every_read_size_refuted",
    "C62_last_line_lost",
    "C62_correct_unchanged"
   ],
   "note": "Proved for every sequence of positive buffer sizes. Refuted for zero-size buffers (the blank line is lost: the injected line is copied into an empty buffer and never re-sent) and a last line without a newline is never delivered (C62_last_line_lost)."
  },
  {
   "property": "C63",
   "status": "partial",
   "theorems": [
    "C63_balances_exact",
    "C63_running_balances_partial",
    "C63_running_balances_refuted",
    "C63_text_no_balances"
   ],
   "note": "Refuted: the balances shown are offset by the account's final balance, because generatePostings already accumulates the balance that CheckPostings then starts from; C63_balances_exact gives the exact value for ledgers in one commodity, C63_running_balances_partial the accounts for which it is right; the text output never shows a balance (C63_text_no_balances)."
  },
  {
   "property": "C64",
   "status": "partial",
   "theorems": [
    "C64_update_partial",
    "C64_nested_include_refuted",
    "C64_colon_refuted",
    "C64_results_read_back",
    "C64_no_end_refuted"
   ],
   "note": "Proved for tests that come file by file from files without ':' in their names (C64_update_partial), and the updated file reads back with the results (C64_results_read_back). Refuted: nested includes interrupting a file's tests put the second result at a wrong line; a ':' in the file name changes another file; a test without `end test` never finds its result."
  },
  {
   "property": "C65",
   "status": "partial",
   "theorems": [
    "C65_add_tags_partial",
    "C65_add_tags_refuted"
   ],
   "note": "Guarded: the first note has no '#', later notes none of the added keys, or the line is appended at the end; refuted otherwise."
  },
  {
   "property": "C66",
   "status": "partial",
   "theorems": [
    "C66_value_tags_partial",
    "C66_value_tags_refuted"
   ],
   "note": "Values of at least two characters; refuted for one character and for a trailing comma."
  },
  {
   "property": "C67",
   "status": "partial",
   "theorems": [
    "C67_listing_partial",
    "C67_listing_refuted"
   ],
   "note": "False of the code: a transaction with one posting loads but crashes the listing (C67_listing_refuted). Proved when every transaction has two or more postings."
  },
  {
   "property": "C68",
   "status": "proved",
   "theorems": [
    "C68_closed"
   ],
   "note": ""
  },
  {
   "property": "C69",
   "status": "partial",
   "theorems": [
    "C69_selection_partial",
    "C69_balance_selection",
    "C69_selection_refuted"
   ],
   "note": "False of the code for several accounts with an inverted payee: the ! is stripped from the option itself at the first account (C69_selection_refuted). Proved otherwise; user regular expressions are an arbitrary predicate."
  },
  {
   "property": "C70",
   "status": "proved",
   "theorems": [
    "C70_aggregated_register"
   ],
   "note": "Full functional correctness of the csv/json rows from the account tree on, whenever the account itself is among the columns shown (otherwise the program crashes, see C48). One commodity. Column widths and text layout are not modelled."
  },
  {
   "property": "C71",
   "status": "proved",
   "theorems": [
    "C71_tag_category",
    "C71_map_order"
   ],
   "note": ""
  },
  {
   "property": "C72",
   "status": "proved",
   "theorems": [
    "C72_recursive_register"
   ],
   "note": ""
  },
  {
   "property": "C73",
   "status": "partial",
   "theorems": [
    "C73_weekly_complete_partial",
    "C73_weekly_complete_refuted",
    "C73_weekly_full_week",
    "C73_monthly_complete_partial",
    "C73_monthly_complete_refuted"
   ],
   "note": "Full statement refuted: an end date that is itself a Sunday (weekly) or the first of a month (monthly) is missed (C73_*_refuted); every other requested date is generated (C73_*_partial); full weeks get exactly the requested number (C73_weekly_full_week)."
  },
  {
   "property": "C74",
   "status": "proved",
   "theorems": [
    "C74_one_per_date",
    "C74_by_the_rule"
   ],
   "note": "All accounts in one commodity (as in gen2coin's personal rules); amounts exact unless amt*10^decimals overflows int64."
  },
  {
   "property": "C75",
   "status": "proved",
   "theorems": [
    "C75_trim",
    "C75_words_unique",
    "C75_format_trim"
   ],
   "note": ""
  },
  {
   "property": "C76",
   "status": "proved",
   "theorems": [
    "C76_in_place",
    "C76_loads",
    "C76_include_path",
    "C76_rooted_path",
    "C76_unique"
   ],
   "note": ""
  },
  {
   "property": "C77",
   "status": "proved",
   "theorems": [
    "C77_load_all"
   ],
   "note": ""
  },
  {
   "property": "C78",
   "status": "proved",
   "theorems": [
    "C78_books_balance"
   ],
   "note": ""
  },
  {
   "property": "C79",
   "status": "partial",
   "theorems": [
    "C79_read_once_partial",
    "C79_read_once_refuted"
   ],
   "note": "False as stated: when prices.coin exists and transactions.coin does not, prices.coin is read twice and every price is entered twice (C79_read_once_refuted). Proved in every other case (C79_read_once_partial); files named by include lines are not counted."
  },
  {
   "property": "C80",
   "status": "partial",
   "theorems": [
    "C80_dump_partial",
    "C80_notes_refuted",
    "C80_drop_panics_refuted",
    "C80_redefined_set_refuted"
   ],
   "note": "Proved apart from the notes for dumpable indexes: every rule has an account, set names are distinct, no self reference, account names use the characters a rules file allows. Refuted in full: notes are dropped, a '--' rule panics, redefined sets change meaning."
  },
  {
   "property": "C81",
   "status": "proved",
   "theorems": [
    "C81_every_record",
    "C81_no_rules_refuted"
   ],
   "note": "Proved given a rules file; without one (neither COIN_DB/ofx.rules nor -rules) the import dereferences a nil index (C81_no_rules_refuted)."
  },
  {
   "property": "C82",
   "status": "partial",
   "theorems": [
    "C82_import_twice_partial",
    "C82_twice_refuted"
   ],
   "note": "For records at noon UTC (as the ledger stores its dates), accounts named in full, one number of decimals per account; the ledger is reloaded from the transactions as values (their text is the subject of C21). In full the property is false: records at other times of day are written by both imports (C82_twice_refuted)."
  },
  {
   "property": "C83",
   "status": "partial",
   "theorems": [
    "C83_value_partial",
    "C83_value_found",
    "C83_one_value",
    "C83_undefined_empty",
    "C83_dollar_refuted",
    "C83_cycle_refuted",
    "C83_short_row_refuted"
   ],
   "note": "Values, both directions (what the program computes is the meaning; the meaning is computed). Refuted: a dollar at the end of a template or '$$' panics; a definition that refers to itself never ends; a column the row does not have panics. User regular expressions are abstract."
  },
  {
   "property": "C84",
   "status": "partial",
   "theorems": [
    "C84_row_partial",
    "C84_balanced",
    "C84_good_row_read",
    "C84_thousands_refuted",
    "C84_unknown_symbol_refuted"
   ],
   "note": "Row = one transaction or dropped; balanced; good rows are read. Refuted: amounts with thousands separators panic (MustParseAmount), an unknown symbol ends the import."
  },
  {
   "property": "C85",
   "status": "partial",
   "theorems": [
    "C85_accounts_partial",
    "C85_commodity",
    "C85_found",
    "C85_child_taken_refuted"
   ],
   "note": "Posting accounts hold the commodity, at or below the account meant. Refuted: the README's 'if commodity doesn't match' - a child of the same commodity is preferred to a matching account."
  },
  {
   "property": "C86",
   "status": "partial",
   "theorems": [
    "C86_import_partial",
    "C86_no_rules_refuted",
    "C86_fields_refuted",
    "C86_fields_order"
   ],
   "note": "Every data row, sorted by date stably, ledger unchanged. Refuted: -fields without csv.rules panics at the first row; README's 7-index example is refused (8 needed). CSV decoding is given."
  },
  {
   "property": "C87",
   "status": "partial",
   "theorems": [
    "C87_sources_partial",
    "C87_quotes_refuted",
    "C87_optional_refuted"
   ],
   "note": "Sources read as written. Refuted: double quotes in expressions; skip count not optional; sections not optional; trailing blank after a column number; empty constant."
  },
  {
   "property": "C88",
   "status": "partial",
   "theorems": [
    "C88_amounts_partial",
    "C88_one_amount",
    "C88_bad_fractions",
    "C88_no_fraction_refuted",
    "C88_bad_numerator_refuted"
   ],
   "note": "Proved for every fraction with a positive denominator; refuted in full: currencies of ISO 4217 without a fraction element get no decimals, so 1.50 and -1.50 become 1 and -2; a numerator that is not a number is accepted (the error of big.Int.SetString is ignored)."
  },
  {
   "property": "C89",
   "status": "partial",
   "theorems": [
    "C89_accounts_partial",
    "C89_one_name",
    "C89_one_online_id",
    "C89_accepted",
    "C89_not_accepted",
    "C89_all_accounts",
    "C89_any_order",
    "C89_blanks_refuted",
    "C89_cad_refuted",
    "C89_slot"
   ],
   "note": "Refuted in full: accounts whose names differ only in blanks get one name, and one of them (by map order) is lost; a book with an account without a commodity (the root) needs the commodity CAD."
  },
  {
   "property": "C90",
   "status": "proved",
   "theorems": [
    "C90_transactions",
    "C90_accepted",
    "C90_balanced",
    "C90_any_order",
    "C90_prices"
   ],
   "note": "sort.Slice is any procedure that sorts (hypothesis sorts, met by the stable sort); the conversion by prices is a parameter that is never used since amounts are in the commodity of their account."
  },
  {
   "property": "C91",
   "status": "partial",
   "theorems": [
    "C91_read_back_partial",
    "C91_files",
    "C91_prices",
    "C91_accounts",
    "C91_transactions",
    "C91_commodities",
    "C91_name_refuted",
    "C91_semicolon_refuted"
   ],
   "note": "Refuted in full: account names with characters other than letters, digits, _ / - are cut when read back, and descriptions are cut at a semicolon. Ledger output (-l) is not modelled."
  },
  {
   "property": "C92",
   "status": "partial",
   "theorems": [
    "C92_yearly_partial",
    "C92_zones_refuted",
    "C92_no_prices_refuted"
   ],
   "note": "Proved for books whose times have one offset; refuted in full: with several time zones around New Year a year's file is created twice and its transactions are lost; -y stops if there are no prices or no transactions."
  },
  {
   "property": "C93",
   "status": "proved",
   "theorems": [
    "C93_tags",
    "C93_accounts",
    "C93_iteration_order",
    "C93_names"
   ],
   "note": "Tag maps are visited in any order (visits), the results map in any order; pattern is an arbitrary predicate."
  },
  {
   "property": "C94",
   "status": "proved",
   "theorems": [
    "C94_window",
    "C94_duplicates",
    "C94_pairs",
    "C94_checks",
    "C94_total",
    "C94_commodity_refuted"
   ],
   "note": "Everything stated is proved for all loadable ledgers except the last sentence: IsEqual ignores commodities, C94_commodity_refuted shows 5 CAD and 5 USD reported as duplicates. Locations and texts printed with a report are not modelled."
  },
  {
   "property": "C95",
   "status": "proved",
   "theorems": [
    "C95_accounts"
   ],
   "note": "fmt pads by runes, the model by bytes; IsClosed is C38/C68."
  },
  {
   "property": "C96",
   "status": "partial",
   "theorems": [
    "C96_commodities",
    "C96_price_list_partial",
    "C96_price_order_refuted",
    "C96_price_stats"
   ],
   "note": "Proved for every run; the price list of a commodity priced in more than one currency depends on the map order (C96_price_order_refuted), so determinism is proved for at most one currency only. Rows instead of text for prices; quotes (-q, network) not modelled."
  },
  {
   "property": "C97",
   "status": "partial",
   "theorems": [
    "C97_exported_amounts_partial",
    "C97_exported_amounts_refuted",
    "C97_other_decimals"
   ],
   "note": "Exact up to 2^53 minor units (partial); refuted beyond: the page reads 2^53+1 cents as 2^53. C97_other_decimals: texts with another number of decimals are cut or padded."
  },
  {
   "property": "C98",
   "status": "partial",
   "theorems": [
    "C98_displayed_amount",
    "C98_reread_partial",
    "C98_reread_refuted"
   ],
   "note": "The display is proved for every amount; reading the display back is refuted from 1,000,000 units on (only the first comma is dropped)."
  },
  {
   "property": "C99",
   "status": "partial",
   "theorems": [
    "C99_conversion_rounds_half_up_partial",
    "C99_conversion_refuted"
   ],
   "note": "Proved while |a*price| + 10^decimals < 2^53 minor units; refuted beyond."
  },
  {
   "property": "C100",
   "status": "partial",
   "theorems": [
    "C100_some_known_price",
    "C100_price_near_the_day_partial",
    "C100_latest_price_refuted"
   ],
   "note": "That a known price is always used is proved; the nearness needs prices at least every g days (partial); that it is the latest price on or before the day is refuted."
  },
  {
   "property": "C101",
   "status": "proved",
   "theorems": [
    "C101_priced_in",
    "C101_shortest_chain",
    "C101_no_history"
   ],
   "note": "Proved for every price graph and search history."
  },
  {
   "property": "C102",
   "status": "proved",
   "theorems": [
    "C102_data_survives_the_page"
   ],
   "note": "full: every JSON value with integer numbers; bytes above 127 are copied (valid UTF-8 assumed)"
  },
  {
   "property": "C103",
   "status": "partial",
   "theorems": [
    "C103_page_has_the_books_partial",
    "C103_loaded_ledger_partial",
    "C103_no_transactions_refuted",
    "C103_no_postings_refuted",
    "C103_account_called_root_refuted"
   ],
   "note": "proved for ledgers with at least one transaction, postings in each, no account with last segment Root; the three excluded cases are refuted (the page stops with an exception)"
  },
  {
   "property": "C104",
   "status": "partial",
   "theorems": [
    "C104_shown_date_partial",
    "C104_east_refuted"
   ],
   "note": "C104_shown_date_partial: right exactly when local midnight is not before UTC midnight; C104_east_refuted: every zone east of UTC shows the day before."
  },
  {
   "property": "C105",
   "status": "partial",
   "theorems": [
    "C105_range_partial",
    "C105_west_refuted",
    "C105_east_refuted",
    "C105_start_range",
    "C105_registers_in_order"
   ],
   "note": "C105_start_range and C105_registers_in_order hold for every zone and exported ledger; C105_range_partial: typed ranges at UTC; C105_west_refuted / C105_east_refuted say exactly what is shown elsewhere."
  },
  {
   "property": "C106",
   "status": "partial",
   "theorems": [
    "C106_balance_partial",
    "C106_balances_table",
    "C106_page_tree",
    "C106_assertion_first_refuted"
   ],
   "note": "C106_balance_partial needs that no asserting transaction precedes a same-day one without assertion in the file (C106_assertion_first_refuted otherwise) and one commodity per account; C106_balances_table and C106_page_tree are unconditional on loaded pages of one commodity."
  },
  {
   "property": "C107",
   "status": "proved",
   "theorems": [
    "C107_running_totals",
    "C107_subaccounts"
   ],
   "note": ""
  },
  {
   "property": "C108",
   "status": "proved",
   "theorems": [
    "C108_periods",
    "C108_first_days",
    "C108_groups",
    "C108_whole_periods",
    "C108_first_period_refuted",
    "C108_opening_balance_refuted",
    "C108_typed_range_refuted"
   ],
   "note": "C108_groups describes the rows for every range; C108_whole_periods: nothing is lost for whole periods; the refuted theorems show what is lost otherwise."
  },
  {
   "property": "C109",
   "status": "proved",
   "theorems": [
    "C109_other_keeps_totals",
    "C109_table",
    "C109_cumulative_refuted"
   ],
   "note": "Totals are kept for every order of accounts; C109_cumulative_refuted: the Cum.Total column repeats Total in every table."
  },
  {
   "property": "C110",
   "status": "proved",
   "theorems": [
    "C110_other_account",
    "C110_same_sign_refuted"
   ],
   "note": "C110_other_account for transactions in one commodity that sum to zero; C110_same_sign_refuted: a ledger that loads and is exported without warning and whose register cannot be shown."
  },
  {
   "property": "C111",
   "status": "partial",
   "theorems": [
    "C111_prices_loaded_partial",
    "C111_large_price_refuted"
   ],
   "note": "Refuted in general: a price of more than 2^53 minor units stops loadPrices (C111_large_price_refuted); proved for amounts of at most 2^53 minor units (price_ok)."
  },
  {
   "property": "C112",
   "status": "partial",
   "theorems": [
    "C112_reverse_is_nearest_partial",
    "C112_convert_back_partial",
    "C112_small_unit_refuted"
   ],
   "note": "Proved for positive prices and at most 14 decimals of both commodities together. C112_small_unit_refuted: a commodity whose unit is expensive compared to its decimals gets the reverse price zero."
  },
  {
   "property": "C113",
   "status": "proved",
   "theorems": [
    "C113_page_converts",
    "C113_coin_converts",
    "C113_both_ways"
   ],
   "note": "Assumes no price of zero. coms_ok: distinct ids."
  },
  {
   "property": "C114",
   "status": "partial",
   "theorems": [
    "C114_controls_agree_partial",
    "C114_select_root_recovers",
    "C114_one_setting",
    "C114_page_tree",
    "C114_unknown_root_refuted"
   ],
   "note": "Invariant over every history of possible actions; needs an account Assets and known root names. _refuted: a book with another root name opens a page that throws; selecting a known root recovers from any state."
  },
  {
   "property": "C115",
   "status": "partial",
   "theorems": [
    "C115_account_list_partial",
    "C115_end_date_refuted",
    "C115_list_and_balances",
    "C115_closed_account_refuted"
   ],
   "note": "Proved for histories that do not change the end date; _refuted: changing the end date leaves the old list, and the list shows accounts beneath a closed selected account which the balances table omits."
  },
  {
   "property": "C116",
   "status": "partial",
   "theorems": [
    "C116_automatic_aggregation_partial",
    "C116_no_period_refuted"
   ],
   "note": "Proved for ranges of nine days or more. _refuted: a short range can contain no period start, and then the table and the chart of subaccounts throw as soon as an account has a posting."
  },
  {
   "property": "C117",
   "status": "partial",
   "theorems": [
    "C117_accounts",
    "C117_exclude",
    "C117_exclude_self_refuted",
    "C117_table_partial",
    "C117_maximum_refuted",
    "C117_first_period_refuted"
   ],
   "note": "For every order of the columns and amounts in one commodity within 2^53. _refuted: maximum 0 or empty gives wrong totals, negative without accounts throws, postings before the first full period are in no row, excluding the selected account does nothing."
  },
  {
   "property": "C118",
   "status": "partial",
   "theorems": [
    "C118_bars",
    "C118_widths",
    "C118_row_total_partial",
    "C118_negative_refuted",
    "C118_largest_first"
   ],
   "note": "Bars, widths and details proved for all inputs; the length of a row is its total only without negative amounts (_partial, _refuted). Widths are computed exactly, not in doubles."
  },
  {
   "property": "C119",
   "status": "partial",
   "theorems": [
    "C119_short_names_partial",
    "C119_relative_name",
    "C119_same_label_refuted"
   ],
   "note": "Lengths in bytes. _refuted: different accounts can have the same label."
  },
  {
   "property": "C120",
   "status": "proved",
   "theorems": [
    "C120_characters",
    "C120_balance_listing",
    "C120_level",
    "C120_every_own_total_refuted",
    "C120_relative_level_refuted",
    "C120_symbols_refuted"
   ],
   "note": "The table is fully described. Findings kept as theorems: an account whose own total cancels the totals below it is hidden although its own total is not zero (C120_every_own_total_refuted); -l counts from the root, not from the account asked for (C120_relative_level_refuted); a commodity symbol longer than the id breaks the alignment (C120_symbols_refuted)."
  },
  {
   "property": "C121",
   "status": "proved",
   "theorems": [
    "C121_register_listing",
    "C121_aligned_totals_refuted",
    "C121_aligned_descriptions_refuted",
    "C121_account_shown_refuted"
   ],
   "note": "The lines are fully described; alignment under the stated conditions. Findings kept as theorems: the totals column is as wide as the last total only (C121_aligned_totals_refuted), descriptions of more than 50 characters are not cut (C121_aligned_descriptions_refuted), and the beginning of a name is cut even inside a segment, so that different accounts look the same (C121_account_shown_refuted)."
  },
  {
   "property": "C122",
   "status": "proved",
   "theorems": [
    "C122_csv",
    "C122_json",
    "C122_aggregated_output",
    "C122_distinct_headings_refuted",
    "C122_empty_category_refuted"
   ],
   "note": "CSV and JSON are read back by independent readers for all rows, and the text is described exactly. Findings kept as theorems: two columns may get the same heading (C122_distinct_headings_refuted); an empty category prints <nil> in the text and crashes CSV and JSON (C122_empty_category_refuted)."
  },
  {
   "property": "C123",
   "status": "proved",
   "theorems": [
    "C123_balance_from_files"
   ],
   "note": "End to end; several commodities would need conversions (C10-C14, C37) and are left out of this statement."
  },
  {
   "property": "C124",
   "status": "proved",
   "theorems": [
    "C124_register_from_files",
    "C124_single_posting_refuted"
   ],
   "note": "End to end. Finding kept as a theorem: a transaction with a single posting (of zero) loads without complaint but register panics when it is listed (C124_single_posting_refuted)."
  },
  {
   "property": "C125",
   "status": "proved",
   "theorems": [
    "C125_aggregated_from_files"
   ],
   "note": "End to end for one commodity. The cases in which the program crashes or mixes up the selection are excluded by hypotheses and refuted elsewhere (C48, C69, C122)."
  },
  {
   "property": "C126",
   "status": "proved",
   "theorems": [
    "C126_balance",
    "C126_register",
    "C126_aggregated"
   ],
   "note": "C126_balance, C126_register and C126_aggregated generalise C123-C125 (which are corollaries of them) to several commodities; the conditions of C123-C125 on -p !, single postings and sizes remain."
  },
  {
   "property": "C127",
   "status": "partial",
   "theorems": [
    "C127_files",
    "C127_verbose",
    "C127_quiet",
    "C127_one_file",
    "C127_each_file_partial",
    "C127_wrong_file_refuted",
    "C127_no_line_refuted",
    "C127_unknown_command_refuted",
    "C127_stopped"
   ],
   "note": "Proved for -v, for one file, and for what is printed about failing tests and the last line in general. The per-file lines are refuted: a file with a failing test is reported OK when the first test of the next file passes, and `success` is never reset, so the next file is reported FAIL (C127_wrong_file_refuted); a file may get no line at all (C127_no_line_refuted); an unknown command ends the run and the results already computed for that file are lost (C127_unknown_command_refuted). C127_each_file_partial: the per-file lines are right up to the first file with a failure, if each later file starts with a passing test."
  },
  {
   "property": "C128",
   "status": "partial",
   "theorems": [
    "C128_again_partial",
    "C128_no_newline_refuted"
   ],
   "note": "C128_again_partial: for outputs made of whole lines, none of which is 'end test'. C128_no_newline_refuted: an output without a final newline swallows the 'end test' line."
  },
  {
   "property": "C129",
   "status": "proved",
   "theorems": [
    "C129_from_balances",
    "C129_paid_off",
    "C129_from_doubles_refuted"
   ],
   "note": "Observed: with FROM_BALANCE and divisor 1 the balance paid out of is doubled instead of emptied, because the negated balance is subtracted (C129_from_doubles_refuted)."
  },
  {
   "property": "C130",
   "status": "proved",
   "theorems": [
    "C130_direct",
    "C130_linked"
   ],
   "note": "Prices with more than 50 decimals are excluded in C130_linked (C07: big.Int powers are precomputed up to 50). Of several latest lines with the same time any may be used. The commodity the result is labelled with is C13's subject."
  },
  {
   "property": "C131",
   "status": "partial",
   "theorems": [
    "C131_rows",
    "C131_table",
    "C131_chart",
    "C131_same_accounts",
    "C131_area_partial",
    "C131_pages",
    "C131_same_depth_refuted",
    "C131_area_refuted",
    "C131_negative_depth_refuted"
   ],
   "note": "Proved for all pages made of books (C131_pages): rows, table, chart (boxes, order, labels, sizes). Refuted: with the same depth the chart shows one level less than the table (it shows the table's accounts at depth+1, C131_same_accounts); a negative depth empties the table but not the chart; the area of a box is the total only if no balance beneath has the other sign (C131_area_partial). Sizes are in the smallest unit, not floating point; layout is not modelled."
  },
  {
   "property": "C132",
   "status": "proved",
   "theorems": [
    "C132_read",
    "C132_layout",
    "C132_ignored_refuted"
   ],
   "note": "Proved for every file of the grammar in S_Written; a header without description takes its note directly after the date or code. Refuted companion: parts of a posting line outside the grammar (1,000.00 CAD; an amount without commodity; = balance without amount) are dropped silently."
  },
  {
   "property": "C133",
   "status": "proved",
   "theorems": [
    "C133_read",
    "C133_database",
    "C133_says",
    "C133_one_meaning",
    "C133_include_blank_refuted"
   ],
   "note": "Read, database, says and one_meaning are full theorems over the grammar of S_Whole.v; refuted: trailing blanks of an include line make no difference (C133_include_blank_refuted). Status: the property as stated is proved; the refuted theorem is a related expectation."
  },
  {
   "property": "C134",
   "status": "proved",
   "theorems": [
    "C134_loads",
    "C134_written",
    "C134_book",
    "C134_only"
   ],
   "note": "C134_loads: files whose entries fit together (S_Consistent.consistent, plain) load and resolve for every iteration order of the account map, every price database and every commodity function that gives accounts their commodity; C134_written: the same from the text of the files (grammar of C133); C134_book: a book exists; C134_only: conversely a book made from plainly written entries shows that they fit together. Examples: a database in two commodities (ydb) and a small hand-written one."
  },
  {
   "property": "C135",
   "status": "partial",
   "theorems": [
    "C135_accepted_partial",
    "C135_whole_text_refuted",
    "C135_whole_accepted"
   ],
   "note": "Acceptance is characterised for every text (C135_accepted_partial, C135_whole_accepted); that only whole dates are accepted is refuted (C135_whole_text_refuted): what follows a leading date is ignored, so 12/31/2019 is taken for 2014/07/20."
  },
  {
   "property": "C136",
   "status": "proved",
   "theorems": [
    "C136_year",
    "C136_month",
    "C136_day",
    "C136_offset",
    "C136_iso"
   ],
   "note": ""
  },
  {
   "property": "C137",
   "status": "proved",
   "theorems": [
    "C137_tags_from_files",
    "C137_order_unique"
   ],
   "note": ""
  },
  {
   "property": "C138",
   "status": "proved",
   "theorems": [
    "C138_stats_from_files"
   ],
   "note": ""
  },
  {
   "property": "C139",
   "status": "proved",
   "theorems": [
    "C139_accounts_from_files",
    "C139_listed"
   ],
   "note": ""
  },
  {
   "property": "C140",
   "status": "proved",
   "theorems": [
    "C140_commodities_from_files",
    "C140_listed"
   ],
   "note": ""
  },
  {
   "property": "C141",
   "status": "partial",
   "theorems": [
    "C141_fraction",
    "C141_zero_denominator",
    "C141_equal_fractions_refuted",
    "C141_equal_fractions_partial"
   ],
   "note": "C141_fraction and C141_zero_denominator are full. C141_equal_fractions_refuted: 1/3 and -1/-3 dollars are 0.33 and 0.34; C141_equal_fractions_partial proves it for positive denominators."
  },
  {
   "property": "C142",
   "status": "proved",
   "theorems": [
    "C142_pattern",
    "C142_case"
   ],
   "note": ""
  },
  {
   "property": "C143",
   "status": "partial",
   "theorems": [
    "C143_elements",
    "C143_own_name",
    "C143_skips_partial",
    "C143_one_element_refuted"
   ],
   "note": "C143_elements and C143_own_name are full. For several colons C143_skips_partial is the direction that holds; C143_one_element_refuted shows that e::c matches Receipts."
  },
  {
   "property": "C144",
   "status": "proved",
   "theorems": [
    "C144_abbreviation"
   ],
   "note": ""
  },
  {
   "property": "C145",
   "status": "proved",
   "theorems": [
    "C145_command_line",
    "C145_one_meaning",
    "C145_refused",
    "C145_balance",
    "C145_order"
   ],
   "note": "The flag package is modelled from its documented behaviour and source; the theorems hold for every set of options, and for those of balance the values are given. Numbers are decimal."
  },
  {
   "property": "C146",
   "status": "proved",
   "theorems": [
    "C146_balance",
    "C146_rejected"
   ],
   "note": "For accounts of one commodity (as C126_balance) and amounts within the printable range; the order in which sub-accounts are visited is that of C126."
  },
  {
   "property": "C147",
   "status": "proved",
   "theorems": [
    "C147_test_balance"
   ],
   "note": "The test command of C127 with balance as the command under test, over a ledger loaded from the test file alone."
  },
  {
   "property": "C148",
   "status": "proved",
   "theorems": [
    "C148_one_request",
    "C148_register",
    "C148_rejected",
    "C148_unknown_format_refuted"
   ],
   "note": "C148_register, C148_one_request and C148_rejected hold in full; the expectation that an unknown output format is refused is refuted."
  },
  {
   "property": "C149",
   "status": "proved",
   "theorems": [
    "C149_register",
    "C149_aggregated"
   ],
   "note": "Without -f (location) and negative widths; accounts of one commodity (as C126); the known bad cases (C69, C122, C124 refuted) are excluded in plain_request and table_request."
  },
  {
   "property": "C150",
   "status": "proved",
   "theorems": [
    "C150_test_register",
    "C150_test_aggregated"
   ],
   "note": "The test command of C127 with register as the command under test; the same cases as C149."
  },
  {
   "property": "C151",
   "status": "partial",
   "theorems": [
    "C151_listed_partial",
    "C151_commodity_partial",
    "C151_unbalanced_refuted"
   ],
   "note": "Proved for every account but Unbalanced (C151_listed_partial, C151_commodity_partial); C151_unbalanced_refuted: ResolveAccounts (coin.go:170-173) overwrites a declared Unbalanced by accountFromName, so its commodity, note and closing date are lost."
  },
  {
   "property": "C152",
   "status": "proved",
   "theorems": [
    "C152_one_command",
    "C152_calls",
    "C152_unknown",
    "C152_coin",
    "C152_alone"
   ],
   "note": "The dispatch in coin_line covers the commands that print from a loaded database; accounts and commodities read their own files (C153), format and modify see C22/C52, test see C127."
  },
  {
   "property": "C153",
   "status": "proved",
   "theorems": [
    "C153_tags",
    "C153_stats",
    "C153_accounts",
    "C153_accounts_listed",
    "C153_commodities",
    "C153_rejected"
   ],
   "note": "commodities without an argument and without -q and -p only; a pattern that is not a regular expression (which panics) is outside the model."
  },
  {
   "property": "C154",
   "status": "proved",
   "theorems": [
    "C154_tests",
    "C154_run",
    "C154_unknown"
   ],
   "note": "Tests of balance and of register without aggregation (with aggregation: C150_test_aggregated), over accounts in one commodity with numbers that can be printed; that executing a command leaves the loaded data as it is follows the Go code (all amounts are copied) and is part of the model, not proved."
  },
  {
   "property": "C155",
   "status": "proved",
   "theorems": [
    "C155_price_lines",
    "C155_listed",
    "C155_one_listing",
    "C155_command_line"
   ],
   "note": "C155_price_lines: what is printed, for every order of the price map; C155_listed: when; C155_one_listing: with lines in one currency and of different days the text is determined; C155_command_line: from the command line. Amounts with at most 50 decimals (small_prices), as bigPow10 panics above. Without -f. C155_hypotheses, C155_one_hypotheses, C155_example: concrete files."
  },
  {
   "property": "C156",
   "status": "proved",
   "theorems": [
    "C156_price_stats",
    "C156_listed",
    "C156_command_line"
   ],
   "note": "C156_price_stats: what is printed, for every order of the maps; C156_listed: when; C156_command_line: from the command line. Amounts with at most 50 decimals (small_prices); no currency defined anew after a price line in it (settled). C156_example, C156_hypotheses: concrete files."
  },
  {
   "property": "C157",
   "status": "partial",
   "theorems": [
    "C157_account_of_statement_partial",
    "C157_without_rules",
    "C157_no_id_refuted"
   ],
   "note": "C157_account_of_statement_partial, C157_without_rules: the account found, for every order, when the id is given to one account (or none). C157_no_id_refuted: in every database whose files do not define Root, a statement without account id is taken to be of Root or of Unbalanced depending on the order. C157_hypotheses: a concrete database."
  },
  {
   "property": "C158",
   "status": "proved",
   "theorems": [
    "C158_parts",
    "C158_whole_price",
    "C158_bound_reached"
   ],
   "note": ""
  }
 ]
}