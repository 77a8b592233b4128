c("C19","proved",["C19_price_lookup"])
c("C20","proved",["C20_price_lookup_total"])
c("C21","proved",["C21_price_directions","C21_prices_are_those_added"])
c("C22","proved",["C22_iterator_agrees"])
c("C23","partial",["C23_later_price_wins_refuted","C23_some_price_of_the_day_partial"],"REFUTED: with repeated dates the result depends on the position in the list; only 'one of the prices of that day' holds.")
c("C24","proved",["C24_price_type_merge"])
c("C25","proved",["C25_as_days_counts_days","C25_date_from_days_inverse"])
c("C26","proved",["C26_day_arithmetic"])
c("C27","proved",["C27_floor"])
c("C28","proved",["C28_date_string_roundtrip"])
c("C29","partial",["C29_date_from_string_refuted","C29_separated_dates_partial"],"REFUTED: month/day are not validated; the positive part covers well-formed dates.")
c("C65","partial",["C65_as_years_monotone_partial","C65_as_years_refuted"],"REFUTED second half: day of month is ignored.")
c("C01","proved",["C01_balanced_iff_built"])
c("C02","proved",["C02_identities_unique"])
c("C03","proved",["C03_transactions_canonical","C03_built_book_conserves","C03_independent_of_sort"])
c("C04","proved",["C04_transactions_partition"])
c("C05","proved",["C05_running_balance"])
c("C06","proved",["C06_asking_changes_nothing"])
c("C07","proved",["C07_operations_keep_balance","C07_operations_succeed"],"The clock is assumed not to pass midnight during one SplitBy(today): Example C07_midnight shows the transaction torn apart otherwise.")
c("C08","proved",["C08_map_account_moves_money","C08_regex_accounts"])
c("C09","proved",["C09_since_asof","C09_zero_is_no_filter"])
c("C10","proved",["C10_split_by_period"])
c("C11","proved",["C11_move_portion"])
c("C12","proved",["C12_depreciation_schedule","C12_no_periods_stays_in_asset"])
c("C13","partial",["C13_time_adjustment_partial","C13_adjust_never_fails_refuted","C13_one_day_fails"],"REFUTED second half: AdjustBy divides by zero when all postings fall on one day. The scaling law is proved.")
c("C14","proved",["C14_amount_map"])
c("C15","proved",["C15_dedup_exact"])
c("C16","proved",["C16_reclassify"])
c("C17","partial",["C17_most_common_refuted","C17_unanimous_partial"],"REFUTED: 'k = max' instead of 'max = k' (book_reclassify.go) picks an arbitrary counter-account; a unanimous one is picked.")
c("C18","partial",["C18_account_listing_partial","C18_only_with_balance_refuted"],"REFUTED for accounts with several currencies; proved for Accounts(reg,false) and for single-currency accounts.")
c("C50","partial",["C50_decimals_partial","C50_decimals_enough_refuted"],"REFUTED: 0.125 gets one decimal. What is computed, and when it is enough, is proved.")
c("C62","partial",["C62_terms_refuted","C62_terms_after_map_partial"],"REFUTED: postings made by the builder have an empty term; after MapAccount the term is the account.")
c("C68","partial",["C68_reverse_filter_partial","C68_reverse_filter_refuted"],"REFUTED when nothing is selected (old transactions stay); otherwise the next Transactions() returns the selected ones.")
c("C30","proved",["C30_register_amounts"])
c("C31","proved",["C31_register_balances"])
c("C32","proved",["C32_register_complete"])
c("C33","partial",["C33_base_amount_refuted","C33_base_amount_partial"],"REFUTED: the price is looked up in the wrong direction (base in entry currency instead of entry currency in base). Exactness for the base currency and the traded rate are proved.")
c("C34","proved",["C34_register_window"])
c("C35","partial",["C35_count_ascending_partial","C35_descending_refuted"],"REFUTED for descending order: only half of the reversed rows are filled in and printing a nil row panics. Counting and ascending order are proved.")
c("C36","proved",["C36_inferred_rate"])
c("C37","partial",["C37_infer_rates_refuted"],"REFUTED: InferRates never leaves its loop.")
c("C38","proved",["C38_summary_rows"],"Divider of one character (the CLI default ':').")
c("C39","proved",["C39_subtotals_exact"],"Divider of one character.")
c("C40","proved",["C40_top_level_total"],"Divider of one character.")
c("C41","proved",["C41_credit_and_hidden"],"Divider of one character.")
c("C42","partial",["C42_parent_first_partial","C42_tree_order_refuted"],"REFUTED: siblings of equal amount interleave their subtrees. Every subtotal precedes all rows below it (proved).")
c("C69","proved",["C69_levels_and_names"],"Divider of one character.")
c("C70","partial",["C70_shared_parent_partial","C70_shared_parent_refuted"],"REFUTED: A:Foo:x and A:Foobar have no subtotal A. Proved when no component is followed by the divider in one account and extended in another.")
c("C44","proved",["C44_left_out_amount_balances","C44_balancing_unique"],"Every state reachable by builder calls, every iteration order of the balance map.")
c("C45","partial",["C45_amounts_read_exactly_partial","C45_long_amounts_refuted"],"REFUTED for long amounts: int64 wraps silently. Exact for at most 18 digits (proved).")
c("C46","partial",["C46_loading_terminates_partial","C46_circular_include_refuted"],"REFUTED for circular includes. Proved for every byte sequence whose include lines are not circular.")
c("C47","partial",["C47_loaded_book_is_balanced","C47_crashes_partial","C47_unbalanced_last_transaction_refuted"],"REFUTED: an unbalanced last transaction and a missing include crash the program. Every loaded book balances, and these are the only two crashes (proved).")
c("C48","partial",["C48_every_line_passed_on_partial","C48_silently_changed_refuted"],"REFUTED: an amount without currency is replaced, a NUL ends the file, costs are ignored. For every ledger in the grammar of LoaderSpec (with includes, aliases, prices, notes, left-out amounts) exactly its entries are loaded (proved).")
c("C51","proved",["C51_codec","C51_decoded_is_valid","C51_payee_and_note_preserved"])
c("C49","proved",["C49_export_reload","C49_one_note_when_built","C49_changed_on_reload_refuted"],"Round trip proved for every reachable book whose texts are in the loader's syntax and whose amounts are exact in the decimals used (at most 15 digits, English number format). The third theorem shows both conditions are needed: 0.125 and a price of a quoted unit are changed silently.")
c("C52","proved",["C52_padding","C52_every_text","C52_padding_again"],"Every text whose colour sequences are terminated; every text is such a text followed by at most one unterminated sequence.")
c("C53","partial",["C53_register","C53_fits_terminal_partial","C53_not_shrunk","C53_no_crash_partial","C53_empty_column_refuted"],"REFUTED for a table whose last shrinkable column is empty (division by zero). Proved for the register, whose headings keep that column non-empty (C53_register), and for every other table.")
c("C71","partial",["C71_summary_report_partial","C71_empty_report_refuted","C71_not_summarised_refuted"],"REFUTED: a report of no transaction crashes, and so does one that is not summarised when the last transaction has a row an earlier one lacks. Proved for every summary.")
c("C72","partial",["C72_elements_closed_partial","C72_elements_closed_refuted","C72_escaping_refuted"],"REFUTED: as many elements stay open as the level of the last row of each transaction; texts are not escaped. The exact number of unclosed elements is proved for texts without '<'.")
c("C55","partial",["C55_operation","C55_left_to_right","C55_first_error","C55_macro_is_expansion","C55_nesting_irrelevant","C55_macros_terminate_partial","C55_no_crash_partial","C55_macro_recursion_refuted","C55_invalid_pattern_refuted"],"REFUTED: a macro that mentions itself recurses until the stack overflows, and an invalid regular expression crashes (MustCompile) instead of yielding an error. Proved: the meaning of every operation text, order, first error, macro = expansion, termination for acyclic macros, no crash when the regular expressions compile.")
c("C67","partial",["C67_rename_prices_partial","C67_loop_completes","C67_order_refuted","C67_once_refuted"],"REFUTED: pairs that get the same name overwrite each other in map order, and a renamed entry may be renamed again. Proved for every iteration order when the renaming leaves its own results alone; exact when names do not collide.")
c("C73","proved",["C73_other_dates"],"")
c("C74","proved",["C74_filter_account","C74_filter_transaction"],"")

c("C54","proved",["C54_add_balanced"],"Any sequence of add() calls, also one that ends in an error, leaves a builder that builds a balanced book; without an error the account totals are those of the entries of the calls. The Starlark interpreter and the binding of arguments are not modelled.")
c("C75","partial",["C75_bad_arguments_partial","C75_bad_arguments_refuted"],"REFUTED: amt=None, denom=0 and a second account without a second amount crash the program. Proved instead: the exact condition for a crash, for a reported error and for success.")
c("C63","partial",["C63_json_fields_partial","C63_json_date","C63_posting_note_refuted"],"REFUTED: the note of a posting in the JSON export is the note of the transaction. Proved: all other fields and the order. The JSON text of these values is the subject of C98.")
c("C64","partial",["C64_accounts_open","C64_closed_iff_zero_partial","C64_closed_with_money_refuted"],"First sentence proved for every reachable book with valid dates. EXPECTED part REFUTED: an account with money in another currency is closed; it holds for accounts with one currency whose printed name is not shared.")
c("C76","partial",["C76_csv_partial","C76_csv_exact_refuted"],"REFUTED for amounts with more than six decimals (\"%f\"); proved: rows, order, fields, and exact amounts with up to six decimals. Quoting by encoding/csv is in C91.")

c("C56","partial",["C56_crash_partial","C56_completed","C56_next_start","C56_crash_refuted"],"REFUTED: the file is truncated before it is written; a crash in between loses the state, and the next start fails. Proved: at every crash point the file is as before or a beginning of the new contents; a completed save without failures is loaded back.")
c("C57","proved",["C57_monzo_keeps","C57_monzo_complete","C57_starling","C57_nordigen"],"For arbitrary server answers nothing is forgotten. Completeness for a server with a fixed history (Monzo, also when only the last 89 days are served), for a server reporting changes since a time (Starling), for all booked transactions (Nordigen).")
c("C58","partial",["C58_spacing_partial","C58_punctual","C58_not_delayed","C58_spacing_refuted"],"REFUTED: a sleep that lasts too long makes the next distance too short. Proved: k requests take at least k times the delay less the oversleep of the first; punctual sleeps keep the distance; no needless delay.")
c("C59","partial",["C59_first_existing","C59_search_list","C59_first_start","C59_default_without_macros_partial","C59_second_start_refuted","C59_settings","C59_correct_settings"],"REFUTED in every environment: [report.macros] has no field, the second start rejects the file. Proved: which file is used; only that section is to blame. The TOML library is a parameter that yields the keys of a text; for the default file the keys are computed.")
c("C66","partial",["C66_meaning","C66_round_trip","C66_repeated_partial","C66_repeated_refuted"],"REFUTED: a later bare key silently replaces a value. Proved: the meaning of every text, the round trip, and rejection of repeated key=value.")
c("C77","proved",["C77_import_reader"],"")
c("C78","proved",["C78_enum","C78_slice"],"For every comparison function (strings.EqualFold is a parameter).")
c("C79","partial",["C79_paging_ends_partial","C79_paging_ends_refuted"],"REFUTED: a full page (100) of transactions at one time is fetched for ever. Proved to end when fewer than a page happens in any 61 seconds.")
c("C80","partial",["C80_token_valid_partial","C80_no_needless_request","C80_refresh_refuted"],"REFUTED: the refresh token is only sent after it has expired. Proved: the access token is valid; no needless request.")
c("C81","partial",["C81_success_partial","C81_success_refuted"],"REFUTED for compressed files: an error of Close is dropped. Proved for plain files.")
c("C43","partial",["C43_book_kept_partial","C43_summary_always","C43_book_damaged_refuted"],"REFUTED: the rows added by a summary can overwrite the book's own postings when they fit into its array. Proved: exactly which books are spared, that the returned summary and all other books are right in any case, and what is left of the book otherwise.")
c("C60","partial",["C60_select_then_scale_partial","C60_duplicate_refuted"],"REFUTED: amounts and running balances are shared with the original. Proved: a duplicate that is only filtered and then scaled with AdjustBy (which makes new amounts) is independent, also of whatever is done to both later.")
c("C61","partial",["C61_shared_memory_partial","C61_books_reachable","C61_builder_reuse_refuted","C61_shared_amount_refuted"],"The main statement is proved (agreement of the program on shared memory with the program on values, for every program in which a builder is left alone after Build; Duplicate and Accumulate are C60 and C43). REFUTED: using a builder again after Build, or an amount for two postings.")
c("C82","partial",["C82_beancount_content_partial","C82_lines","C82_currencies_refuted","C82_price_line_refuted"],"First sentence proved. EXPECTED part REFUTED: FormatCurrency maps \"Fund 1\" and \"fund1\" to one currency, and prices are written as \"P date time ...\", which is not Beancount syntax.")
c("C83","proved",["C83_import_prints"],"Scripts are the add() calls they make; reading the input into Starlark values is not modelled.")
c("C84","proved",["C84_import_again"],"Same clock in both runs (dates of the script may depend on it).")
c("C86","partial",["C86_generate_prints_partial","C86_generate_refuted"],"REFUTED: data.since, data.asof and data.map change the ledger in memory before the deduplication. Proved: the exact output in terms of the ledger as the script left it, and for scripts that only read.")
c("C85","partial",["C85_import_appended_partial","C85_import_twice_partial","C85_import_appended_refuted"],"REFUTED: amounts that need more decimals than the ledger has are printed rounded (0.001 BTC comes back as nothing, or the ledger no longer loads); a transaction of zero amounts is not a transaction for the deduplication but keeps its name for the builder, so that the import comes back as 'Shop (2)' and is printed again. Proved: the whole statement when the printed amounts are exact in the decimals of the ledger, names are in the syntax of the loader, no printed account is an alias of the file and (for the same payee and the second import) every name used in the ledger still has a transaction.")
c("C87","proved",["C87_append_lines","C87_incomplete_refuted"],"C87_incomplete_refuted shows that the two conditions on the old file are needed: without a final newline the first added line is swallowed, after a NUL everything is.")
c("C88","partial",["C88_only_ledgers_load_partial","C88_every_ledger_loads","C88_white_space","C88_account_characters","C88_currency_characters","C88_lines_refuted"],"REFUTED: behind an amount a word beginning with D and a balance assertion (= 400 USD) are silently dropped, a transaction may begin in the middle of a line, and a price needs no unit. Proved: the exact set of texts that load and what they stand for, in both directions. unicode.IsLetter/IsDigit are parameters, false on NUL; includes are nested finitely.")
c("C89","partial",["C89_sent_values_partial","C89_one_redirect_partial","C89_one_by_one_partial","C89_state_check_refuted"],"REFUTED: two requests at the same time: the code of one is returned with the state of the other and passes the state check; a stray request (favicon) before the redirect makes the login fail. Proved for every schedule: an error, or a code and a state that were sent (never unset); if only one pair was sent it is that pair; requests served one by one give the pair of one request. Assignments of strings are atomic in the model.")
c("C91","partial",["C91_csv_tables_partial","C91_bad_delimiter","C91_script_sees_partial","C91_write_read_partial","C91_export_import_partial","C91_delimiters_refuted"],"REFUTED: with a tab as the delimiter empty cells disappear and the cells behind them move (TrimLeadingSpace eats the delimiter); two columns of one name: the first is lost. Proved for delimiters that are no white space: the reader accepts exactly the tables whose rows have the same length, with exactly their cells, and refuses every other text; different column names; including the round trip of export --type csv. encoding/csv is modelled from the Go standard library.")
c("C92","partial",["C92_json_seen_partial","C92_everything_seen_refuted"],"REFUTED: only the first value of a file is read (one object per line: the rest is dropped silently), members that are null are missing, integers above 2^53 change. Proved: the conversion is total and otherwise faithful for values of any depth and any map order. The text-to-value part of encoding/json is the subject of C99.")
c("C90","partial",["C90_register_partial","C90_combined_partial","C90_convert_partial","C90_name_is_pattern_refuted","C90_name_not_compiling_refuted","C90_bad_pattern_refuted","C90_bad_date_refuted","C90_stale_balance_refuted"],"REFUTED: the name of an account is used as a regular expression without quoting (A.B also shows AxB, A+B shows nothing of its own, a name with an open bracket ends the command); a pattern that does not compile crashes; an unreadable --begin or --asof is ignored; with --convert the accounts are chosen by their balances before the conversion. Proved for accounts with plain names (letters, digits, & ' : _ space), written dates and readable prices. Regular expressions are a parameter: only that plain text between ^ and $ matches itself is assumed (shown of a concrete compiler).")
c("C93","partial",["C93_report_partial","C93_summary_partial","C93_failing_operation_partial","C93_no_base_currency_partial","C93_price_of_day_refuted","C93_no_price_refuted"],"REFUTED: with --splitby every amount is converted at the price of the first day of its period, not of its own day; without any price 100 JPY become 100 GBP. Proved for all books with readable dates and positive prices, all operations and all periods; --sum for reports in one currency without --credit and --hidden (C38-C42 have those).")
c("C94","proved",["C94_whole_book","C94_period"],"The Starlark interpreter is not modelled: a loop is Iterate and Next until false. data.map is C86 and C13.")
c("C95","partial",["C95_nearest","C95_float64_ok","C95_script_sums_partial","C95_script_copy_partial","C95_move_partial","C95_script_exact_refuted","C95_move_exact_refuted"],"REFUTED: 0.10 + 0.20 - 0.30 posted by a script leaves a balance that is not zero (printed as 0.00 or -0.00); 90,071,992,547,409.93 is printed as .94; move with factor 0.1 does not move a tenth. Proved: the first sentence; and what is printed is exact for amounts that add up to at most 10^15 units of the last decimal. Overflow to an infinity is not modelled.")
c("C96","partial",["C96_kept_partial","C96_balances_partial","C96_kept_refuted"],"REFUTED: the list shares its memory with the book. After data.since and another data.transactions its balances count from the new period; data.map changes its accounts and amounts and can put postings of different days into one transaction. Proved: without a later data.map everything but the balances stays, after any earlier calls; the balances stay, too, until data.transactions is called after data.since or data.asof.")
c("C97","partial",["C97_same_loader","C97_position_partial","C97_first_error_partial","C97_unbalanced_partial","C97_position_refuted"],"REFUTED: when the wrong character is the newline (a quote not closed, an alias without account) the position is column 0 of the next line; unbalanced transactions have no position, are noticed only at the next header and blamed on the file of that header, and crash at the end of the ledger. Proved: otherwise line and column are exact, in the right one of the included files; an error of the main file is there whatever follows the character, and the lines before load without error; an unbalanced transaction is named with its date and payee. Errors of big.NewRat (64 decimals) and of an empty include name have no position.")
c("C98","proved",["C98_same_value","C98_any_bytes","C98_refused","C98_accounts","C98_export","C98_export_exact"],"encoding/json is modelled as text (escapes, shortest digits that read back, 'e' form, Indent, \\b and \\f of newer Go by a parameter), not verified from its source. Which fields the export has is C63.")
c("C99","proved",["C99_total","C99_first_value","C99_value_read","C99_whole_text","C99_one_value","C99_script","C99_round_trip","C99_read_write_read","C99_export_to_script"],"encoding/json (scanner, decoder, Unmarshal, Decoder.Decode into interface{}) is modelled as text, not verified from its source. That the script reads the first value only is C92's refuted part.")
c("C100","proved",["C100_sync","C100_token","C100_history","C100_cut","C100_bad_answer","C100_cut_answer","C100_no_token","C100_unknown","C100_more"],"For answers of the shape the code expects: one list of objects with an id (transactions: and a time). Which pages are asked for is C79; write errors and the .gz layer are C56 and C81; the token is kept as the JSON it is marshalled to.")
c("C101","partial",["C101_sync_partial","C101_history_partial","C101_refuted"],"REFUTED: amounts go through float64, 9007199254740993 and 9007199254740992 give the same file. Proved: with numbers of at most 15 digits (up to 17 decimals) in all answers, the file has exactly the numbers sent.")
c("C102","partial",["C102_rate_found_partial","C102_rate_found_year_partial","C102_rate_close_partial","C102_rate_lost_refuted"],"REFUTED: when too little comes back, Newton's first step falls below -100% and the answer is always -99.9999999% (100 paid, 20 back after a year: -80% is right). Proved in ideal arithmetic: when enough comes back the present values cancel out at the answer, and the answer is close to the rate of return. Missing: rounding of float64; flows of changing sign.")
c("C103","partial",["C103_loan_partial","C103_sign_refuted","C103_small_amounts_refuted"],"REFUTED: flows within a month give -99.9999999% or infinity depending on the sign; small amounts always give 10%. Proved in ideal arithmetic: signs may be reversed when later flows have one sign and one is in a later month.")
c("C104","proved",["C104_any_order","C104_day_of_month"],"In ideal arithmetic (no rounding).")
c("C105","partial",["C105_history_partial","C105_cut","C105_bad_answer","C105_omitted_refuted"],"REFUTED: an answer that leaves out the empty lists of spaces ({}) keeps the goals of the run before (decoded into the old value). Proved for answers that have the lists: the full statement for every history.")
c("C106","partial",["C106_monzo_partial","C106_starling_partial","C106_monzo_account_refuted","C106_monzo_page_refuted","C106_starling_account_refuted","C106_nordigen_partial","C106_nordigen_refuted"],"REFUTED: a null among the accounts or transactions is a nil pointer that is used. Proved: for any bytes, a run ends with a new file or an error unless there is such a null (starling: or null instead of the feed or the spaces) in an answer or in the state file.")
c("C107","partial",["C107_history_partial","C107_cut","C107_bad_answer","C107_choice","C107_unknown","C107_pending_refuted"],"REFUTED: one pending transaction without a transactionId and the run fails, although pending ones are skipped. Proved when the pending ones have ids: the full statement for every history; an answer that is not JSON or has a member that is not known changes nothing.")
c("C108","partial",["C108_load_partial","C108_load_stable_partial","C108_load_notes_partial","C108_report_partial","C108_register_accts_partial","C108_export_data_partial","C108_export_ledger_partial","C108_summary_partial","C108_ccy_partial","C108_export_refuted","C108_ccy_refuted","C108_notes_refuted"],"REFUTED: export as a ledger and ccy print in map order; the note of a merged posting is that of the one sort.Slice puts first, and with a sort that is correct but not stable it depends on the order in which the currencies of a left-out amount are visited. Proved for all orders and all correct sorts: the loaded books agree in everything but posting notes, and in those too if the sort is stable or merged postings have the same note; with a stable sort report, register, accts, JSON and CSV print the same bytes; export and ccy print the same pieces in another order; summaries agree for any correct sort. The price map of Accumulate and the operations of scripts are walked in a fixed order here (C17, C67 are about those orders).")
c("C109","partial",["C109_export_command_partial", "C109_again_partial", "C109_settled_partial", "C109_twice_refuted"],"REFUTED: the second export of a ledger changes 0.125 to 0.1. Proved from files to files, under the conditions of C49: the exported file loads as the ledger after the operations; if no currency changes its number of decimals exporting it again gives the same text up to the order of the price lists; and from the second export on (if it is still exact) nothing changes any more.")
c("C110","partial",["C110_period_report_partial", "C110_nothing_moves_refuted"],"REFUTED as a total claim: a file in which nothing moves (all amounts cancel) loads, and its report crashes (text.go indexes the last transaction of an empty list), C110_nothing_moves_refuted; so does a book with non-calendar dates or zero prices in general, which the theorem excludes (reportable). Everything else is proved end to end from the bytes to the printed text.")
c("C111","partial",["C111_output_partial", "C111_report_partial", "C111_accts_partial", "C111_register_partial", "C111_one_printer", "C111_two_places_refuted", "C111_left_running_refuted"],"REFUTED: register prints the heading of an account to the terminal before PrintColumns decides to start less, so the register is in the pager and its heading is not; cobra runs PersistentPostRun only when RunE returns nil, so a command that fails or crashes after less was started leaves it running. Proved: the exact split of the output and when the pager is closed, for every sequence of actions.")
c("C112","partial",["C112_register_of_file_partial", "C112_descending_refuted"],"REFUTED: descending order, the default, crashes (C35). Proved in full for --asc and account names of letters, digits, blanks and & ' : _ (other names are used as regular expressions, C90).")
c("C113","partial",["C113_larger_first_partial", "C113_one_piece_partial", "C113_huge_ascending_partial", "C113_larger_first_refuted"],"REFUTED for amounts above 10^9: the key becomes a negative number, \"-...\" sorts by size ascending (2,000,000,000 before 3,000,000,000). Proved for amounts of at most 10^9 either way that differ by at least 0.000003 (float64 rounding included): larger first with the whole subtree, and every subtree contiguous when no siblings tie, which is what C42 claims; from 10^9 + 1 to 7 x 10^10 such accounts come before all others, the smaller first.")
c("C114","partial",["C114_text_report_partial", "C114_gap_refuted", "C114_blank_names_refuted"],"REFUTED: whenever the last transaction has a row that another one lacks (and the others have none that it lacks) the command crashes; in a loaded book the names in front of the lines are blank (C62). Proved: printed exactly when all transactions have the same rows, refused when one has a row that the last lacks, for every book.")
c("C115","partial",["C115_accounts_of_file_partial", "C115_money_hidden_refuted"],"REFUTED: an account with 5 GBP is not listed when its last posting leaves another currency at zero (C18). Proved: end to end from the bytes to the printed text, for --all, and without --all when no account has two currencies. The command line is the subject of C116.")
c("C116","partial",["C116_report_partial", "C116_register_partial", "C116_export_partial", "C116_accts_partial", "C116_ccy_partial", "C116_one_value_partial", "C116_file_value_refuted", "C116_first_start_refuted", "C116_register_type_refuted"],"REFUTED: values in the configuration file are not validated (type = \"text\" prints a ledger instead of being refused); the configuration written at first start has convert = true without a currency, so that every report without --ccy is refused, and type \"Ansi\", printed as a ledger; without a configured type every register with an account to show is refused unless --type is given. Positive part proved for all command lines in the documented forms. pflag and cobra are third-party code: their parsing is modelled from its documentation as far as these commands use it (no abbreviations, aliases or completion); strings.EqualFold and strconv.ParseInt are parameters, the TOML reader from file text to keys too. The words of the file's `macros` table reach the commands (macros_in).")
c("C117","proved",["C117_import", "C117_definition", "C117_generate", "C117_generate_definition", "C117_plain"],"C117_import/C117_generate: for every definition, command line and configuration file the options have the values of C116, the refusals are as stated, and otherwise the run is exactly run_import/run_generate (whose printed text C83–C86 describe) on the scripts of the files. Note that an option given as an empty text counts as given (--acct=\"\" passes), and that a configtype that is no format is refused only when the command runs. The Starlark interpreter and the file system are parameters; that cobra finds the subcommand NAME is not modelled.")
c("C118","partial",["C118_report_partial", "C118_accts_partial", "C118_register_partial", "C118_export_partial"],"Composition of C116 (options), C88 (ledger bytes) and C109/C110/C112/C115 (printed text), with no hypothesis on intermediate values. REFUTED as in C110: a file in which nothing moves crashes the report (the second case of C118_report_partial), and as in C115 an account with money can be missing from accts when it has several currencies (registered speaks of one currency per account). C118_export_partial is stated for every exportable book that loads (C109's conditions). Missing: operations and macros named on the line, --credit, --hidden, --convert, --combined, another --type, register without --asc (C112: an account with several lines crashes) or on names that are not plain; C118_register_partial gives the text of every account's table, the heading line with the account's name is printed as in C111; pflag, cobra and the TOML reader are third-party code modelled as in C116.")
