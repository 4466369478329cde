{
 "claims": [
  {
   "property": "C01",
   "status": "proved",
   "theorems": [
    "C01_quantity_round_trip",
    "C01_quantity_text_injective"
   ],
   "note": "Negative zero prints as -0 and is read back as 0 (numerically equal)."
  },
  {
   "property": "C02",
   "status": "proved",
   "theorems": [
    "C02_read_exactly",
    "C02_foreign_character",
    "C02_complete",
    "C02_accepted_texts"
   ],
   "note": ""
  },
  {
   "property": "C03",
   "status": "proved",
   "theorems": [
    "C03_exact",
    "C03_no_mixing",
    "C03_product_exact",
    "C03_quotient_exact",
    "C03_product_commodity"
   ],
   "note": ""
  },
  {
   "property": "C04",
   "status": "partial",
   "theorems": [
    "C04_invert",
    "C04_inverse_refuted",
    "C04_inverse_partial"
   ],
   "note": "False for Amount::inverse on negative amounts (C04_inverse_refuted); true for Amount::invert."
  },
  {
   "property": "C05",
   "status": "proved",
   "theorems": [
    "C05_exact_sums",
    "C05_one_entry_per_commodity",
    "C05_order_independent",
    "C05_balance_plus_balance"
   ],
   "note": ""
  },
  {
   "property": "C06",
   "status": "partial",
   "theorems": [
    "C06_elided_refuted",
    "C06_elided_value_partial",
    "C06_balances_partial",
    "C06_accepted"
   ],
   "note": "False when the written postings sum to less than zero: the sign of the elided amount is wrong (C06_elided_refuted). Proved: the value is minus the absolute sum, and the transaction balances exactly if the sum is not negative."
  },
  {
   "property": "C07",
   "status": "partial",
   "theorems": [
    "C07_accepted_balance_refuted",
    "C07_elided_partial",
    "C07_two_commodities_partial",
    "C07_as_written_partial"
   ],
   "note": "False: no balance check is made (C07_accepted_balance_refuted). Proved: exactly when the filled-in amounts and costs balance a transaction; otherwise the postings stay as written."
  },
  {
   "property": "C08",
   "status": "proved",
   "theorems": [
    "C08_frame"
   ],
   "note": ""
  },
  {
   "property": "C09",
   "status": "partial",
   "theorems": [
    "C09_written_cost_partial",
    "C09_cost_refuted",
    "C09_cost_kept_partial"
   ],
   "note": "False for a posting in the priced commodity of a two-commodity transaction (C09_cost_refuted). Proved for all others: finalize keeps the cost, and reading a text gives the cost that is written (C09_written_cost_partial)."
  },
  {
   "property": "C10",
   "status": "proved",
   "theorems": [
    "C10_not_a_number",
    "C10_unit_cost",
    "C10_total_cost",
    "C10_no_cost"
   ],
   "note": "For lines of the syntax of C23 with plain numbers. Products up to the rounding of C50, exact if representable. A cost without symbol takes the symbol of the amount for @."
  },
  {
   "property": "C11",
   "status": "proved",
   "theorems": [
    "C11_implied_costs"
   ],
   "note": "Quotient and products up to the rounding of C50."
  },
  {
   "property": "C12",
   "status": "proved",
   "theorems": [
    "C12_prices_recorded"
   ],
   "note": "Quotients up to the rounding of C50."
  },
  {
   "property": "C13",
   "status": "proved",
   "theorems": [
    "C13_no_posting_without_amount",
    "C13_quantities_wf",
    "C13_all_finalised"
   ],
   "note": ""
  },
  {
   "property": "C14",
   "status": "proved",
   "theorems": [
    "C14_reachable_trees",
    "C14_register_then_find",
    "C14_full_name",
    "C14_names_identify"
   ],
   "note": ""
  },
  {
   "property": "C15",
   "status": "proved",
   "theorems": [
    "C15_register_frame"
   ],
   "note": ""
  },
  {
   "property": "C16",
   "status": "partial",
   "theorems": [
    "C16_lookup_partial",
    "C16_lookup_refuted"
   ],
   "note": "False for an unknown parent: find_account panics instead of returning None (C16_lookup_refuted); holds when every parent on the way exists."
  },
  {
   "property": "C17",
   "status": "proved",
   "theorems": [
    "C17_posting_lists"
   ],
   "note": ""
  },
  {
   "property": "C18",
   "status": "proved",
   "theorems": [
    "C18_account_total",
    "C18_account_amount",
    "C18_own_plus_children"
   ],
   "note": ""
  },
  {
   "property": "C19",
   "status": "proved",
   "theorems": [
    "C19_master_total",
    "C19_balanced_to_zero"
   ],
   "note": ""
  },
  {
   "property": "C20",
   "status": "proved",
   "theorems": [
    "C20_report_shape",
    "C20_report_succeeds",
    "C20_order_independent"
   ],
   "note": ""
  },
  {
   "property": "C21",
   "status": "partial",
   "theorems": [
    "C21_report_partial",
    "C21_printed_partial",
    "C21_text_refuted",
    "C21_text_partial"
   ],
   "note": "False: amounts are printed without a separator (C21_text_refuted: 5 and 10 EUR prints as 510 EUR). Proved when every amount has a commodity without digits, points or minus signs in its symbol: the text of one balance, the whole report (C21_report_partial) and what the program prints (C21_printed_partial) determine the accounts and totals, if no account is named like the words of the report."
  },
  {
   "property": "C22",
   "status": "proved",
   "theorems": [
    "C22_accounts_command",
    "C22_accounts_shape"
   ],
   "note": "The command prints last name components; report_accounts itself lists them depth first."
  },
  {
   "property": "C23",
   "status": "partial",
   "theorems": [
    "C23_posting_scanned",
    "C23_bare_lot_refuted"
   ],
   "note": "False for a lot after a quantity without symbol (C23_bare_lot_refuted); proved for all other combinations."
  },
  {
   "property": "C24",
   "status": "proved",
   "theorems": [
    "C24_header_scanned",
    "C24_header_read"
   ],
   "note": ""
  },
  {
   "property": "C25",
   "status": "partial",
   "theorems": [
    "C25_glued_cost_refuted",
    "C25_first_character_lost_partial",
    "C25_any_spaces_partial"
   ],
   "note": "False: without the space the first character of the cost is dropped (C25_glued_cost_refuted, C25_first_character_lost_partial). One or more spaces make no difference."
  },
  {
   "property": "C26",
   "status": "partial",
   "theorems": [
    "C26_ignored_refuted",
    "C26_other_number_refuted",
    "C26_tab_refuted",
    "C26_plain_number_partial",
    "C26_no_other_number_partial"
   ],
   "note": "False for 1,000 (ignored), $.50 (read as 50 of commodity '$.') and a tab before the amount (taken as part of the account name). Proved: plain numbers in the documented syntax are read, and an amount that is read is the number written."
  },
  {
   "property": "C27",
   "status": "partial",
   "theorems": [
    "C27_inert_lines_partial",
    "C27_inert_text_partial",
    "C27_empty_lines",
    "C27_after_posting_refuted"
   ],
   "note": "False for a comment directly after the last posting of a transaction: panic (C27_after_posting_refuted). Proved at every point that is not inside a transaction, and for empty lines also at the end of one."
  },
  {
   "property": "C28",
   "status": "proved",
   "theorems": [
    "C28_lines",
    "C28_texts",
    "C28_texts_blank_line"
   ],
   "note": ""
  },
  {
   "property": "C29",
   "status": "proved",
   "theorems": [
    "C29_read_appends"
   ],
   "note": "Price history entries keep their moments; a later price for the same pair and moment replaces the value."
  },
  {
   "property": "C30",
   "status": "proved",
   "theorems": [
    "C30_pool_consistent",
    "C30_find_or_create",
    "C30_stable_index"
   ],
   "note": "For the operations as the library calls them; calling the public CommodityPool::create for a known symbol breaks it (C30_create_twice)."
  },
  {
   "property": "C31",
   "status": "proved",
   "theorems": [
    "C31_newest_recorded",
    "C31_none_recorded"
   ],
   "note": ""
  },
  {
   "property": "C32",
   "status": "partial",
   "theorems": [
    "C32_moment_refuted",
    "C32_moment_partial"
   ],
   "note": "False: find_price ignores the requested moment and oldest date (C32_moment_refuted); holds only if all recorded prices lie in the range."
  },
  {
   "property": "C33",
   "status": "proved",
   "theorems": [
    "C33_contract_satisfiable",
    "C33_rate_of_chain"
   ],
   "note": "Relative to the contract of petgraph's astar (shortest path), which is shown satisfiable."
  },
  {
   "property": "C34",
   "status": "proved",
   "theorems": [
    "C34_ordinary_prices",
    "C34_lookup_total"
   ],
   "note": ""
  },
  {
   "property": "C35",
   "status": "partial",
   "theorems": [
    "C35_journal_refuted",
    "C35_directive_partial"
   ],
   "note": "False in a journal: a P line panics (C35_journal_refuted). The pool function parse_price_directive does record the price."
  },
  {
   "property": "C36",
   "status": "partial",
   "theorems": [
    "C36_include_inlined_partial",
    "C36_missing_ignored",
    "C36_missing_refuted",
    "C36_bare_name_refuted",
    "C36_bare_name_ignored",
    "C36_root_panics"
   ],
   "note": "False for a missing file, which is ignored (C36_missing_refuted, C36_missing_ignored), and for names that start with ~ or a backslash and have no directory (C36_bare_name_refuted, C36_bare_name_ignored); including / panics. Proved: any other include of an existing file acts as the inlined file followed by an empty line, names being resolved as names_file says."
  },
  {
   "property": "C37",
   "status": "partial",
   "theorems": [
    "C37_note_line_partial",
    "C37_note_read_partial",
    "C37_earlier_note_refuted"
   ],
   "note": "False for an earlier note on the same element, which is replaced (C37_earlier_note_refuted). The rest is proved."
  },
  {
   "property": "C38",
   "status": "partial",
   "theorems": [
    "C38_exchange_partial",
    "C38_basis_refuted"
   ],
   "note": "The basis cost is 0 instead of the final cost for a lot annotation without a price (C38_basis_refuted)."
  },
  {
   "property": "C39",
   "status": "partial",
   "theorems": [
    "C39_reported_refuted",
    "C39_rest_dropped",
    "C39_ends_transaction",
    "C39_message",
    "C39_message_inside",
    "C39_no_message",
    "C39_no_message_run",
    "C39_decodable"
   ],
   "note": "False: reading does not fail and the rest of the file is dropped (C39_reported_refuted). Proved: what is read instead, and that a message is printed on the standard output for each such line that is reached, so that without a message nothing was dropped."
  },
  {
   "property": "C40",
   "status": "proved",
   "theorems": [
    "C40_words_and_files",
    "C40_accepted",
    "C40_all_others_fail",
    "C40_bad_option"
   ],
   "note": "A lone \"-\" counts as an option group without letters and is dropped."
  },
  {
   "property": "C41",
   "status": "proved",
   "theorems": [
    "C41_balance",
    "C41_accounts",
    "C41_only",
    "C41_contents_only"
   ],
   "note": "Files with undecodable lines excluded, see C39. For run_command see C54."
  },
  {
   "property": "C42",
   "status": "partial",
   "theorems": [
    "C42_main_refuted",
    "C42_main_never_reports"
   ],
   "note": "False: the program passes its own path as the first word (C42_main_refuted); it never prints a report unless its path starts with 'a' or '-' or is a balance verb."
  },
  {
   "property": "C43",
   "status": "partial",
   "theorems": [
    "C43_posting_pointer_exact",
    "C43_posting_pointer_valid_partial",
    "C43_posting_pointer_refuted"
   ],
   "note": "False for every growth policy: a transaction with more postings than fit the first allocation (five) leaves dangling pointers (C43_posting_pointer_refuted). Proved: exactly which pointers are valid, and all of them while transactions are small."
  },
  {
   "property": "C44",
   "status": "partial",
   "theorems": [
    "C44_posting_names",
    "C44_parent_names",
    "C44_node_names",
    "C44_lifetime_exact",
    "C44_not_updated",
    "C44_pointer_valid_partial",
    "C44_small_journal_partial",
    "C44_account_refuted",
    "C44_xact_refuted",
    "C44_parent_refuted",
    "C44_amount_refuted",
    "C44_node_refuted"
   ],
   "note": "False for every growth policy and each kind of pointer (C44_*_refuted). Proved: exactly how long a pointer stays valid, that pointers are made for the right thing, and validity while the container fits its first allocation. Pointers of implied costs are not modelled."
  },
  {
   "property": "C45",
   "status": "proved",
   "theorems": [
    "C45_circle_never_read",
    "C45_circle_diverges",
    "C45_circle_no_report",
    "C45_depth_reading",
    "C45_depth_run",
    "C45_reading_terminates",
    "C45_run_terminates",
    "C45_cycle_diverges"
   ],
   "note": "Nesting depth of includes greater than the number of files is enough, and no larger depth changes a result; a circle of includes of any length is never read successfully, and diverges if nothing before the include lines panics."
  },
  {
   "property": "C46",
   "status": "partial",
   "theorems": [
    "C46_journal_accepted_partial",
    "C46_elided_sum_refuted"
   ],
   "note": "Acceptance without panic is proved in full, as are dates, payees, notes, accounts and written amounts. An amount left out becomes minus the absolute value of the sum (C06), so the meaning is wrong if the others sum to a negative number (C46_elided_sum_refuted)."
  },
  {
   "property": "C47",
   "status": "proved",
   "theorems": [
    "C47_date_text",
    "C47_accepted_valid",
    "C47_accepted_texts",
    "C47_accepted_times",
    "C47_days_and_moments",
    "C47_order"
   ],
   "note": ""
  },
  {
   "property": "C48",
   "status": "partial",
   "theorems": [
    "C48_which_partial",
    "C48_lot_refuted",
    "C48_first_lot_partial"
   ],
   "note": "False: only the first annotation of a commodity is stored, and a first posting without lot counts (C48_lot_refuted). Proved: which lot is kept after reading any file, namely that of the first posting with an amount in the commodity (C48_which_partial)."
  },
  {
   "property": "C49",
   "status": "partial",
   "theorems": [
    "C49_date_line_refuted",
    "C49_date_only_partial",
    "C49_date_space_partial",
    "C49_date_note_partial"
   ],
   "note": "False for a date followed directly by a line feed: always a panic (C49_date_line_refuted). Proved at the end of the text, with a space after the date, and with a note."
  },
  {
   "property": "C50",
   "status": "proved",
   "theorems": [
    "C50_product",
    "C50_quotient",
    "C50_sum",
    "C50_exact_if_representable",
    "C50_product_exists",
    "C50_quotient_exists"
   ],
   "note": ""
  },
  {
   "property": "C51",
   "status": "partial",
   "theorems": [
    "C51_one_pointer_partial",
    "C51_one_pointer_refuted"
   ],
   "note": "False: after the fourth commodity, EUR has two addresses (C51_one_pointer_refuted). Proved for small journals."
  },
  {
   "property": "C52",
   "status": "partial",
   "theorems": [
    "C52_balance_partial",
    "C52_balance_refuted"
   ],
   "note": "False when the amount left out is positive (C06): C52_balance_refuted. Proved for all files without such a transaction."
  },
  {
   "property": "C53",
   "status": "proved",
   "theorems": [
    "C53_read_accounts",
    "C53_accounts_command"
   ],
   "note": "For every input; the command for written files."
  },
  {
   "property": "C54",
   "status": "proved",
   "theorems": [
    "C54_run_command",
    "C54_words_unique",
    "C54_quoted",
    "C54_simple"
   ],
   "note": "The splitting is done by the shell_words crate, modelled from its documentation."
  },
  {
   "property": "C55",
   "status": "proved",
   "theorems": [
    "C55_reading",
    "C55_output",
    "C55_growth_unseen"
   ],
   "note": "For every growth policy, and whether or not forming a null reference counts as undefined."
  },
  {
   "property": "C56",
   "status": "partial",
   "theorems": [
    "C56_balance_partial",
    "C56_few_children",
    "C56_balance_exact_partial",
    "C56_every_growth_refuted",
    "C56_reading_partial",
    "C56_command_partial",
    "C56_commodities_refuted",
    "C56_postings_refuted",
    "C56_children_refuted",
    "C56_null_refuted"
   ],
   "note": "False with four commodities, five postings in a transaction, four accounts side by side, or (if forming a null reference is undefined) an amount left out next to one without commodity: C56_*_refuted; C56_every_growth_refuted: whatever the capacities are, there is a journal for which the balance command is undefined. Proved for all other journals that can be read. C56_balance_exact_partial: with few commodities, a balance report is defined exactly if no transaction has more postings than fit into the first allocation and no account is moved after an account below it has been made."
  },
  {
   "property": "C57",
   "status": "partial",
   "theorems": [
    "C57_refuted",
    "C57_sub_partial"
   ],
   "note": "False if the balance has no entry in that commodity and the amount is negative: the new entry is minus the absolute value (C57_refuted). Proved otherwise."
  },
  {
   "property": "C58",
   "status": "partial",
   "theorems": [
    "C58_refuted",
    "C58_all_partial",
    "C58_written_partial"
   ],
   "note": "False for a journal that already has transactions: the number is that of all of them (C58_refuted). Proved: what the number is, and that it is right for the first reading."
  },
  {
   "property": "C59",
   "status": "proved",
   "theorems": [
    "C59_own_balances",
    "C59_lines",
    "C59_text_injective"
   ],
   "note": "Both functions are private and not called by anything; account pointers are names (see C55). The text part needs symbols that are not empty and have no space."
  },
  {
   "property": "C60",
   "status": "proved",
   "theorems": [
    "C60_parse_amount"
   ],
   "note": "For numbers that fit the 96-bit mantissa and 28 decimals."
  },
  {
   "property": "C61",
   "status": "proved",
   "theorems": [
    "C61_sum",
    "C61_difference",
    "C61_product",
    "C61_quotient",
    "C61_ends"
   ],
   "note": "rust_decimal is modelled from its documentation (DESIGN.md section 4)."
  },
  {
   "property": "C62",
   "status": "proved",
   "theorems": [
    "C62_full_journal"
   ],
   "note": "Includes costs implied by two commodities when the rate and the costs are exact; what rounding does otherwise is C11."
  },
  {
   "property": "C63",
   "status": "proved",
   "theorems": [
    "C63_balance",
    "C63_accounts"
   ],
   "note": "Stated for what the program does with an amount left out; that this is wrong for positive ones is C06 and C52."
  },
  {
   "property": "C64",
   "status": "proved",
   "theorems": [
    "C64_items",
    "C64_fused",
    "C64_undecodable"
   ],
   "note": "The reader does not recognise directives yet: every item is Comment."
  },
  {
   "property": "C65",
   "status": "partial",
   "theorems": [
    "C65_buffer_refuted",
    "C65_buffer_partial"
   ],
   "note": "False from the second line on, because the buffer is never cleared (C65_buffer_refuted). Proved: what it holds."
  },
  {
   "property": "C66",
   "status": "partial",
   "theorems": [
    "C66_items",
    "C66_fused_refuted",
    "C66_overflow_refuted",
    "C66_calls_partial"
   ],
   "note": "False from the 256th call on: the u8 counter overflows, which panics with overflow checks and starts again without (C66_*_refuted). Proved for the calls before, and for loops."
  },
  {
   "property": "C67",
   "status": "proved",
   "theorems": [
    "C67_lookups",
    "C67_exchange_commodities",
    "C67_how"
   ],
   "note": ""
  },
  {
   "property": "C68",
   "status": "proved",
   "theorems": [
    "C68_next_element",
    "C68_price_element"
   ],
   "note": ""
  },
  {
   "property": "C69",
   "status": "proved",
   "theorems": [
    "C69_text",
    "C69_from",
    "C69_into",
    "C69_out_of_range",
    "C69_round_trip"
   ],
   "note": "rust_decimal is modelled from its documentation. The conversion from f32 is not modelled."
  },
  {
   "property": "C70",
   "status": "partial",
   "theorems": [
    "C70_windows_line_ends_partial",
    "C70_price_line_refuted"
   ],
   "note": "False for lines taken for prices, which are those starting with i that are no directives: the carriage return becomes part of the symbol (C70_price_line_refuted). Proved for all texts and files without such lines."
  },
  {
   "property": "C71",
   "status": "partial",
   "theorems": [
    "C71_trailing_space_partial",
    "C71_after_account_refuted",
    "C71_after_date_refuted"
   ],
   "note": "False for spaces after an account without amount (C71_after_account_refuted) and after a date without payee (C71_after_date_refuted). Proved for tabs and carriage returns everywhere and for spaces everywhere else."
  },
  {
   "property": "C72",
   "status": "partial",
   "theorems": [
    "C72_indentation_partial",
    "C72_tab_refuted",
    "C72_white_space"
   ],
   "note": "False for indentation that starts with a tab, which panics (C72_tab_refuted). Proved for indentation that starts with a space."
  },
  {
   "property": "C73",
   "status": "proved",
   "theorems": [
    "C73_every_line_counts",
    "C73_accounts",
    "C73_outline_unique",
    "C73_lines"
   ],
   "note": ""
  },
  {
   "property": "C74",
   "status": "partial",
   "theorems": [
    "C74_accounts",
    "C74_balance_partial",
    "C74_postings_partial",
    "C74_decimals_refuted"
   ],
   "note": "False for the number of decimals printed: adding to zero drops the decimals of the zero, so 5.00 or 5 is printed depending on the order (C74_decimals_refuted). Proved: the same accounts in the same order, each with the same value in each commodity."
  },
  {
   "property": "C75",
   "status": "proved",
   "theorems": [
    "C75_commodities",
    "C75_any_lines"
   ],
   "note": "C75_commodities is about lines that follow the syntax; C75_any_lines about all lines, with the parts of a line as C83 has them."
  },
  {
   "property": "C76",
   "status": "proved",
   "theorems": [
    "C76_decimals",
    "C76_order",
    "C76_one_commodity",
    "C76_minus_zero_refuted",
    "C76_two_commodities_refuted"
   ],
   "note": "The hypotheses are needed: a zero amount left out is shown as -0.00 or 0.00 depending on the order, and several commodities are shown in the order of reading (C76_minus_zero_refuted, C76_two_commodities_refuted)."
  },
  {
   "property": "C77",
   "status": "partial",
   "theorems": [
    "C77_prices",
    "C77_line_end_refuted"
   ],
   "note": "False for the commodity of a price line that ends its line: the line end becomes part of the symbol (C77_line_end_refuted). Proved for the symbol with the line end, and for symbols followed by a space or tab. Lines starting with P panic (C35); the lines read as prices are those of C70."
  },
  {
   "property": "C78",
   "status": "partial",
   "theorems": [
    "C78_trial_balance_partial",
    "C78_positive_rest_refuted",
    "C78_accepted_refuted"
   ],
   "note": "False if a positive amount is left out (C78_positive_rest_refuted, the defect of C06), and transactions that do not sum to zero are accepted (C78_accepted_refuted, the defect of C07). Proved for transactions that sum to zero or leave out an amount that is not positive."
  },
  {
   "property": "C79",
   "status": "proved",
   "theorems": [
    "C79_order",
    "C79_unique",
    "C79_report",
    "C79_same_text",
    "C79_reordered"
   ],
   "note": ""
  },
  {
   "property": "C80",
   "status": "proved",
   "theorems": [
    "C80_total",
    "C80_line",
    "C80_run",
    "C80_reading"
   ],
   "note": ""
  },
  {
   "property": "C81",
   "status": "proved",
   "theorems": [
    "C81_compare",
    "C81_max_min",
    "C81_equal_amounts",
    "C81_equal_prices",
    "C81_sum",
    "C81_difference",
    "C81_product",
    "C81_quotient",
    "C81_determined",
    "C81_same_arithmetic",
    "C81_same_signs",
    "C81_zero",
    "C81_same_balances"
   ],
   "note": ""
  },
  {
   "property": "C82",
   "status": "proved",
   "theorems": [
    "C82_reading",
    "C82_totals",
    "C82_report",
    "C82_prices",
    "C82_run"
   ],
   "note": ""
  },
  {
   "property": "C83",
   "status": "proved",
   "theorems": [
    "C83_posting",
    "C83_posting_refused",
    "C83_posting_one_way",
    "C83_header",
    "C83_header_total",
    "C83_price",
    "C83_price_refused"
   ],
   "note": ""
  },
  {
   "property": "C84",
   "status": "proved",
   "theorems": [
    "C84_transactions",
    "C84_content_unique"
   ],
   "note": ""
  },
  {
   "property": "C85",
   "status": "proved",
   "theorems": [
    "C85_refused",
    "C85_never_read"
   ],
   "note": ""
  },
  {
   "property": "C86",
   "status": "proved",
   "theorems": [
    "C86_reading",
    "C86_report",
    "C86_read_unless_refused",
    "C86_run"
   ],
   "note": ""
  },
  {
   "property": "C87",
   "status": "proved",
   "theorems": [
    "C87_reading",
    "C87_report",
    "C87_run"
   ],
   "note": ""
  },
  {
   "property": "C88",
   "status": "proved",
   "theorems": [
    "C88_balance",
    "C88_accounts",
    "C88_ordinary_balance",
    "C88_told_once"
   ],
   "note": ""
  },
  {
   "property": "C89",
   "status": "proved",
   "theorems": [
    "C89_reading",
    "C89_report",
    "C89_run",
    "C89_prices"
   ],
   "note": ""
  },
  {
   "property": "C90",
   "status": "proved",
   "theorems": [
    "C90_reading",
    "C90_report",
    "C90_run"
   ],
   "note": ""
  },
  {
   "property": "C91",
   "status": "proved",
   "theorems": [
    "C91_lines",
    "C91_determined",
    "C91_ordinary"
   ],
   "note": ""
  },
  {
   "property": "C92",
   "status": "proved",
   "theorems": [
    "C92_lookup"
   ],
   "note": "For any files read: the lookup is determined by the list of prices that the transactions and price lines state (recorded, as in C77). Direct pairs never fail; for chains the only failure is overflow of the product. The requested moment is ignored, as C32 says."
  },
  {
   "property": "C93",
   "status": "partial",
   "theorems": [
    "C93_arithmetic",
    "C93_balance",
    "C93_reading_partial",
    "C93_totals",
    "C93_report",
    "C93_run_partial",
    "C93_left_out_refuted"
   ],
   "note": "False if an amount is left out: inverse() keeps the sign of a negative amount, so the account of the left-out amount gets the same total in both files (C93_left_out_refuted). Proved for files in which every posting has an amount: arithmetic, reading, totals, report and command."
  },
  {
   "property": "C94",
   "status": "proved",
   "theorems": [
    "C94_right",
    "C94_defined",
    "C94_again",
    "C94_register",
    "C94_few",
    "C94_late_refuted"
   ],
   "note": "The first question can come too late (C94_late_refuted): the parent pointer is stale once three accounts have been registered beside the parent. Empty full names are not kept, so they are computed each time (C94_empty_case)."
  },
  {
   "property": "C95",
   "status": "proved",
   "theorems": [
    "C95_found",
    "C95_fresh",
    "C95_kept",
    "C95_mixed",
    "C95_node"
   ],
   "note": "The validity of kept pointers is decided exactly by the numbers of commodities before and after. The lookup of the library does not follow the pointers in the nodes; get_by_index does, and is undefined for early commodities of a file with many (C95_node, C95_case)."
  },
  {
   "property": "C96",
   "status": "proved",
   "theorems": [
    "C96_source",
    "C96_together",
    "C96_readable",
    "C96_refused",
    "C96_totals",
    "C96_order",
    "C96_twice",
    "C96_readable_refuted",
    "C96_refused_refuted"
   ],
   "note": "Both exceptions are real: a large lot price of one file makes another one overflow that does not have any lot (C96_readable_refuted), and a file that overflows on its own can be read after one that gave the lot first (C96_refused_refuted)."
  },
  {
   "property": "C97",
   "status": "proved",
   "theorems": [
    "C97_run",
    "C97_reading",
    "C97_source",
    "C97_reports",
    "C97_lookups",
    "C97_one_entry"
   ],
   "note": "The rearrangement is an arbitrary function of the journal, the nesting and the line; C97_backwards shows one that reverses all maps."
  },
  {
   "property": "C98",
   "status": "proved",
   "theorems": [
    "C98_source",
    "C98_files",
    "C98_run"
   ],
   "note": "With a left-out amount the claim does not hold (C98_left_out, see C93): the left-out amount is negative in both files, since inverse() keeps the sign of a negative amount. The account lines stay in the report with zeros; no line is dropped."
  },
  {
   "property": "C99",
   "status": "proved",
   "theorems": [
    "C99_source",
    "C99_run",
    "C99_full_source",
    "C99_full_run"
   ],
   "note": "The root is an exception: there, an include of the directory itself ends the program (C99_root). The names of files on the command line are looked up by the operating system; the theorem is about their contents."
  },
  {
   "property": "C100",
   "status": "partial",
   "theorems": [
    "C100_entries_partial",
    "C100_accounts_partial",
    "C100_commodities_partial",
    "C100_prices_partial",
    "C100_no_includes",
    "C100_exponential",
    "C100_doubling",
    "C100_linear_refuted"
   ],
   "note": "The claim is false without counting a file each time it is included: files that include the next one twice give 2^k transactions from 2k + 3 lines (C100_doubling, C100_linear_refuted)."
  },
  {
   "property": "C101",
   "status": "partial",
   "theorems": [
    "C101_alike_partial",
    "C101_unit_cost_refuted",
    "C101_left_out_refuted",
    "C101_notes_refuted",
    "C101_lots_refuted"
   ],
   "note": "What is lost is shown by four pairs of texts that give the same journal (C101_unit_cost_refuted, C101_left_out_refuted, C101_notes_refuted, C101_lots_refuted); the rest is determined."
  },
  {
   "property": "C102",
   "status": "partial",
   "theorems": [
    "C102_own_partial",
    "C102_balance_partial",
    "C102_accounts",
    "C102_split",
    "C102_merge",
    "C102_written_out",
    "C102_text_refuted"
   ],
   "note": "False for the number of decimals printed (C102_text_refuted). Proved: the same accounts in the same order with the same values, and the converse under the conditions of C21."
  },
  {
   "property": "C103",
   "status": "proved",
   "theorems": [
    "C103_run",
    "C103_report"
   ],
   "note": ""
  },
  {
   "property": "C104",
   "status": "proved",
   "theorems": [
    "C104_lookup",
    "C104_direct",
    "C104_found",
    "C104_records",
    "C104_files",
    "C104_ties_refuted",
    "C104_conflict_refuted"
   ],
   "note": "Both conditions are needed: with several shortest chains the order decides which one is taken (C104_ties_refuted, for the breadth-first search that meets the contract of astar), and of two prices for the same moment the one read last counts (C104_conflict_refuted)."
  },
  {
   "property": "C105",
   "status": "proved",
   "theorems": [
    "C105_chain",
    "C105_older",
    "C105_unrelated"
   ],
   "note": ""
  },
  {
   "property": "C106",
   "status": "proved",
   "theorems": [
    "C106_source",
    "C106_run",
    "C106_missing_refuted"
   ],
   "note": "C106_missing_refuted shows that the files must exist (finding 10)."
  }
 ]
}