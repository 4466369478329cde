NOTES.update({
 "C30": "For the operations as the library calls them; calling the public CommodityPool::create for a known symbol breaks it (C30_create_twice).",
 "C32": "False: find_price ignores the requested moment and oldest date (C32_moment_refuted); holds only if all recorded prices lie in the range.",
 "C33": "Relative to the contract of petgraph's astar (shortest path), which is shown satisfiable. The product is stated where every partial product is exact.",
 "C35": "False in a journal: a P line panics (C35_journal_refuted). The pool function parse_price_directive does record the price.",
 "C38": "The basis cost is 0 instead of the final cost for a lot annotation without a price (C38_basis_refuted).",
})
PARTIAL |= {"C32", "C35", "C38"}
NOTES["C33"] = "Relative to the contract of petgraph's astar (shortest path), which is shown satisfiable."

NOTES.update({
 "C06": "False when the written postings sum to less than zero: the sign of the elided amount is wrong (C06_elided_refuted). Proved: the value is minus the absolute sum, and the transaction balances exactly if the sum is not negative.",
 "C07": "False: no balance check is made (C07_accepted_balance_refuted). Proved: exactly when the filled-in amounts and costs balance a transaction; otherwise the postings stay as written.",
 "C09": "False for a posting in the priced commodity of a two-commodity transaction (C09_cost_refuted); proved for all others.",
 "C11": "Quotient and products up to the rounding of C50.",
 "C12": "Quotients up to the rounding of C50.",
})
PARTIAL |= {"C06", "C07", "C09"}

NOTES.update({
 "C29": "Price history entries keep their moments; a later price for the same pair and moment replaces the value.",
})

NOTES.update({
 "C21": "False: amounts are printed without a separator (C21_text_refuted: 5 and 10 EUR prints as 510 EUR). Proved when every amount has a commodity without digits, points or minus signs in its symbol: the text of one balance, the whole report (C21_report_partial) and what the program prints (C21_printed_partial) determine the accounts and totals, if no account is named like the words of the report.",
 "C22": "The command prints last name components; report_accounts itself lists them depth first.",
})
PARTIAL |= {"C21"}

NOTES.update({
 "C27": "False for a comment directly after the last posting of a transaction: panic (C27_after_posting_refuted). Proved at every point that is not inside a transaction, and for empty lines also at the end of one.",
 "C36": "False for a missing file, which is ignored (C36_missing_refuted, C36_missing_ignored). Proved: include acts as the inlined file followed by an empty line.",
 "C37": "False for an earlier note on the same element, which is replaced (C37_earlier_note_refuted). The rest is proved.",
 "C39": "False: reading does not fail and the rest of the file is dropped (C39_reported_refuted). Proved: what is read instead, and that a message is printed on the standard output for each such line that is reached, so that without a message nothing was dropped.",
 "C45": "Nesting depth of includes greater than the number of files is enough, and no larger depth changes a result; a circle of includes of any length is never read successfully, and diverges if nothing before the include lines panics.",
})
PARTIAL |= {"C27", "C36", "C37", "C39"}

NOTES.update({
 "C40": "A lone \"-\" counts as an option group without letters and is dropped.",
 "C41": "Files with undecodable lines excluded, see C39. For run_command see C54.",
 "C42": "False: the program passes its own path as the first word (C42_main_refuted); it never prints a report unless its path starts with 'a' or '-' or is a balance verb.",
})
PARTIAL |= {"C42"}

NOTES.update({
 "C10": "For lines of the syntax of C23 with plain numbers. Products up to the rounding of C50, exact if representable. A cost without symbol takes the symbol of the amount for @.",
 "C23": "False for a lot after a quantity without symbol (C23_bare_lot_refuted); proved for all other combinations.",
 "C25": "False: without the space the first character of the cost is dropped (C25_glued_cost_refuted, C25_first_character_lost_partial). One or more spaces make no difference.",
 "C26": "False for 1,000 (ignored), $.50 (read as 50 of commodity '$.') and a tab before the amount (taken as part of the account name). Proved: plain numbers in the documented syntax are read, and an amount that is read is the number written.",
 "C48": "False: only the first annotation of a commodity is stored, and a first posting without lot counts (C48_lot_refuted). Proved: which lot is kept after reading any file, namely that of the first posting with an amount in the commodity (C48_which_partial).",
 "C49": "False for a date followed directly by a line feed: always a panic (C49_date_line_refuted). Proved at the end of the text, with a space after the date, and with a note.",
})
PARTIAL |= {"C23", "C25", "C26", "C48", "C49"}

NOTES.update({
 "C46": "Acceptance without panic is proved in full, as are dates, payees, notes, accounts and written amounts. An amount left out becomes minus the absolute value of the sum (C06), so the meaning is wrong if the others sum to a negative number (C46_elided_sum_refuted).",
})
PARTIAL |= {"C46"}

NOTES.update({
 "C43": "False for every growth policy: a transaction with more postings than fit the first allocation (five) leaves dangling pointers (C43_posting_pointer_refuted). Proved: exactly which pointers are valid, and all of them while transactions are small.",
 "C44": "False for every growth policy and each kind of pointer (C44_*_refuted). Proved: exactly how long a pointer stays valid, that pointers are made for the right thing, and validity while the container fits its first allocation. Pointers of implied costs are not modelled.",
 "C51": "False: after the fourth commodity, EUR has two addresses (C51_one_pointer_refuted). Proved for small journals.",
})
PARTIAL |= {"C43", "C44", "C51"}
NOTES.update({
 "C52": "False when the amount left out is positive (C06): C52_balance_refuted. Proved for all files without such a transaction.",
 "C53": "For every input; the command for written files.",
})
PARTIAL |= {"C52"}
NOTES["C54"] = "The splitting is done by the shell_words crate, modelled from its documentation."
NOTES["C55"] = "For every growth policy, and whether or not forming a null reference counts as undefined."
NOTES["C56"] = "False with four commodities, five postings in a transaction, four accounts side by side, or (if forming a null reference is undefined) an amount left out next to one without commodity: C56_*_refuted; C56_every_growth_refuted: whatever the capacities are, there is a journal for which the balance command is undefined. Proved for all other journals that can be read. C56_balance_exact_partial: with few commodities, a balance report is defined exactly if no transaction has more postings than fit into the first allocation and no account is moved after an account below it has been made."
PARTIAL |= {"C56"}
NOTES["C57"] = "False if the balance has no entry in that commodity and the amount is negative: the new entry is minus the absolute value (C57_refuted). Proved otherwise."
NOTES["C58"] = "False for a journal that already has transactions: the number is that of all of them (C58_refuted). Proved: what the number is, and that it is right for the first reading."
NOTES["C59"] = "Both functions are private and not called by anything; account pointers are names (see C55). The text part needs symbols that are not empty and have no space."
NOTES["C60"] = "For numbers that fit the 96-bit mantissa and 28 decimals."
PARTIAL |= {"C57", "C58"}
NOTES["C61"] = "rust_decimal is modelled from its documentation (DESIGN.md section 4)."
NOTES["C62"] = "Includes costs implied by two commodities when the rate and the costs are exact; what rounding does otherwise is C11."
NOTES["C63"] = "Stated for what the program does with an amount left out; that this is wrong for positive ones is C06 and C52."
NOTES["C64"] = "The reader does not recognise directives yet: every item is Comment."
NOTES["C65"] = "False from the second line on, because the buffer is never cleared (C65_buffer_refuted). Proved: what it holds."
NOTES["C66"] = "False from the 256th call on: the u8 counter overflows, which panics with overflow checks and starts again without (C66_*_refuted). Proved for the calls before, and for loops."
NOTES["C69"] = "rust_decimal is modelled from its documentation. The conversion from f32 is not modelled."
PARTIAL |= {"C65", "C66"}

NOTES["C36"] = "False for a missing file, which is ignored (C36_missing_refuted, C36_missing_ignored), and for names that start with ~ or a backslash and have no directory (C36_bare_name_refuted, C36_bare_name_ignored); including / panics. Proved: any other include of an existing file acts as the inlined file followed by an empty line, names being resolved as names_file says."
NOTES["C09"] = "False for a posting in the priced commodity of a two-commodity transaction (C09_cost_refuted). Proved for all others: finalize keeps the cost, and reading a text gives the cost that is written (C09_written_cost_partial)."

NOTES["C70"] = "False for lines taken for prices, which are those starting with i that are no directives: the carriage return becomes part of the symbol (C70_price_line_refuted). Proved for all texts and files without such lines."
NOTES["C71"] = "False for spaces after an account without amount (C71_after_account_refuted) and after a date without payee (C71_after_date_refuted). Proved for tabs and carriage returns everywhere and for spaces everywhere else."
NOTES["C72"] = "False for indentation that starts with a tab, which panics (C72_tab_refuted). Proved for indentation that starts with a space."
PARTIAL |= {"C70", "C71", "C72"}
NOTES["C74"] = "False for the number of decimals printed: adding to zero drops the decimals of the zero, so 5.00 or 5 is printed depending on the order (C74_decimals_refuted). Proved: the same accounts in the same order, each with the same value in each commodity."
NOTES["C75"] = "C75_commodities is about lines that follow the syntax; C75_any_lines about all lines, with the parts of a line as C83 has them."
PARTIAL |= {"C74"}
NOTES["C76"] = "The hypotheses are needed: a zero amount left out is shown as -0.00 or 0.00 depending on the order, and several commodities are shown in the order of reading (C76_minus_zero_refuted, C76_two_commodities_refuted)."
NOTES["C77"] = "False for the commodity of a price line that ends its line: the line end becomes part of the symbol (C77_line_end_refuted). Proved for the symbol with the line end, and for symbols followed by a space or tab. Lines starting with P panic (C35); the lines read as prices are those of C70."
PARTIAL |= {"C77"}
NOTES["C78"] = "False if a positive amount is left out (C78_positive_rest_refuted, the defect of C06), and transactions that do not sum to zero are accepted (C78_accepted_refuted, the defect of C07). Proved for transactions that sum to zero or leave out an amount that is not positive."
PARTIAL |= {"C78"}
NOTES["C92"]="For any files read: the lookup is determined by the list of prices that the transactions and price lines state (recorded, as in C77). Direct pairs never fail; for chains the only failure is overflow of the product. The requested moment is ignored, as C32 says."
NOTES["C93"]="False if an amount is left out: inverse() keeps the sign of a negative amount, so the account of the left-out amount gets the same total in both files (C93_left_out_refuted). Proved for files in which every posting has an amount: arithmetic, reading, totals, report and command."
PARTIAL |= {"C93"}
NOTES["C94"]="The first question can come too late (C94_late_refuted): the parent pointer is stale once three accounts have been registered beside the parent. Empty full names are not kept, so they are computed each time (C94_empty_case)."
NOTES["C95"]="The validity of kept pointers is decided exactly by the numbers of commodities before and after. The lookup of the library does not follow the pointers in the nodes; get_by_index does, and is undefined for early commodities of a file with many (C95_node, C95_case)."
NOTES["C96"]="Both exceptions are real: a large lot price of one file makes another one overflow that does not have any lot (C96_readable_refuted), and a file that overflows on its own can be read after one that gave the lot first (C96_refused_refuted)."
NOTES["C97"]="The rearrangement is an arbitrary function of the journal, the nesting and the line; C97_backwards shows one that reverses all maps."
NOTES["C98"]="With a left-out amount the claim does not hold (C98_left_out, see C93): the left-out amount is negative in both files, since inverse() keeps the sign of a negative amount. The account lines stay in the report with zeros; no line is dropped."
NOTES["C99"]="The root is an exception: there, an include of the directory itself ends the program (C99_root). The names of files on the command line are looked up by the operating system; the theorem is about their contents."
NOTES["C100"]="The claim is false without counting a file each time it is included: files that include the next one twice give 2^k transactions from 2k + 3 lines (C100_doubling, C100_linear_refuted)."
PARTIAL |= {"C100"}
NOTES["C101"]="What is lost is shown by four pairs of texts that give the same journal (C101_unit_cost_refuted, C101_left_out_refuted, C101_notes_refuted, C101_lots_refuted); the rest is determined."
PARTIAL |= {"C101"}
NOTES["C102"]="False for the number of decimals printed (C102_text_refuted). Proved: the same accounts in the same order with the same values, and the converse under the conditions of C21."
PARTIAL |= {"C102"}
NOTES["C104"]="Both conditions are needed: with several shortest chains the order decides which one is taken (C104_ties_refuted, for the breadth-first search that meets the contract of astar), and of two prices for the same moment the one read last counts (C104_conflict_refuted)."
NOTES["C106"]="C106_missing_refuted shows that the files must exist (finding 10)."
