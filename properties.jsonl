{"id": "C01", "title": "Quantity text round trip", "statement": "Printing any representable quantity and parsing the printed text gives back the same quantity, with the same number of decimals.", "quantifier": "every sign, every 96-bit mantissa, every scale 0..28", "why_tests_cant": "2^96 * 29 * 2 quantities; a unit test samples a handful.", "anchors": ["src/amount.rs:Quantity::from_str", "src/amount.rs:impl Display for Quantity"]}
{"id": "C02", "title": "Quantity literals are read exactly or rejected", "statement": "Parsing a quantity string either yields exactly the decimal number written (same value, as many decimals as digits after the point) or yields nothing; it never rounds or truncates, and it yields nothing for any string with a foreign character such as a comma or space.", "quantifier": "every string", "why_tests_cant": "The set of strings is infinite; boundary behaviour (28 decimals, 96 bits, underscores, empty parts) cannot be enumerated.", "anchors": ["src/amount.rs:Quantity::from_str", "src/parser.rs:parse_amount_parts"]}
{"id": "C03", "title": "Amount arithmetic is exact and never mixes commodities", "statement": "Adding or subtracting two amounts of one commodity gives the exact sum or difference in that commodity whenever it is representable; with different commodities the operation panics and never produces a number.", "quantifier": "every pair of amounts", "why_tests_cant": "Pairs of 96-bit scaled decimals and all scale combinations.", "anchors": ["src/amount.rs:Amount::add", "src/amount.rs:AddAssign for Amount", "src/amount.rs:SubAssign for Amount"]}
{"id": "C04", "title": "Inverting an amount negates it", "statement": "Amount::inverse and Amount::invert return/produce the amount with the opposite sign: the original plus its inverse is zero, and inverting twice is the identity.", "quantifier": "every amount", "why_tests_cant": "Existing tests only invert positive amounts.", "anchors": ["src/amount.rs:Amount::inverse", "src/amount.rs:Amount::invert"]}
{"id": "C05", "title": "A balance holds exactly one exact sum per commodity", "statement": "After adding any sequence of amounts to an empty balance, the balance has one entry for each commodity that occurred, no entry for any other, and each entry is the exact sum of the amounts added in that commodity; the per-commodity result does not depend on the order of the additions.", "quantifier": "every finite sequence of amounts (and each of its permutations) whose sums are representable", "why_tests_cant": "Sequences are unbounded and permutations are factorial.", "anchors": ["src/balance.rs:Balance::add", "src/balance.rs:AddAssign<Balance> for Balance"]}
{"id": "C06", "title": "An elided posting amount balances the transaction", "statement": "When exactly one posting of a transaction has no amount and the others are in one commodity, the parsed posting receives exactly the negated sum of the others (at cost), so that the transaction sums to zero.", "quantifier": "every transaction with one elided amount", "why_tests_cant": "Depends on the sign and magnitude of sums over arbitrarily many postings; the test-suite only elides against positive sums.", "anchors": ["src/xact.rs:finalize", "src/amount.rs:Amount::inverse"]}
{"id": "C07", "title": "Accepted transactions balance", "statement": "Every transaction that is accepted into the journal sums to zero in every commodity, counting a posting at its cost when it has one (double-entry invariant).", "quantifier": "every transaction text the parser accepts", "why_tests_cant": "Universal over inputs; needs a proof or a counterexample, not samples.", "anchors": ["src/xact.rs:finalize"]}
{"id": "C08", "title": "Finalisation preserves everything the user wrote", "statement": "Finalising a transaction never changes the number or order of its postings, their accounts and notes, nor any amount the user wrote; only a missing amount may be filled in.", "quantifier": "every transaction and every price history", "why_tests_cant": "Frame condition over all postings and all code paths of finalisation.", "anchors": ["src/xact.rs:finalize", "src/pool.rs:CommodityPool::exchange"]}
{"id": "C09", "title": "A cost written by the user is kept", "statement": "If a posting is written with a cost (@ or @@), the parsed posting carries that cost.", "quantifier": "every transaction", "why_tests_cant": "Needs a particular combination of several postings and commodities to fail.", "anchors": ["src/xact.rs:finalize", "src/parser.rs:parse_cost"]}
{"id": "C10", "title": "Cost of a posting", "statement": "A posting written `Q C @ U D` gets the cost Q*U in commodity D (exactly, when representable, with the sign of Q); a posting written `Q C @@ T D` gets the cost T D as written; without a readable amount or a readable cost there is no cost.", "quantifier": "every posting", "why_tests_cant": "All quantities, signs and scales.", "anchors": ["src/parser.rs:parse_cost", "src/amount.rs:MulAssign for Amount"]}
{"id": "C11", "title": "Implied cost of a two-commodity transaction", "statement": "In a transaction without an elided amount whose balance has exactly two non-zero commodities, every posting in the commodity of the first posting (or the other one when that is not in the balance) gets the cost |Y/X| * amount in the other commodity, and no other posting's cost changes.", "quantifier": "every such transaction", "why_tests_cant": "Unbounded number of postings, arbitrary quantities, division rounding.", "anchors": ["src/xact.rs:finalize"]}
{"id": "C12", "title": "Every costed posting records its unit price", "statement": "Finalising a transaction adds, for each posting with a non-zero cost in a commodity different from the amount, exactly one price point |cost/amount| for that commodity at midnight of the transaction date; all other price points are kept, except one for the same pair and date which is replaced.", "quantifier": "every transaction and every earlier price history", "why_tests_cant": "Histories are unbounded; frame conditions on all other edges and dates.", "anchors": ["src/xact.rs:finalize", "src/pool.rs:CommodityPool::exchange", "src/history.rs:CommodityHistory::add_price"]}
{"id": "C13", "title": "No posting is left without an amount", "statement": "After any input has been parsed successfully, every posting of every transaction has an amount, every posting with a cost has the cost in a commodity different from that of the amount, and no transaction has exactly one posting.", "quantifier": "every journal text, starting from an empty journal or any already parsed one", "why_tests_cant": "Invariant over all inputs.", "anchors": ["src/xact.rs:finalize", "src/parser.rs:Parser::xact_directive"]}
{"id": "C14", "title": "Registered accounts can be found under their name", "statement": "Registering an account by a colon-separated name and then looking it up by that name returns that same account; its full name is the registered name (for names without empty components), its parent chain consists of the accounts named by the prefixes, and registering it again creates nothing.", "quantifier": "every account name and every existing account tree", "why_tests_cant": "All names, all tree shapes, all registration orders.", "anchors": ["src/account.rs:Account::find_or_create", "src/account.rs:Account::fullname", "src/journal.rs:Journal::register_account"]}
{"id": "C15", "title": "Registering an account disturbs nothing else", "statement": "Registering an account keeps every existing account, its children and its postings, and adds exactly the missing accounts on the path of the registered name, each without postings.", "quantifier": "every account name and every existing account tree", "why_tests_cant": "Frame condition over whole trees.", "anchors": ["src/account.rs:Account::find_or_create", "src/account.rs:Account::create_account"]}
{"id": "C16", "title": "Looking up a missing account yields nothing", "statement": "find_account returns None for every name under which no account was registered, and it never panics.", "quantifier": "every name and every account tree", "why_tests_cant": "Tests only look up existing accounts.", "anchors": ["src/account.rs:Account::find_account", "src/account.rs:Account::find_or_create", "src/journal.rs:Journal::find_account"]}
{"id": "C17", "title": "Account posting lists and the journal agree", "statement": "At any time after parsing, the posting list of an account consists of exactly the postings of the journal that name this account, each once and in journal order; every posting's account exists in the tree.", "quantifier": "every sequence of parsed texts", "why_tests_cant": "Consistency of two redundant structures over all histories.", "anchors": ["src/parser.rs:parse_post", "src/account.rs:Account::posts", "src/journal.rs:Journal::all_posts"]}
{"id": "C18", "title": "Account totals", "statement": "The total of an account is, for each commodity, the exact sum of the amounts of all postings to the account or to any account below it; equivalently own postings plus the totals of the direct children.", "quantifier": "every account of every parsed journal whose sums are representable", "why_tests_cant": "Arbitrary trees and posting histories.", "anchors": ["src/account.rs:Account::total", "src/account.rs:Account::amount"]}
{"id": "C19", "title": "The master total is the sum of all postings", "statement": "The total of the master account is the sum of the amounts of all postings in the journal; if every transaction sums to zero in a commodity then so does the master total.", "quantifier": "every parsed journal", "why_tests_cant": "Universal over journals.", "anchors": ["src/account.rs:Account::total", "src/report.rs:balance_report"]}
{"id": "C20", "title": "Shape of the balance report", "statement": "The balance report has exactly one line per account, in depth-first order with siblings in alphabetical order, each line giving the full name of the account and its total; it depends only on the set of accounts and not on hash order or the order in which siblings were created.", "quantifier": "every journal and every hash-map iteration order", "why_tests_cant": "HashMap order is random per process; all trees.", "anchors": ["src/report.rs:balance_report", "src/report.rs:get_children_lines"]}
{"id": "C21", "title": "The balance report text determines the balance", "statement": "Two accounts whose balance lines have the same text have the same balance.", "quantifier": "every pair of balances", "why_tests_cant": "Needs a collision between two different balances.", "anchors": ["src/report.rs:get_children_lines"]}
{"id": "C22", "title": "Shape of the accounts report", "statement": "The accounts command lists the name of every account of the journal exactly once per account, including the nameless master account, in alphabetical order.", "quantifier": "every journal", "why_tests_cant": "All trees, hash order.", "anchors": ["src/report.rs:report_accounts", "src/account.rs:Account::flatten_account_tree", "src/lib.rs:execute_command"]}
{"id": "C23", "title": "Posting line round trip", "statement": "A posting line written in the documented syntax `ACCOUNT  QTY SYM {QTY SYM} [DATE] @ QTY SYM` (any of the optional parts left out, symbol before or after the quantity, @ or @@) is scanned into exactly the account, quantity, symbol, lot price, lot date and cost that were written.", "quantifier": "every combination of account name, quantity text and symbols over the allowed characters", "why_tests_cant": "Infinite token space and combinations of optional parts.", "anchors": ["src/scanner.rs:scan_post", "src/scanner.rs:scan_amount", "src/scanner.rs:scan_annotations", "src/scanner.rs:scan_cost"]}
{"id": "C24", "title": "Transaction header round trip", "statement": "A header line `DATE[=AUXDATE] PAYEE[  ; NOTE]` is scanned into exactly the dates, payee and note that were written.", "quantifier": "every date text, payee and note over the allowed characters", "why_tests_cant": "Infinite token space.", "anchors": ["src/scanner.rs:tokenize_xact_header"]}
{"id": "C25", "title": "Costs are read the same with or without a space after @", "statement": "A cost written directly after the `@` or `@@` sign, as in `@25 EUR`, is read as the same cost as with a separating space.", "quantifier": "every cost text", "why_tests_cant": "Needs an unusual spacing no test covers.", "anchors": ["src/scanner.rs:scan_cost"]}
{"id": "C26", "title": "A written amount is never silently ignored", "statement": "If a posting line contains an amount after the account, the posting gets that quantity or parsing fails visibly; it is never read as a posting without an amount or with a different number.", "quantifier": "every posting line", "why_tests_cant": "Needs adversarial number formats (thousands separators, leading decimal point after the symbol, tab separator).", "anchors": ["src/parser.rs:parse_amount_parts", "src/scanner.rs:scan_symbol", "src/scanner.rs:scan_post"]}
{"id": "C27", "title": "Comments and blank lines are inert", "statement": "Inserting comment lines (;, #, *, |), option lines (-) or empty lines between directives changes nothing in the resulting journal.", "quantifier": "every journal text and every insertion point between directives", "why_tests_cant": "All texts and insertion points.", "anchors": ["src/parser.rs:Parser::read_next_directive"]}
{"id": "C28", "title": "Reading is compositional", "statement": "Reading one text after another into the same journal gives the same journal as reading the concatenated text, provided the first text ends between transactions.", "quantifier": "every pair of texts and every starting journal", "why_tests_cant": "Universal over pairs of texts.", "anchors": ["src/parser.rs:Parser::parse", "src/lib.rs:parse_text", "src/lib.rs:session_read_journal_files", "src/journal.rs:Journal::read"]}
{"id": "C29", "title": "Reading only appends", "statement": "Reading more input never changes or removes transactions, accounts, account postings, commodities or commodity indices that are already in the journal; new transactions come after the old ones.", "quantifier": "every journal and every further input", "why_tests_cant": "Frame condition over all inputs.", "anchors": ["src/parser.rs:Parser::parse", "src/journal.rs:Journal::add_xact", "src/pool.rs:CommodityPool::find_or_create"]}
{"id": "C30", "title": "One commodity per symbol with a stable index", "statement": "find_or_create returns the commodity of the given symbol, creating it at most once; distinct symbols have distinct graph indices, the index of a symbol never changes, and looking the commodity up by symbol or by index gives the same commodity.", "quantifier": "every sequence of pool operations", "why_tests_cant": "Operation sequences are unbounded.", "anchors": ["src/pool.rs:CommodityPool::find_or_create", "src/pool.rs:CommodityPool::create", "src/pool.rs:CommodityPool::find", "src/pool.rs:CommodityPool::get_by_index", "src/pool.rs:CommodityPool::find_index"]}
{"id": "C31", "title": "The direct price is the newest one recorded", "statement": "After any sequence of recorded prices, the direct price from one commodity to another is the one with the latest date-time, and of several for the same date-time the one recorded last; it exists iff some price was recorded for the pair in that direction.", "quantifier": "every sequence of price records", "why_tests_cant": "Unbounded histories in any chronological order.", "anchors": ["src/history.rs:CommodityHistory::add_price", "src/history.rs:CommodityHistory::get_direct_price", "src/history.rs:get_latest_price"]}
{"id": "C32", "title": "Price lookup respects the requested moment", "statement": "find_price(source, target, moment, oldest) never returns a price dated after `moment` or before `oldest`.", "quantifier": "every history and every moment", "why_tests_cant": "Needs histories with prices on both sides of the moment.", "anchors": ["src/history.rs:CommodityHistory::find_price"]}
{"id": "C33", "title": "Indirect rates are products along a shortest chain", "statement": "When there is no direct price, find_price returns the product of the newest prices along a chain of recorded prices with the fewest hops, dated with the oldest date among them (or now, if all lie in the future), in the target commodity.", "quantifier": "every history, every pair of commodities", "why_tests_cant": "All graphs.", "anchors": ["src/history.rs:CommodityHistory::find_price", "src/history.rs:CommodityHistory::calculate_rate"]}
{"id": "C34", "title": "Price lookup is total on known commodities", "statement": "For two different commodities of the pool find_price returns a price iff a chain of recorded prices leads from one to the other, returns None otherwise and does not panic (short of decimal overflow).", "quantifier": "every sequence of pool operations, every pair of commodities", "why_tests_cant": "Reachability of the 'should not happen' panics over all histories.", "anchors": ["src/history.rs:CommodityHistory::find_price", "src/history.rs:CommodityHistory::get_direct_price"]}
{"id": "C35", "title": "Price directives record the stated price", "statement": "A `P DATE [TIME] SYM QTY SYM2` line in a journal records exactly that price point for SYM in SYM2 and changes nothing else.", "quantifier": "every price line and journal", "why_tests_cant": "All dates, symbols and quantities; the parser dispatch has to be followed for every first letter.", "anchors": ["src/parser.rs:Parser::general_directive", "src/parser.rs:Parser::read_next_directive", "src/pool.rs:CommodityPool::parse_price_directive", "src/scanner.rs:scan_price_directive"]}
{"id": "C36", "title": "An include directive acts like the included text", "statement": "`include FILE` has exactly the effect of reading the contents of FILE at that point; an include naming no existing file is an error rather than a silent loss of data.", "quantifier": "every file system and every journal text", "why_tests_cant": "Nested includes to any depth; all file contents.", "anchors": ["src/parser.rs:Parser::include_directive", "src/parser.rs:Parser::general_directive", "src/lib.rs:parse_file"]}
{"id": "C37", "title": "Trailing notes attach to the preceding element", "statement": "An indented comment inside a transaction becomes the note of the transaction when no posting precedes it and of the immediately preceding posting otherwise; nothing else changes; an earlier note on the same element is not lost.", "quantifier": "every transaction text", "why_tests_cant": "All positions and numbers of notes.", "anchors": ["src/parser.rs:Parser::parse_trailing_note", "src/xact.rs:Xact::add_note", "src/post.rs:Post::add_note"]}
{"id": "C38", "title": "Exchange breakdown", "statement": "exchange(amount, cost, per_unit) returns the amount unchanged, the final cost (cost itself or cost*|amount|), the basis cost (lot price * amount when the commodity has a lot price, the final cost otherwise) and a new price that is the non-negative unit cost, iff that is non-zero.", "quantifier": "every amount, cost and annotation state", "why_tests_cant": "All sign and scale combinations and pool states.", "anchors": ["src/pool.rs:CommodityPool::exchange"]}
{"id": "C39", "title": "Unreadable input is reported, not dropped", "statement": "If a journal file contains a line that cannot be decoded, reading it fails; the rest of the file is not silently skipped.", "quantifier": "every file and every position of the undecodable line", "why_tests_cant": "All positions of corruption.", "anchors": ["src/parser.rs:Parser::parse", "src/parser.rs:Parser::xact_directive"]}
{"id": "C40", "title": "Command line splitting", "statement": "In `CMD ARGS... -f FILE1 ... -f FILEn` in any interleaving, the commands are the non-option words in order and the input files are the -f values in order; an unknown option or a missing value is an error.", "quantifier": "every argument vector", "why_tests_cant": "Unbounded argument vectors.", "anchors": ["src/option.rs:process_arguments", "src/option.rs:get_input_options"]}
{"id": "C41", "title": "Running a report command", "statement": "run() with a balance command returns the balance report of the journal obtained by reading the given files in order; every word starting with `a` runs the accounts report; the report is a function of the file contents only.", "quantifier": "every argument vector and file system", "why_tests_cant": "All inputs end to end.", "anchors": ["src/lib.rs:run", "src/lib.rs:execute_command", "src/lib.rs:session_read_journal_files"]}
{"id": "C42", "title": "The command line program behaves like the library entry point", "statement": "Invoking the program with the arguments of a report command prints what run() returns for these arguments.", "quantifier": "every program path and argument list", "why_tests_cant": "main() is not covered by tests at all.", "anchors": ["src/main.rs:main", "src/lib.rs:run"]}
{"id": "C43", "title": "Posting references held by accounts stay valid", "statement": "The postings listed by an account can be dereferenced at any later time: the referenced posting has not been moved or freed.", "quantifier": "every sequence of postings and transactions", "why_tests_cant": "Undefined behaviour is invisible to tests until the allocator reuses memory; depends on Vec growth.", "anchors": ["src/xact.rs:Xact::add_post", "src/account.rs:Account::posts", "src/parser.rs:parse_post"]}
{"id": "C44", "title": "Account, parent and commodity references stay valid", "statement": "The account of a posting, the parent of an account, the transaction of a posting and the commodity of an amount can be dereferenced at any later time.", "quantifier": "every sequence of registrations", "why_tests_cant": "Undefined behaviour; depends on HashMap and Vec growth policies and registration order.", "anchors": ["src/account.rs:Account::create_account", "src/account.rs:Account::fullname", "src/pool.rs:CommodityPool::create", "src/journal.rs:Journal::add_xact"]}
{"id": "C45", "title": "Parsing terminates", "statement": "Parsing any finite input terminates when the include graph is acyclic.", "quantifier": "every text and every finite file system", "why_tests_cant": "Termination is a statement about all inputs.", "anchors": ["src/parser.rs:Parser::parse", "src/parser.rs:Parser::include_directive", "src/scanner.rs:scan_annotations", "src/account.rs:Account::find_or_create"]}
{"id": "C46", "title": "Well-formed journals are accepted and mean what they say", "statement": "A journal of well-formed transactions (two or more postings, at most one elided amount, one commodity) written out as text is parsed without panic into exactly these transactions.", "quantifier": "every well-formed journal", "why_tests_cant": "Unbounded journals; completeness of the parser.", "anchors": ["src/parser.rs:Parser::parse", "src/parser.rs:parse_post", "src/scanner.rs:scan_post", "src/xact.rs:finalize"]}
{"id": "C47", "title": "Dates", "statement": "A date text YYYY-MM-DD is accepted iff it denotes a day of the proleptic Gregorian calendar, and it is read as that day; date-times are ordered chronologically.", "quantifier": "every date text", "why_tests_cant": "All years, months, leap rules.", "anchors": ["src/parser.rs:parse_date", "src/parser.rs:parse_datetime", "src/pool.rs:CommodityPool::parse_price_directive"]}
{"id": "C48", "title": "Lot annotations are retained", "statement": "A lot price or date written on a posting is stored for its commodity.", "quantifier": "every sequence of postings", "why_tests_cant": "Depends on the order in which postings of the commodity were read.", "anchors": ["src/pool.rs:CommodityPool::find_or_create", "src/parser.rs:parse_post", "src/annotate.rs:Annotation::parse"]}
{"id": "C49", "title": "The payee is optional", "statement": "A transaction header consisting of a date only is accepted and the payee is `Unknown Payee`.", "quantifier": "every transaction", "why_tests_cant": "Depends on line endings that the scanner tests do not include.", "anchors": ["src/scanner.rs:tokenize_xact_header", "src/xact.rs:Xact::create", "src/parser.rs:Parser::create_xact"]}
{"id": "C50", "title": "Products, quotients and sums are rounded, never wrong", "statement": "Multiplying, dividing or adding quantities yields the exact result when it is representable and otherwise the result rounded to 28 decimals, or to as many decimals as the 96-bit mantissa holds: the error is at most half a unit of that decimal. Division by zero panics.", "quantifier": "every pair of quantities", "why_tests_cant": "All pairs of mantissas and scales.", "anchors": ["src/amount.rs:Quantity", "src/amount.rs:Amount (Mul, Div, Add)"]}
{"id": "C51", "title": "Amounts in one commodity can be added", "statement": "Any two amounts of a journal in the same commodity hold the same commodity pointer, so that adding them, which compares pointers, does not panic.", "quantifier": "every sequence of reads and registrations", "why_tests_cant": "Depends on HashMap growth between two uses of one commodity.", "anchors": ["src/amount.rs:Amount::add", "src/balance.rs:Balance::add", "src/pool.rs:CommodityPool::create"]}
{"id": "C52", "title": "The balance command shows the sums of what the files say", "statement": "For files whose lines write well-formed transactions, the balance command succeeds; its lines are, in order, the accounts named by postings with their parents, and each line shows for every commodity written below that account exactly one amount, the exact sum of what is written there.", "quantifier": "all argument lists, files and written transactions", "why_tests_cant": "Covers option parsing, reading of several files, scanning, filling in amounts, totals and printing for unboundedly many texts.", "anchors": ["src/lib.rs:run", "src/parser.rs:Parser::parse", "src/xact.rs:Xact::finalize", "src/report.rs:balance_report"]}
{"id": "C53", "title": "A journal has the accounts its postings name and no others", "statement": "Reading adds exactly the accounts named by postings and their parents, whatever else the input contains, and the accounts command lists each of them once.", "quantifier": "all inputs and journals", "why_tests_cant": "No test can show that no text creates another account.", "anchors": ["src/parser.rs:parse_post", "src/journal.rs:Journal::register_account", "src/report.rs:report_accounts"]}
{"id": "C54", "title": "A command string is run as the words it consists of", "statement": "run_command splits its text into words by the quoting rules of the shell (separators, backslashes, single and double quotes, comments) and behaves as run on these words; text with an open quote panics; every list of arguments can be written as a command string.", "quantifier": "all strings and argument lists", "why_tests_cant": "Quoting rules interact: the words of all texts cannot be enumerated.", "anchors": ["src/lib.rs:run_command"]}
{"id": "C55", "title": "Where things are allocated cannot be seen in the output", "statement": "A run that does not dereference a dangling or null pointer gives exactly the result that names in place of pointers give: the journal read is the same, the lines printed are the same, panics are the same, whatever capacities containers grow to.", "quantifier": "all arguments, files, and growth policies of Vec and HashMap", "why_tests_cant": "Every allocation pattern would have to be produced, and undefined behaviour does not show up reliably in a test.", "anchors": ["src/parser.rs:parse_post", "src/xact.rs:Xact::finalize", "src/pool.rs:CommodityPool", "src/account.rs:Account", "src/report.rs:balance_report"]}
{"id": "C56", "title": "Reading files and reporting on them never follows a dangling or null pointer", "statement": "For every journal that can be read, the accounts and balance commands only dereference pointers to things that are still where the pointer says.", "quantifier": "all arguments, files, and growth policies of Vec and HashMap", "why_tests_cant": "A dangling pointer usually still reads the old value, so tests pass.", "anchors": ["src/parser.rs:parse_post", "src/account.rs:Account::fullname", "src/account.rs:Account::amount", "src/balance.rs:Balance::add", "src/amount.rs:Amount::inverse"]}
{"id": "C57", "title": "Subtracting an amount from a balance", "statement": "Taking an amount from a balance lowers the value of its commodity by exactly that amount and leaves the others as they are, whether or not the balance has an entry in that commodity.", "quantifier": "all balances and amounts whose difference is representable", "why_tests_cant": "All lists of commodities and pairs of quantities.", "anchors": ["src/balance.rs:SubAssign<Amount>"]}
{"id": "C58", "title": "Journal::read returns the number of transactions read", "statement": "The number returned is the number of transactions that this call added to the journal.", "quantifier": "all journals and inputs", "why_tests_cant": "The existing tests only read into an empty journal.", "anchors": ["src/journal.rs:Journal::read"]}
{"id": "C59", "title": "The earlier balance report shows each account's own postings", "statement": "get_account_balances gives each account once with, per commodity, the exact sum of the postings to it alone; format_balance_report has one line for each, sorted by name, and the text determines the balance.", "quantifier": "all journals built by reading, all balances", "why_tests_cant": "All account trees and postings; that no two balances have the same text cannot be tested.", "anchors": ["src/report.rs:get_account_balances", "src/report.rs:format_balance_report"]}
{"id": "C60", "title": "One amount is read as written", "statement": "parse_amount gives the written number with its decimals and the commodity of the symbol, before or after the number, and that commodity is then in the pool, which otherwise keeps what it had.", "quantifier": "all written amounts and pools", "why_tests_cant": "All numbers, symbols and spacings.", "anchors": ["src/parser.rs:parse_amount", "src/scanner.rs:scan_amount", "src/parser.rs:parse_amount_parts"]}
{"id": "C61", "title": "Arithmetic on amounts is refused exactly when the result is out of range", "statement": "Adding, subtracting, multiplying and dividing amounts gives a result if and only if the true result is below 2^96 - 1/2 in size and, for division, the divisor is not zero; otherwise it panics. It always ends.", "quantifier": "all pairs of amounts (in one commodity for sums and differences)", "why_tests_cant": "The boundary is at 28 digits, and depends on the scales of both operands.", "anchors": ["src/amount.rs:Amount (Add, AddAssign, SubAssign, Mul, MulAssign, Div)", "src/amount.rs:Amount::add"]}
{"id": "C62", "title": "Journals with lots, costs, notes and includes are accepted and mean what they say", "statement": "A text that says certain transactions, whose postings may have lot prices and dates, costs for one unit or for all, and notes, partly in included files, is accepted; the transactions read are those, in order, with exactly these amounts, costs (for one unit: the exact product; if two commodities are left unbalanced: at the implied rate), notes (the last one of each element), dates and payees; and the prices afterwards are those before with the unit prices of the costed postings recorded in order. An amount left out is minus the absolute value of the sum of the others.", "quantifier": "all texts, file systems, journals to read into, transactions whose worths, prices and implied costs are representable", "why_tests_cant": "The syntax, the rounding and the price graph interact for unboundedly many texts and files.", "anchors": ["src/parser.rs:Parser::parse", "src/parser.rs:parse_post", "src/parser.rs:parse_cost", "src/xact.rs:Xact::finalize", "src/pool.rs:CommodityPool::exchange", "src/history.rs:CommodityHistory::add_price"]}
{"id": "C63", "title": "The reports on journals with lots, costs, notes and includes show what the files say", "statement": "For files that say certain transactions (in the sense of the claim about full journals) the balance command prints, for every account named and every parent, in order, exactly the sums of the amounts of the postings to it and below it, per commodity; costs and lot prices do not enter. The accounts command lists these accounts. An amount left out counts as minus the size of the sum of the worths of the others.", "quantifier": "all arguments, file systems and files whose transactions are accepted and whose sums are representable", "why_tests_cant": "Unboundedly many files, nestings, commodities and account trees.", "anchors": ["src/lib.rs:run", "src/parser.rs:Parser::parse", "src/xact.rs:Xact::finalize", "src/report.rs:balance_report", "src/report.rs:report_accounts"]}
{"id": "C64", "title": "The directive reader gives one item for each line", "statement": "Iterating over DirectiveIter yields exactly one Comment for every line of the text, the last one with or without line feed; afterwards it stays at its end. At an undecodable line it panics, after the items of the lines before it.", "quantifier": "all texts and sources", "why_tests_cant": "Texts and sequences of calls are unbounded.", "anchors": ["src/reader.rs:DirectiveIter", "src/reader.rs:create_str_reader"]}
{"id": "C65", "title": "The directive reader's buffer holds the line just read", "statement": "After each call the buffer contains the line that this call read.", "quantifier": "all sources and numbers of calls", "why_tests_cant": "The existing tests do not look at the buffer; a one-line text does not show the difference.", "anchors": ["src/reader.rs:DirectiveIter::next"]}
{"id": "C66", "title": "The counting iterator ends after 100 items and stays ended", "statement": "SimpleParserIter yields 100 default transactions; every further call returns None.", "quantifier": "all sequences of calls, builds with and without overflow checks", "why_tests_cant": "A for loop never calls next after the first None.", "anchors": ["src/iterator.rs:SimpleParserIter::next"]}
{"id": "C67", "title": "The unfinished functions never return", "statement": "The functions that look up options and reports and exchange_commodities panic for every argument: no input passes through them unnoticed.", "quantifier": "all arguments", "why_tests_cant": "All characters, names and kinds; a branch without todo! would return silently.", "anchors": ["src/option.rs:find_option", "src/option.rs:lookup_option_global", "src/option.rs:session_lookup", "src/option.rs:lookup_report", "src/option.rs:lookup_option_report", "src/value.rs:exchange_commodities"]}
{"id": "C68", "title": "Elements end at the first separator", "statement": "next_element gives the text before the first space or tab, and nothing if there is none; scan_price_element gives that text and the rest from the separator on, or the whole text.", "quantifier": "all texts", "why_tests_cant": "All texts; Unicode white space is not a separator.", "anchors": ["src/scanner.rs:next_element", "src/scanner.rs:scan_price_element", "src/scanner.rs:find_next_separator"]}
{"id": "C69", "title": "Quantities and integers are converted exactly", "statement": "A quantity made from an i32 has exactly its value and converts back to it; converting a quantity to i32 drops its decimals and panics exactly if the result is out of range.", "quantifier": "all integers and all decimals", "why_tests_cant": "2^32 integers and 96-bit mantissas with 29 scales.", "anchors": ["src/amount.rs:From<i32> for Quantity", "src/amount.rs:Into<i32> for Quantity", "src/amount.rs:From<i32> for Amount"]}
{"id": "C70", "title": "Windows line ends make no difference", "statement": "Reading a text with CRLF line ends, from files of which any may have them, has the same outcome as reading it with LF line ends.", "quantifier": "all texts, file systems and journals", "why_tests_cant": "Every field of every line can be last in its line; every file can have either line end.", "anchors": ["src/parser.rs:Parser::parse", "src/scanner.rs:scan_post", "src/scanner.rs:tokenize_xact_header", "src/parser.rs:Parser::include_directive"]}
{"id": "C71", "title": "White space at the end of a line makes no difference", "statement": "Replacing the spaces, tabs and line end after the last character of a line by others does not change the outcome of reading.", "quantifier": "all texts before and after, all lines, all journals", "why_tests_cant": "Every kind of line, with every kind of white space.", "anchors": ["src/scanner.rs:tokenize_xact_header", "src/scanner.rs:scan_post", "src/parser.rs:Parser::parse"]}
{"id": "C72", "title": "The width of the indentation makes no difference", "statement": "Changing the white space before a posting or note does not change the outcome of reading.", "quantifier": "all texts before and after, all lines, all journals", "why_tests_cant": "All widths and mixtures of spaces and tabs.", "anchors": ["src/parser.rs:Parser::xact_directive", "src/scanner.rs:scan_post"]}
{"id": "C73", "title": "Every line counts once", "statement": "Whenever reading a source succeeds, the new transactions are, in order, one for each header line of the source and the files included, each with the date written in that line and with exactly one posting for each posting line below it, in the account written there. Lines that are not indented or belong to no transaction add nothing.", "quantifier": "all sources that are read without panic, all file systems and reachable journals", "why_tests_cant": "Holds for every accepted text, however strange, not just well-formed ones; a parser that drops or doubles a line passes most tests.", "anchors": ["src/parser.rs:Parser::parse", "src/parser.rs:Parser::xact_directive", "src/parser.rs:parse_post", "src/parser.rs:Parser::include_directive", "src/journal.rs:Journal::add_xact"]}
{"id": "C74", "title": "The order of files, transactions and postings does not matter", "statement": "Two runs of the balance command on files with the same transactions in another order, or with other transactions whose postings say the same, print the same accounts with the same amounts, and the accounts command prints the same.", "quantifier": "all permutations, files, arguments and file systems whose transactions are accepted and whose sums are representable", "why_tests_cant": "Factorially many orders; the effect of an order shows only when a partial sum is zero.", "anchors": ["src/report.rs:balance_report", "src/report.rs:report_accounts", "src/account.rs:Account::total", "src/balance.rs:Balance::add", "src/amount.rs:Amount::add"]}
{"id": "C75", "title": "The commodities known are those that are written", "statement": "After a source has been read, the pool has exactly the commodities it had before, those written in posting lines, as symbol of an amount, a lot price or a cost, and the two of each price line.", "quantifier": "all sources (for posting lines outside the syntax: the symbols read from them as in C83, that of a cost only if the amount is a number), all file systems and reachable journals", "why_tests_cant": "All symbols and positions; a spurious commodity shows up only in later reports.", "anchors": ["src/parser.rs:parse_post", "src/parser.rs:parse_cost", "src/annotate.rs:Annotation::parse", "src/pool.rs:CommodityPool::find_or_create"]}
{"id": "C76", "title": "Amounts are shown with the decimals they are written with, whatever the order", "statement": "If every amount of a commodity is written with the same number of decimals, the balance report shows every total with that number. If besides no amount left out is zero, any order of the transactions prints the same lines up to the order of the commodities in a line, and the same text if there is one commodity.", "quantifier": "all permutations, files, arguments and file systems whose transactions are accepted and whose sums are representable", "why_tests_cant": "All orders and partial sums: adding to zero could drop decimals or keep a minus sign in only one of the orders.", "anchors": ["src/report.rs:balance_report", "src/account.rs:Account::total", "src/xact.rs:Xact::finalize", "src/balance.rs:Balance::add", "src/amount.rs:Amount::add", "src/amount.rs:Amount::inverse"]}
{"id": "C77", "title": "Every price comes from a transaction or a price line", "statement": "After a source has been read, the prices known are those known before and those that follow from the costs of the new transactions and from the price lines, in the order of the source: for each pair of commodities and moment the last one recorded counts. A price line records the number written in it at the date and time written in it, in the commodity written last; none of the prices is lost or made up.", "quantifier": "all sources that are read without panic, all file systems and reachable journals", "why_tests_cant": "All interleavings of transactions, price lines and included files; a lost, doubled or misdated price shows up only in a later valuation.", "anchors": ["src/parser.rs:Parser::price_xact_directive", "src/pool.rs:CommodityPool::parse_price_directive", "src/scanner.rs:scan_price_directive", "src/xact.rs:Xact::finalize", "src/history.rs:CommodityHistory::add_price"]}
{"id": "C78", "title": "The trial balance is zero", "statement": "If every transaction leaves an amount out or has amounts that sum to zero in every commodity, and none has costs, the first line of the balance report shows zero for every commodity that occurs.", "quantifier": "all files, arguments and file systems whose transactions are accepted and whose sums are representable", "why_tests_cant": "Any set of transactions, commodities and accounts; one miscounted posting anywhere breaks it.", "anchors": ["src/report.rs:balance_report", "src/account.rs:Account::total", "src/xact.rs:Xact::finalize", "src/balance.rs:Balance::add"]}
{"id": "C79", "title": "The commodities of a balance are shown in a fixed order", "statement": "The commodities in a total are in the order in which they first occur when the accounts below are gone through, siblings in alphabetical order and each account after those below it, the postings of an account in the order of reading. So the text of the balance report stays the same if only postings of different accounts are exchanged and a commodity is always written with the same number of decimals.", "quantifier": "all reachable journals and accounts; all files, arguments and file systems", "why_tests_cant": "All trees and orders of postings; an order that depends on the memory layout or on reading shows up only with several commodities.", "anchors": ["src/account.rs:Account::total", "src/balance.rs:Balance::add", "src/report.rs:balance_report", "src/account.rs:Account::flatten_account_tree"]}
{"id": "C80", "title": "The line of an account depends on the postings at and below it only", "statement": "Two journals with the same accounts at and below an account, and the same amounts in the same order in each of them, have the same text in the line of that account. Reading a source that does not name the account or one below it leaves its line as it was.", "quantifier": "all pairs of reachable journals, all accounts, all sources and file systems", "why_tests_cant": "Whatever else the journals contain: any other accounts, transactions, prices, commodities and include structure.", "anchors": ["src/account.rs:Account::total", "src/account.rs:Account::amount", "src/report.rs:balance_report", "src/parser.rs:parse_post", "src/journal.rs:Journal::add_xact"]}
{"id": "C81", "title": "Comparisons and arithmetic depend on the values of quantities only", "statement": "Comparing quantities, amounts and price points compares their values, however many trailing zeros they are written with. Sums, differences, products and quotients are the exact result rounded once, half to even, to as many decimals as fit; so operands of the same value give results of the same value, or the same panic.", "quantifier": "all well-formed quantities, amounts and balances", "why_tests_cant": "Every pair of mantissas and scales, including products and quotients that do not fit 96 bits or 28 decimals.", "anchors": ["src/amount.rs:Quantity", "src/amount.rs:Amount", "src/commodity.rs:PricePoint", "src/balance.rs:Balance"]}
{"id": "C82", "title": "Files that say the same in other words give the same values", "statement": "If two sets of files differ only in how lines are written (trailing zeros of numbers, the place of a symbol, spaces, leading zeros of dates and times, comments, line ends of empty lines), then both are read or both end alike; the journals are equal but for the number of decimals, and the totals, report lines and price lookups have the same values.", "quantifier": "all pairs of file systems, sources and journals that say the same, all commands", "why_tests_cant": "Any number of lines respelled at once, in any combination, through includes, costs, lots, implied costs and left-out amounts.", "anchors": ["src/scanner.rs:scan_post", "src/scanner.rs:tokenize_xact_header", "src/scanner.rs:scan_price_directive", "src/parser.rs:Parser::parse", "src/xact.rs:Xact::finalize", "src/report.rs:balance_report"]}
{"id": "C83", "title": "What is read from any line", "statement": "From any posting line the scanner takes exactly the texts that a fixed reading of its characters gives: account, quantity, symbol, lot price, lot date and cost. It refuses exactly the lines that are blank or notes, have two spaces but nothing after them, have lots in parentheses, lots that are repeated, not closed or without text, or have a cost without text or with a wide character after the sign. Every header line that is not empty and every price line with something after its date is read by such a rule too.", "quantifier": "all lines, well-formed or not", "why_tests_cant": "Every string of characters, in particular malformed ones that nobody would think of writing.", "anchors": ["src/scanner.rs:scan_post", "src/scanner.rs:scan_amount", "src/scanner.rs:scan_annotations", "src/scanner.rs:scan_cost", "src/scanner.rs:tokenize_xact_header", "src/scanner.rs:scan_price_directive"]}
{"id": "C84", "title": "Every transaction of an accepted file is what its lines say", "statement": "Whatever the text, if reading succeeds, the new transactions are those the lines tell of, in order through includes: the dates, payee and note of the header; for each posting line the account, amount, cost and note that C83's reading of it gives, an amount being none if its quantity is not a number; of several notes the last that is not empty. No transaction has exactly one posting. If its sums need no rounding, it is left as written, gets costs at the rate of its two commodities, or its only posting without amount gets one.", "quantifier": "all files, sources and journals such that reading succeeds", "why_tests_cant": "Every text that is accepted, in particular malformed lines that are silently read as something else.", "anchors": ["src/parser.rs:Parser::parse", "src/parser.rs:parse_post", "src/parser.rs:Parser::xact_directive", "src/parser.rs:Parser::create_xact", "src/parser.rs:Parser::parse_trailing_note", "src/xact.rs:Xact::finalize", "src/scanner.rs:scan_post"]}
{"id": "C85", "title": "Which files are refused", "statement": "Reading a file fails, short of a number out of range, exactly if one of these occurs in it or a file it includes: between transactions a line that is empty, indented, of no known kind, an import line, an include line without argument or naming the root directory, or a price line with a wrong part; a header with a wrong date; inside a transaction a line that is neither indented nor a line end; a posting line that C83 refuses or with a wrong lot date; a transaction with one posting, with two postings without amount, with one such and several commodities, or with a cost that has no commodity or that of its amount. A file with one of these is never read successfully, whatever comes before or after.", "quantifier": "all sources, file systems, reachable journals and include depths", "why_tests_cant": "The absence of any other cause of failure, over every text; tests only show single failures.", "anchors": ["src/parser.rs:Parser::parse", "src/parser.rs:parse_post", "src/parser.rs:Parser::xact_directive", "src/parser.rs:Parser::price_xact_directive", "src/parser.rs:Parser::include_directive", "src/xact.rs:Xact::finalize", "src/scanner.rs:scan_post", "src/pool.rs:CommodityPool::exchange"]}
{"id": "C86", "title": "Files with numbers of ordinary size never overflow", "statement": "If every number in the posting lines of the files is at most B in size and has at most k decimals, at most n indented lines follow each other, k <= 14 and 8 n^2 B^3 10^(2k) <= 2^96 (for example a million, two decimals, 900 lines), then reading never ends with a decimal overflow or a division by zero, in no sum, product, implied cost, unit cost or lot gain. The journal read has amounts within n B^2, its balance report is made, no command overflows, and the file is read exactly if none of the lines of C85 occurs in it.", "quantifier": "all such bounds, sources, file systems and journals", "why_tests_cant": "Every text with such numbers; an overflow needs particular quotients or sums deep inside the cost inference and lot calculation.", "anchors": ["src/xact.rs:Xact::finalize", "src/pool.rs:CommodityPool::exchange", "src/parser.rs:parse_post", "src/balance.rs:Balance::add", "src/report.rs:balance_report"]}
{"id": "C87", "title": "Dates, payees, notes, comments and prices do not change balances", "statement": "Two sets of files whose lines are equal in pairs but for the date, secondary date, payee and note of headers, the text of notes, the date of lots, comments, and the date, time and quantity of price lines (all of them readable) are read alike: either both runs end with the same kind of failure, or both succeed with the same accounts, commodities, posting amounts and costs, and every command prints exactly the same text.", "quantifier": "all file systems, sources, journals, include depths, directories and argument lists", "why_tests_cant": "Every pair of files that differ this way; a test compares two.", "anchors": ["src/parser.rs:Parser::parse", "src/xact.rs:Xact::create", "src/xact.rs:Xact::finalize", "src/pool.rs:CommodityPool::exchange", "src/pool.rs:CommodityPool::parse_price_directive", "src/report.rs:balance_report"]}
{"id": "C88", "title": "The reports show what the lines of the files say, whatever the lines are", "statement": "Whenever the balance command prints anything, for files of any content, it prints one line for each account that the posting lines of the files and their includes name and for each account above, parents first and siblings in alphabetical order, each with one amount per commodity, which is the sum of the amounts of the postings at and below it unless they leave the range of numbers; the amounts are those that the lines tell of (C84). The accounts command prints the same accounts. With numbers of ordinary size (C86) and no refused line (C85) the command succeeds and the sums are exact.", "quantifier": "all file systems, file contents, include depths, directories and argument lists", "why_tests_cant": "Every text, well-formed or not; a test has one.", "anchors": ["src/lib.rs:run", "src/parser.rs:Parser::parse", "src/xact.rs:Xact::finalize", "src/account.rs:Account::total", "src/report.rs:balance_report", "src/report.rs:report_accounts"]}
{"id": "C89", "title": "Commodities with other names give the same results with the other names", "statement": "If every commodity gets another name, different ones for different commodities, and files differ only in these names, in amounts, lots, costs and price lines, then both are read alike: either both end with the same kind of failure, or the second journal is the first with the other names, in amounts, costs, the pool, its lots and the price graph. The balance report shows the same accounts and quantities with the other names in the same order, the accounts report is the same, and price lookups give the same prices.", "quantifier": "all renamings, file systems, sources, journals, include depths, directories and argument lists", "why_tests_cant": "Every renaming and every pair of files; a test knows a few symbols, and a rule for one symbol shows only with that symbol.", "anchors": ["src/pool.rs:CommodityPool::find_or_create", "src/pool.rs:CommodityPool::exchange", "src/amount.rs:Amount", "src/balance.rs:Balance::add", "src/parser.rs:parse_post", "src/xact.rs:Xact::finalize", "src/history.rs:CommodityHistory::find_price", "src/report.rs:balance_report"]}
{"id": "C90", "title": "Accounts with other names give the same results with the other names", "statement": "If every account gets another name, different ones for different accounts and part by part between the colons, and files differ only in these names, then both are read alike: either both end with the same kind of failure, or the second journal is the first with the other names in its account tree and postings. If the new names of siblings are in the same order as the old ones, the balance report shows the same amounts for the accounts with the other names in the same order, and the accounts report shows the other names.", "quantifier": "all renamings, file systems, sources, journals, include depths, directories and argument lists", "why_tests_cant": "Every renaming and every tree of accounts; a test knows a few names.", "anchors": ["src/account.rs:Account::find_or_create", "src/journal.rs:Journal::register_account", "src/account.rs:Account::fullname", "src/account.rs:Account::total", "src/account.rs:Account::flatten", "src/parser.rs:parse_post", "src/report.rs:balance_report", "src/report.rs:report_accounts"]}
{"id": "C91", "title": "What the program prints determines its arguments and its report", "statement": "The program prints a greeting, a line with its arguments, one message for each undecodable line that it reaches and, exactly if the command succeeds, a line with the lines of the report. Arguments and report are printed without control characters, so each takes one line whatever the files and arguments contain. Two executions that print the same text, with any files and directories, have the same arguments and number of messages, and one succeeds with a report exactly if the other succeeds with the same report. Texts of visible ASCII characters without quotes and backslashes are printed as they are, in quotes with commas between them and brackets around them.", "quantifier": "all argument lists, file systems, include depths and directories, all texts of the message, and all sets of printable characters beyond ASCII", "why_tests_cant": "Every text in names, payees and arguments, with quotes, backslashes, line ends and escape sequences in them; a test knows a few.", "anchors": ["src/main.rs:main", "src/main.rs:execute_command", "src/lib.rs:run", "src/parser.rs:Parser::parse", "src/parser.rs:Parser::xact_directive"]}
{"id": "C92", "title": "A price lookup after reading files gives what the files say", "statement": "After reading any files, looking up the price of one commodity in another gives the newest price that the transactions and price lines of the files state for that pair (of several for the same moment the last one), or, if there is none, the product of the newest prices along a shortest chain of stated prices, at the earliest of their moments. If there is no chain the result is nothing, and the only possible failure is a product out of range on a chain of several steps.", "quantifier": "all files and contents, all pairs of commodities, all moments, all shortest-path finders", "why_tests_cant": "The result depends on every price stated anywhere in the files, their order, their moments, and on which chains they form.", "anchors": ["src/history.rs:CommodityHistory::find_price", "src/history.rs:CommodityHistory::add_price", "src/history.rs:calculate_rate", "src/pool.rs:CommodityPool::add_price", "src/pool.rs:CommodityPool::parse_price_directive", "src/parser.rs:Parser::parse", "src/xact.rs:finalize"]}
{"id": "C93", "title": "Opposite amounts give opposite totals", "statement": "If every amount of the files is replaced by the opposite one (the price of a unit stays, the price of a whole posting is replaced too), then the same files are accepted, with the same accounts and the same recorded prices, and every total and every line of the balance report shows the opposite amounts, with the same decimals.", "quantifier": "all pairs of files that differ in this way, of any number and length, with includes, implied costs, lots, rounding and overflow; all accounts", "why_tests_cant": "A test can turn the signs of one example; rounding, implied costs, left-out amounts and sums over accounts must be symmetric for all amounts.", "anchors": ["src/amount.rs:Amount::add", "src/balance.rs:Balance::add", "src/xact.rs:finalize", "src/pool.rs:CommodityPool::exchange", "src/parser.rs:parse_cost", "src/account.rs:Account::total", "src/report.rs:balance_report"]}
{"id": "C94", "title": "Full names are computed once and kept", "statement": "In every history of registrations of accounts and questions for full names, each answer is the names on the way to the account, joined by colons (empty names above it left out). A name that is not empty and has been given is given again after any further registrations. The first question is answered exactly if the accounts on the way have not been moved in memory since something was registered below them; else it follows a pointer that is not valid.", "quantifier": "all histories of registrations and questions, of any length; all account names, also with empty parts; all ways in which the map of accounts can grow", "why_tests_cant": "Whether the first question comes before or after the move of a map is a property of the whole history, and a test only sees what the memory happens to contain.", "anchors": ["src/account.rs:Account::fullname", "src/account.rs:Account::set_fullname", "src/account.rs:Account::find_or_create", "src/account.rs:Account::create_account", "src/journal.rs:Journal::register_account"]}
{"id": "C95", "title": "Price lookups through pointers are lookups by name, while the pointers are valid", "statement": "After any files are read, the pool gives a pointer for exactly the commodities there are, and a price lookup with two such pointers gives what the lookup by their names gives, with the pointer to the target in the answer. A pointer that was kept while more files were read gives the same if the map of commodities was not moved in between, and makes the lookup undefined if it was. The pointer in a node of the price graph is that from the making of the commodity: asking for the commodity by its node is defined exactly if the map was not moved since.", "quantifier": "all files and file systems, all pairs of commodities, all path finders, all dates, all ways in which the map of commodities can grow", "why_tests_cant": "A stale pointer often still shows the old bytes, so a test passes; which pointers are stale depends on how many commodities were made between getting and using them.", "anchors": ["src/history.rs:CommodityHistory::find_price", "src/history.rs:CommodityHistory::calculate_rate", "src/history.rs:CommodityHistory::get_commodity", "src/pool.rs:CommodityPool::find", "src/pool.rs:CommodityPool::find_index", "src/pool.rs:CommodityPool::get_by_index", "src/pool.rs:CommodityPool::create"]}
{"id": "C96", "title": "Files read one after the other add what each of them has on its own", "statement": "What a file adds to a journal does not depend on what was read before: lines read into any two journals end alike and add the same transactions, unless a number overflows. Files named together give the transactions of each in order, the accounts, commodities and prices of all (of several prices for the same moment the last one), and totals that are the sums of the totals; the order of naming them changes neither the accounts, the commodities nor the totals. Files that can be read on their own and agree on the lot prices that are kept can be read together; in particular every file can be read twice, which doubles all totals. A file that is refused on its own is refused for the same reason after others, unless a number overflows.", "quantifier": "all files and file systems, include depths and directories, all numbers of files, all journals that reading can give, all accounts and commodities", "why_tests_cant": "The parser works on one journal that all files share; that nothing in it influences how the next file is read holds for all contents of the journal, of which a test has a few.", "anchors": ["src/lib.rs:parse_file", "src/parser.rs:read_into_journal", "src/parser.rs:Parser::parse", "src/parser.rs:Parser::xact_directive", "src/pool.rs:CommodityPool::find_or_create", "src/pool.rs:CommodityPool::exchange", "src/xact.rs:finalize", "src/journal.rs:Journal::register_account", "src/account.rs:Account::total"]}
{"id": "C97", "title": "The iteration order of hash maps cannot be seen", "statement": "The accounts below an account, the commodities and the lots are kept in hash maps, whose iteration order differs from run to run. Whatever the orders are, and however they change while files are read, the program prints the same or fails in the same way; the journals have the same entries, reading further into them ends alike, and the accounts, totals and prices found in them are the same.", "quantifier": "all files, file systems and arguments; all rearrangements of all maps before every line and before the report", "why_tests_cant": "The order changes with the random seed of each map and when a map grows; a test sees one of the orders, and the same test may see another one the next time.", "anchors": ["src/account.rs:Account::total", "src/account.rs:Account::flatten", "src/report.rs:get_children_lines", "src/report.rs:report_accounts", "src/account.rs:Account::find_or_create", "src/pool.rs:CommodityPool::find_or_create", "src/pool.rs:CommodityPool::exchange", "src/lib.rs:run"]}
{"id": "C98", "title": "A file and its reversal cancel out", "statement": "If a file is read and after it the file with the opposite amounts (a reversal; no amount is left out), then the second one is accepted whenever the first one is, adds no account, no commodity and no price, and nothing is left in any account: every total has zero for each commodity, and the balance report has a line with zeros for each account of the first file, provided the amounts can be added up twice without rounding.", "quantifier": "all files and file systems (for two files named on the command line: without include lines), all include depths and directories, all accounts, all arguments that mean the balance report of the two files", "why_tests_cant": "A reversal goes through the reading, the balancing and the adding up of each amount and each recorded price; tests reverse a few amounts with few decimals.", "anchors": ["src/amount.rs:Amount::add", "src/balance.rs:Balance::add", "src/account.rs:Account::total", "src/xact.rs:finalize", "src/pool.rs:CommodityPool::exchange", "src/parser.rs:read_into_journal", "src/lib.rs:run"]}
{"id": "C99", "title": "The working directory matters for relative includes only", "statement": "The working directory is used for nothing but the names in include lines that do not start with /, \\ or ~. If only other names are included, from the named files and all files read on their behalf, then the result is the same in all working directories. If every included name has the same contents behind it in two working directories (of which neither is the root), then files with the same contents give the same result there.", "quantifier": "all files and file systems, include depths, journals, arguments and pairs of working directories", "why_tests_cant": "Tests run in one working directory, and with the includes of a few files.", "anchors": ["src/parser.rs:Parser::include_directive", "src/parser.rs:read_into_journal", "src/lib.rs:parse_file", "src/lib.rs:run"]}
{"id": "C100", "title": "What is read is no larger than the text that is read", "statement": "One reading adds at most one transaction or posting per line, at most one account per character of the lines, at most three commodities per line and at most one price per line, where an included file counts each time it is included. Without includes these are the lines of the source. With includes of files of at most L lines that do not include themselves it is at most L to the power of the number of files plus one. It really grows like that, so the result is not bounded by a multiple of the lines in the files: there are k + 1 files of together 2k + 3 lines that do not include themselves and give 2^k transactions.", "quantifier": "all sources and file systems, include depths, directories and journals that reading can give; for the growth: all numbers of files", "why_tests_cant": "A bound is about all inputs; the growth shows only in chains of includes that no test writes, and then the program does not end in time.", "anchors": ["src/parser.rs:Parser::include_directive", "src/parser.rs:read_into_journal", "src/parser.rs:Parser::xact_directive", "src/parser.rs:parse_post", "src/account.rs:Account::find_or_create", "src/pool.rs:CommodityPool::find_or_create", "src/history.rs:CommodityHistory::add_price", "src/xact.rs:finalize"]}
{"id": "C101", "title": "The journal determines what the file said", "statement": "If the same transactions are read from two well-formed texts, then both say the same dates, payees, accounts, amounts with their decimals, costs of the whole amounts, and last notes; an amount left out in one is the amount written in the other. The claim is false for the rest of what a text says: texts that differ in whether a cost is for one unit, in whether an amount is left out, in the notes before the last one, or in the lots of a commodity after its first posting give the same journal.", "quantifier": "all pairs of well-formed texts with lots, costs, notes and includes, all file systems, include depths and journals read before", "why_tests_cant": "A loss of information shows only when two different inputs are compared; tests compare one input with one result.", "anchors": ["src/parser.rs:parse_post", "src/parser.rs:Parser::xact_directive", "src/parser.rs:Parser::parse_trailing_note", "src/parser.rs:parse_cost", "src/scanner.rs:tokenize_xact_header", "src/scanner.rs:scan_post", "src/pool.rs:CommodityPool::find_or_create", "src/xact.rs:finalize"]}
{"id": "C102", "title": "The reports depend on the sums only", "statement": "If in two sets of files each account has postings in the same commodities with the same sums, the accounts command prints the same and the balance command prints the same accounts in the same order with the same amounts. This is so when a posting without cost is split into several with the same sum, when transactions without left out amounts are made one, or when an amount left out is written instead. The converse: if the balance reports are the same, the sums of the postings to each account by itself, not only with the accounts below it, are the same (where symbols have no digits, points or minus signs and no account is named like the words of the report). The claim that the text stays the same is false: 5 is printed `5`, and two postings of 2.50 are printed `5.00`.", "quantifier": "all pairs of well-formed sets of files with lots, costs and includes, all file systems and arguments, all ways to divide sums", "why_tests_cant": "Two inputs have to be compared, and the ways to divide a sum over postings are infinite.", "anchors": ["src/account.rs:Account::total", "src/account.rs:Account::amount", "src/balance.rs:Balance::add", "src/report.rs:balance_report", "src/report.rs:report_accounts", "src/xact.rs:finalize", "src/parser.rs:read_into_journal"]}
{"id": "C103", "title": "Costs and lots do not change balances", "statement": "If two sets of files have postings with the same amounts in the same accounts, in the same order and none left out, the balance command prints the same text for both, whatever their costs, lots, dates, payees and notes are and however the postings are divided into transactions. More generally, journals with the same accounts and in each account the same amounts in the same order have the same report.", "quantifier": "all pairs of well-formed sets of files, all file systems and arguments; for journals: all journals that reading can give", "why_tests_cant": "That something has no influence cannot be seen from single results; costs also are inferred, which no test varies.", "anchors": ["src/account.rs:Account::total", "src/account.rs:Account::amount", "src/report.rs:balance_report", "src/xact.rs:finalize", "src/parser.rs:parse_cost"]}
{"id": "C104", "title": "Price lookups do not depend on the order of the prices", "statement": "Two pools that know the same commodities and have the same prices for the same moments answer a price lookup alike, whichever of the shortest-path searches is used, if there is only one shortest chain of prices (so whenever there is a price of the one commodity in the other); with several, an answer is found in both or in neither. Prices that do not contradict each other can be recorded in any order and repeatedly, and files with such prices can be read in either order, with the same prices and latest prices as a result.", "quantifier": "all pools that the operations can build, all shortest-path searches, all pairs of commodities and moments; all lists of price records; all pairs of groups of files that can be read", "why_tests_cant": "The numbers of the commodities and the order of the edges differ with the order of reading; a test sees one order and one search.", "anchors": ["src/history.rs:CommodityHistory::find_price", "src/history.rs:calculate_rate", "src/history.rs:get_direct_price", "src/history.rs:add_price", "src/pool.rs:CommodityPool::add_price", "src/lib.rs:parse_file"]}
{"id": "C105", "title": "Older and unrelated prices change no lookup", "statement": "A price lookup depends on the chains of prices between the two commodities and on the newest prices along the shortest one only. Recording a price for an earlier moment than that of another price of the same pair changes no lookup, and recording a price of one commodity in another changes no lookup from a commodity from which no prices lead to the first or into one to which no prices lead from the second (where there is only one shortest chain).", "quantifier": "all pools that the operations can build, all prices recorded, all pairs of commodities, all moments, all shortest-path searches", "why_tests_cant": "That a recorded price has no influence is a statement about all lookups in all pools; a test sees one lookup in one pool.", "anchors": ["src/history.rs:CommodityHistory::find_price", "src/history.rs:calculate_rate", "src/history.rs:get_direct_price", "src/history.rs:add_price", "src/pool.rs:CommodityPool::add_price"]}
{"id": "C106", "title": "A file of include lines is the same as naming the files", "statement": "Reading a file that has nothing but include lines of existing files, comments and empty lines has exactly the outcome, success or failure, of reading these files one after the other, and a command on any number of such main files prints what it prints for the files they include. For files that do not exist this is not so: an include line is ignored and a named file ends the program.", "quantifier": "all file systems, working directories, include depths, journals and arguments; any number of main files", "why_tests_cant": "A test has one layout of files; the claim is about every way of dividing the files among main files.", "anchors": ["src/parser.rs:include_directive", "src/parser.rs:parse", "src/lib.rs:parse_file", "src/lib.rs:run", "src/lib.rs:execute_command"]}
