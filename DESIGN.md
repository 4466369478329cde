# Formal model of ledger-rs-lib: design and trusted base

Subject: `/repo` (ledger-rs/ledger-rs-lib, v0.7.0).  Prover: Coq 8.16.1, standard library only.
Sources: `rocq/theories/*.v`, logical name `Verif`.

## 1. Shape of the model

One Gallina file per Rust source file; every definition cites file and lines.
Everything is a total computable function.

* Text is `list N` (Unicode scalar values).  Byte offsets that come from `find` and are only used to
  slice at the same place become list positions; the literal byte offsets of `scan_cost`
  (`&input[2..]`, `&input[3..]`) are modelled with UTF-8 lengths, including the slice panics.
* `outcome A := Ok a | Panic reason | Diverge`.  `todo!`, `panic!`, `unwrap` on `None`, slice errors and
  decimal overflow are `Panic`; `Diverge` is exhausted fuel (include recursion only).
* `HashMap` is an association list in insertion order; every traversal sorts first, as the code does.  C97 justifies that: with any
  other order (`HashOrder.v`) the program does the same.
* Raw pointers are replaced by names: commodity = symbol, account = path of component names,
  posting = (transaction number, posting number).  `Heap.v` is the same program with addresses instead, where
  following a stale or null address is undefined behaviour; C55 proves that every run of it that is not
  undefined has the result of the program with names, C56 which runs are defined.
* `rust_decimal`, `chrono` parsing, `petgraph::astar`, `shell_words::split`, `BufRead::read_line` are external crates that are
  not in `/repo`; their behaviour is modelled from their documentation (see Trusted base).

## 2. Files

| model | source | | model | source |
|---|---|---|---|---|
| `Base.v` | std string functions | | `Journal.v` | `post.rs`, `journal.rs`, totals of `account.rs` |
| `Decimal.v` | `amount.rs:203-310` over rust_decimal | | `Xact.v` | `xact.rs` |
| `Dates.v` | chrono calls | | `Parser.v` | `parser.rs`, `lib.rs:144-156` |
| `Amount.v`, `Balance.v`, `Compare.v` | `amount.rs:14-199`, `balance.rs`, derived comparisons of `amount.rs:14, 202`, `commodity.rs:62` | | `Report.v` | `report.rs:12-70` |
| `Scanner.v` | `scanner.rs:92-450` | | `Options.v`, `Lib.v` | `option.rs:26-115, 310-329`, `lib.rs:67-141`, `main.rs` (`Stdout.v`: what it prints) |
| `History.v`, `Pool.v` | `history.rs`, `pool.rs`, `annotate.rs`, `commodity.rs:11-38` | | `Memory.v` | raw pointers and container growth of all files |
| `Account.v` | `account.rs:10-183`, `journal.rs:68-97` | | `ModelTests.v`, `ModelTestsMore.v` | the project's own unit tests, run on the model |
| `OldReport.v` | `report.rs:72-130` (unused) | | `Unfinished.v` | `reader.rs`, `iterator.rs`, `value.rs`, `option.rs:119-300`, `scanner.rs:452-461`, `amount.rs:235-259` (unused) |
| `Shell.v` | `lib.rs:74-80` over shell_words | | `Heap.v`, `NameCache.v`, `HeapPrices.v`, `HashOrder.v` | the reader, the reports and the command with raw pointers; `account.rs:10-85` with the kept full names; `history.rs:102-147` and `pool.rs:100-109,137-139` with pointers |

Specifications (`Spec*.v`) do not use the model's helper functions for what they specify: quantities are
integers in units of 10^-28, balances are sums over lists, account names are split by a separate function,
line syntax is given by relations that build the text, memory validity by positions and counts.  Proofs are
in `*Facts.v` and `*Proofs.v`; concrete data is in `Demo*.v`.  The property theorems are in
`Properties*.v`, each with `Print Assumptions` and an `Example` that meets its hypotheses.

Names: `Cnn_...` belongs to property Cnn.  `..._refuted` is the negation of the claim (or of one part of it)
for the code as it is, with an executable witness.  `..._partial` is the part of the claim that does hold; the
comment above it says what is missing.

## 3. Plan per property

| id | modelled as | how |
|----|-------------|-----|
| C01, C02 | `Decimal.v`: parser and printer of decimals | round trip + exactness for all strings |
| C03, C04 | `Amount.v` | exact value lemmas; `inverse` of a negative amount refuted |
| C05 | `Balance.v` | invariant over lists of additions, permutation invariance |
| C06-C13 | `Xact.v` (`finalize`), `Parser.v` (`parse_cost`) | spec of balance per commodity; refutations with witness journals |
| C14-C16 | `Account.v` tree | lookup/registration laws; `find_account` panic refuted |
| C17-C19 | `Journal.v`, `Parser.v` | journal invariant over all texts |
| C20-C22 | `Report.v` | shape, sortedness, order independence; the texts of the amounts of a balance, and the lines of a report, can be split in one way only |
| C23-C26 | `Scanner.v` | render/scan round trips; refutations |
| C27-C29 | `Parser.v` | line-state-machine composition and frame theorems |
| C30-C34 | `Pool.v`, `History.v` | invariants over operation lists; path oracle with a proved BFS instance |
| C35-C39 | `Parser.v`, `Pool.v` | effect theorems and refutations |
| C40-C42 | `Options.v`, `Lib.v` | list laws, dispatch |
| C43-C44 | `Memory.v` | address/generation model of Vec and HashMap growth |
| C45-C46 | `Parser.v` | termination, circles of includes (SpecCycle.v; in the code the recursion ends with a stack overflow, in the model with `Diverge` at every depth), completeness on rendered journals |
| C47 | `Dates.v` | calendar spec |
| C48-C49 | `Parser.v` | refutations and partial results; which lot is kept by induction on the lines, for all files |
| C50 | `Decimal.v` | error bounds of rounding for all operands |
| C51 | `Memory.v` | equality of commodity pointers |
| C52, C53 | everything but `Memory.v` | composition of the theorems on arguments, scanning, finalising, totals and reports |
| C54 | `Shell.v` | the words of a text as a relation, equivalent to the splitter |
| C55 | `Heap.v` against `Parser.v`, `Report.v`, `Lib.v` | simulation, function by function, for every growth policy |
| C56 | `Heap.v` | invariant: every pointer in the heap can be followed; refutations for each condition and for every way to grow; for balance reports with few commodities an exact condition, from an invariant that says when each parent pointer was taken |
| C57 | `Balance.v` (`bal_sub`) | value per commodity before and after; refuted for a missing entry and a negative amount |
| C58 | `Parser.v` (`journal_read`) | frame theorem of C29, acceptance of C46 |
| C59 | `OldReport.v` | order, sums and injectivity of the text |
| C60 | `Parser.v` (`parse_amount`) | scanning of written amounts |
| C61 | `Decimal.v`, `Amount.v` | rounding of the boundary values |
| C62 | the parser, `Xact.v` and `Pool.v` | induction over what the lines say, with the pool as invariant |
| C63 | as C62, `Options.v`, `Report.v` | C62 joined with the report lemmas of C52 and C53 |
| C64, C65 | `Unfinished.v` (`diter_next`) | loops and sequences of calls as relations |
| C66 | `Unfinished.v` (`siter_next`) | as C64; refuted from the 256th call on |
| C67 | `Unfinished.v` | cases |
| C68 | `Unfinished.v`, `Scanner.v` | first separator is unique |
| C69 | `Unfinished.v` | truncation as bounds in units of 10^-28 |
| C70-C72 | the scanner and the parser | every function gives the same for two lines that differ only at the end or in the indentation |
| C73, C75 | the parser | the lines of each transaction as a relation, which is proved to be a function |
| C74 | as C63 | sums over permuted entries; refuted for the decimals |
| C76 | as C63 | every partial sum keeps the decimals and a plain sign |
| C77 | the parser, the pool | invariant of reading: the prices so far are those of the items so far; refuted for the commodity at the line end |
| C78 | as C63 | the entries of a transaction sum to zero; refuted if a positive amount is left out, and for transactions that do not sum to zero |
| C79 | `account_total`, `bal_add` | the total lists the commodities in the order of a stable sort of the postings by account; the order is unique |
| C80 | `account_total`, reading | induction over both trees; reading appends (C29) and creates the accounts of the outline (C73) |
| C81 | `Compare.v`, `Decimal.v`, `Amount.v`, `Balance.v` | each operation is the exact one rounded once, half to even; that determines the value |
| C82 | the scanner, the parser, the pool, the reports | simulation: lines with the same parts keep two journals equal but for decimals (C81) |
| C83 | the scanner: postings, headers, price lines | reading as relations on characters (SpecLine.v), shown equal to the functions both ways; refusals as a complement |
| C84 | reader, scanner, parser, finalize, for any text | content of a source as a relation on its lines (SpecContent.v), each line by the rules of C83; induction over the reading, and uniqueness of the content |
| C85 | reader, scanner, parser, finalize, exchange, for any text | refusals as a relation on lines and transactions (SpecRefused.v); every panic other than decimal overflow shown to be one, and no refused source shown to be read; files of the file system are taken to have names with a directory |
| C86 | reader, scanner, parser, finalize, exchange, decimals, report | bounds on the texts of posting lines (SpecModerate.v); every intermediate value of finalize and exchange bounded, including rounded quotients; then combined with C85 and C45. The bounds are sufficient, not necessary |
| C87 | reader, parser, pool, finalize, report, command | pairs of lines (SpecAside.v) carried through every step of the parser by a relation on journals that keeps accounts, commodities, amounts and costs and forgets the rest; the reports are functions of what is kept |
| C88 | reader, parser, finalize, account tree, report, command | C84 for a list of files, joined with C53, C18, C20, C22; the exact version with C85, C86 and C45 |
| C89 | amounts, balances, pool, price graph, finalize, reader, reports | every function commutes with the renaming of symbols, through the lines, the includes and the reports |
| C90 | account tree, finalize, reader, reports | the same for the names of accounts; `find_or_create` by induction on two fuels, as the names have other lengths; sorting commutes with names that keep their order |
| C91 | main.rs, run, messages of the reader | the escaped form of a list is a prefix code: the list and the rest of the text can be read back, by induction over characters, texts and lists |
| C92 | reader, parser, finalize, price graph, lookup | C77 composed over the files, read together with C33 and C34: chains and newest prices of the graph are those of the list of stated prices |
| C93 | decimals, amounts, balances, finalize, exchange, reader, reports | every function commutes with the change of sign (rounding works on absolute values, recorded prices are absolute); refuted for a left-out amount |
| C94 | `NameCache.v`: the tree of accounts with parent pointers and kept names | without the kept names it is the tree of `Heap.v`; invariant over histories; the pointers followed are valid iff the maps on the way were not moved (as in C56) |
| C95 | `HeapPrices.v`: price lookups and the nodes of the graph with raw pointers | reading with pointers agrees with reading by names (as in C56); the allocation of the map of commodities changes exactly at its capacities; invariants of the pool: each node points to the allocation of the time it was made |
| C96 | the reading model, run on two journals at once | simulation of the parser on two journals with the same lines: each step ends alike and adds the same to both, except the basis cost of a kept lot, which can only overflow; then invariants of the union of accounts, commodities and prices; totals by the sums of C02 |
| C97 | `HashOrder.v`: the program with the maps rearranged before every line | simulation between journals whose maps have the same entries (same answers to all lookups); traversals sort by name, which has one result for distinct names |
| C98 | reader, finalize, exchange, totals, report | the opposite file is accepted on its own (C93), hence after the first one (C96); totals are sums of units, and opposite units add up to zero |
| C99 | `resolve`, `included`, reader, command | induction on the nesting of includes; the sources read on behalf of a file are an inductive relation |
| C100 | reader, register_account, pool, finalize | what a source costs is an inductive relation on its lines; the outline of C70-C78 says which lines the entries, accounts, commodities and prices come from, and costs no more; growth: a file system for each k, read by C62 |
| C101 | reader and finalize | the relation of C62 between what is said and the transactions, used backwards; pairs of texts as witnesses for what is lost |
| C102 | as C74; report, totals | any sum over accounts is made of the sums of each account and commodity; the converse by subtracting the totals of the accounts directly below from the total of an account (C21); refuted for the decimals |
| C103 | as C63; report, totals | the transactions read are those said (C62), so the amounts are equal including decimals and sign of zero; then the totals of C80 for every account |
| C104 | pool, history, astar as in C33; reading as in C96 | the answer is a function of the shortest chain of symbols and the newest prices along it (C33), both the same in pools with the same prices; files by C96, where the prices of the later group only count first if they contradict; the two conditions are needed (C104_ties_refuted, C104_conflict_refuted) |
| C105 | as C104 | the price recorded is on no chain between the two, or is not the newest; so the chains and the newest prices along them stay, and the answer is a function of these |
| C106 | the reader with includes, run | induction over the lines: each include line is one step that reads the file at one depth less, which is `parse_file` |

Properties that the code violates are stated as `..._refuted` theorems with an executable witness, next to
a `..._partial` theorem that covers the part that does hold.

All 106 properties have theorems; none is without claim.  The status of each is in `MANIFEST.json`.

## 4. Trusted base

* The kernel of Coq 8.16.1 (with its `vm_compute`), `coq_makefile`, `make`.
* No axioms.  `Print Assumptions` answers `Closed under the global context` for every theorem named in
  `MANIFEST.json` (section 8 has the list).  The axioms of `Coq.ssr.ssrunder` that a listing of the loaded libraries
  shows come from the standard library file loaded by `lia`; no theorem uses them.
  `coqchk -o` on all property files together reports no axioms, no type-in-type, no unsafe fixpoints and no assumed positivity.
* The reading of the Rust sources: the model was written from the text of `/repo`, which was not compiled or
  run.  `ModelTests.v` and `ModelTestsMore.v` replay the unit and integration tests of the project on the model.
* The behaviour of external code, which is not in `/repo` and was modelled from documentation and memory:
  * `rust_decimal` 1.32: 96-bit mantissa, scale 0..28, half-to-even rounding, zero operands of `+`,
    `from_str_exact` (sign, digits, one point, underscores after a digit, error instead of rounding), the scale of
    quotients, sign of zero, `Display`.
  * `chrono`: `%Y-%m-%d` and `%H:%M:%S` fields (leading white space, one or two digits, signed years), the range of years.
  * `shell_words::split`: the state machine of version 1.1.
  * `petgraph`: `add_node`, `find_edge`, `add_edge`; `astar` by its contract (a path with the fewest edges, if
    there is a path), `C33_contract_satisfiable` shows a function that meets it.
  * std: `read_line`, `trim`, `find`, `split_whitespace`, `HashMap`, `BTreeMap`, `Vec`, growth of capacities.

## 5. What is modelled and what is not

Simplifications, by file:

* Pointers are names (`Amount.v`, `Account.v`, `Journal.v`).  C55 justifies that: a run of the program with pointers
  (`Heap.v`) either has undefined behaviour or does the same.  So all theorems about the program with names are
  about the defined runs of the Rust program; C56 says that the runs on small journals are defined and
  exactly which balance reports on larger ones are (with few commodities), and C43, C44, C51 that larger ones have
  dangling pointers.
* `Heap.v` checks the dereferences of raw pointers.  References that live while the borrow does are positions, not
  checked; Rust's rules about aliasing (references made from raw pointers while others live) are not modelled.  Each
  container has its own allocations, numbered; an address in an old allocation is stale.  The cached
  `fullname` of accounts is not kept there (the report asks for each name once); `NameCache.v` has it.  The pointer from a
  price point is not kept in `Heap.v`; `HeapPrices.v` gives it with the answer of a lookup.
* `Amount::add`, `inverse`, `Mul` form `&*null` for amounts without commodity.  The program with names treats that as working;
  `Heap.v` has a parameter `strict` that says whether it counts as undefined, and the theorems hold for both.
* Log output is not modelled. The messages of the reader for undecodable lines are counted by functions beside the reader (`lines_errors` in `Stdout.v`); their text is a parameter. `{:?}` of lists of strings (`Stdout.v`) is modelled from the standard library's documentation and source, with an arbitrary set of printable characters from U+0080 on. `env::args()` panics for arguments that are not Unicode; arguments are Unicode in the model. The message that a panic writes to the standard error stream is not modelled, nor a closed standard output.
* Included files: paths are resolved by the rules of `parser.rs:337-360` in a file system that maps paths to
  contents; the working directory is a parameter (absolute; `read_dir` of the directory of a file that exists is taken to
  succeed, and to fail for the empty path).  File contents are lists of lines, undecodable lines are marked.
  I/O errors other than a missing file are not modelled.
* `cost` pointers of implied costs are left out of `Memory.v`.
* `now` (`Local::now()` in `calculate_rate`) is a parameter.
* Numbers of transactions and postings are unbounded.

Not modelled: `journalreader.rs` (an empty struct), functions without arguments of interest that consist of one `todo!`
(`commodity.rs:44-56` `find_price`, `report.rs:21-27`, `history.rs:97-99, 222-224`, `lib.rs:125-127, 158-168`),
`report.rs:132-140` (empty), `lib.rs:170-173` (a constant), conversion of `Quantity` from `f32` (tests only).

## 6. Findings

What the proofs showed to be wrong in the code (theorem in parentheses):

1. `Amount::inverse` returns negative amounts unchanged (C04).  So an elided amount is never positive: a
   transaction whose written postings sum to less than zero is completed with the wrong sign (C06, C46).
2. Transactions are never checked for balance (C07).  Transactions without postings are accepted.
3. `1,000 EUR` is read as no amount, `$.50` as 50 of commodity `$.`, an amount after a tab as part of the account
   name; `Account  ; note` creates a commodity `;` (C26).
4. `@25 EUR` loses the `2` (C25).  A multi-byte character after `@` panics.
5. A bare quantity followed by `{...}` is misread (C23).
6. Only the first annotation of a commodity is kept, and the first posting in a commodity counts as
   annotated even without a lot (C48); the basis cost is then 0 (C38).
7. Written costs are overwritten by implied costs in two-commodity transactions (C09).
8. A date-only header followed by a line feed panics (C49), as does a transaction directly followed by a comment or another
   transaction without an empty line between them (C27), a line of white space between transactions, and a tab before a
   posting.
9. `P` directives in a journal panic (C35); the function behind them works.
10. A missing include file is ignored, as is an existing one whose name starts with `~` or `\` and has no directory;
    `include /` panics (C36); an undecodable line ends the transaction or the reading of its file,
    with a message on the standard output but without failure (C39).
11. A second note on the same element replaces the first (C37).
12. `find_account` panics if a parent is missing (C16).
13. `find_price` ignores `moment` and `oldest` (C32).
14. Amounts are printed without a separator: 5 and 10 EUR as `510 EUR` (C21).
15. The program passes its own path as the command (C42).
16. Raw pointers dangle: postings in account lists from the fifth posting of a transaction on, postings' transactions
    from the fifth transaction on, accounts and commodities from the fourth sibling or commodity on (C43, C44).
    With four commodities, five postings or four sibling accounts ordinary journals make the commands read freed memory
    (C56).
17. Additions compare commodity pointers, so after the fourth commodity two amounts in one commodity cannot be
    added: the total of the account panics, after reading freed memory (C51).
18. `Journal::read` returns the number of all transactions, not of those read (C58).
19. `Balance -= amount` with a negative amount in a commodity the balance does not have enters the amount itself
    (C57, from 1).
20. `DirectiveIter` never clears its buffer, so from the second line on it holds all lines so far (C65); the `u8` counter of
    `SimpleParserIter` overflows with the 256th call (C66).  Neither is used yet.
21. Two spaces after an account without amount, or one after a date without payee, change the outcome (C71).  A line
    whose first word starts with `i`, such as `inculde x`, is read as a price (C70).  The line end becomes part of the
    commodity of such a price (C77).
22. The number of decimals of a total depends on the order of the transactions: 5 - 12.34 + 12.34 is printed as `5.00`,
    12.34 - 12.34 + 5 as `5` (C74), and 2.50 + 2.50 as `5.00` (C102).  A left out amount of zero is `-0.00`, and stays so only in some orders (C76).
23. The lot price that was given first for a commodity is used for all later transactions, also of other files, for a
    gain that is never used.  If it is large, their reading panics; if their own is large and the first is small, it
    does not (C96).
24. Files that include the next one twice make the result exponentially large: 21 files of together 43 lines give a
    million transactions (C100).
25. A journal does not keep whether a cost was for one unit or for all, whether an amount was left out, any note of a
    posting but the last, or the lots of a commodity after its first posting (C101).

## 7. Mutation testing

`tools/mutants.py` lists realistic bugs as edits of the model, `tools/mutate.py` applies each to a scratch copy,
rebuilds it, and replaces each proof that fails by an axiom; the property theorems that depend on the axiom
have failed.  `tools/auto_mutants.py` makes mechanical edits of every definition (a constant, an operator, a branch, a
result) and rebuilds until the first property theorem fails.  `seeded/LOG.jsonl` has the results.

The lines `a…` of the log are 608 further mechanical edits, made of the model as of commit e814e88, the first with
`PropertiesLots.v`, and not of the last one.  Each build stopped at the first failure, in most cases a lemma, so these lines name that
lemma and not the property theorems that depend on it, and the claim an edit breaks was not worked out.  574 failed, 17 did not
(the log says why no claim breaks), 11 were not well-formed, and 6 ran out of time, which shows nothing about them.

## 8. Theorems and their assumptions

389 theorems.

| theorem | Print Assumptions |
|---|---|
| `C01_quantity_round_trip` | closed |
| `C01_quantity_text_injective` | closed |
| `C02_read_exactly` | closed |
| `C02_foreign_character` | closed |
| `C02_complete` | closed |
| `C02_accepted_texts` | closed |
| `C03_exact` | closed |
| `C03_no_mixing` | closed |
| `C03_product_exact` | closed |
| `C03_quotient_exact` | closed |
| `C03_product_commodity` | closed |
| `C04_invert` | closed |
| `C04_inverse_refuted` | closed |
| `C04_inverse_partial` | closed |
| `C05_exact_sums` | closed |
| `C05_one_entry_per_commodity` | closed |
| `C05_order_independent` | closed |
| `C05_balance_plus_balance` | closed |
| `C06_elided_refuted` | closed |
| `C06_elided_value_partial` | closed |
| `C06_balances_partial` | closed |
| `C06_accepted` | closed |
| `C07_accepted_balance_refuted` | closed |
| `C07_elided_partial` | closed |
| `C07_two_commodities_partial` | closed |
| `C07_as_written_partial` | closed |
| `C08_frame` | closed |
| `C09_written_cost_partial` | closed |
| `C09_cost_refuted` | closed |
| `C09_cost_kept_partial` | closed |
| `C10_not_a_number` | closed |
| `C10_unit_cost` | closed |
| `C10_total_cost` | closed |
| `C10_no_cost` | closed |
| `C11_implied_costs` | closed |
| `C12_prices_recorded` | closed |
| `C13_no_posting_without_amount` | closed |
| `C13_quantities_wf` | closed |
| `C13_all_finalised` | closed |
| `C14_reachable_trees` | closed |
| `C14_register_then_find` | closed |
| `C14_full_name` | closed |
| `C14_names_identify` | closed |
| `C15_register_frame` | closed |
| `C16_lookup_partial` | closed |
| `C16_lookup_refuted` | closed |
| `C17_posting_lists` | closed |
| `C18_account_total` | closed |
| `C18_account_amount` | closed |
| `C18_own_plus_children` | closed |
| `C19_master_total` | closed |
| `C19_balanced_to_zero` | closed |
| `C20_report_shape` | closed |
| `C20_report_succeeds` | closed |
| `C20_order_independent` | closed |
| `C21_report_partial` | closed |
| `C21_printed_partial` | closed |
| `C21_text_refuted` | closed |
| `C21_text_partial` | closed |
| `C22_accounts_command` | closed |
| `C22_accounts_shape` | closed |
| `C23_posting_scanned` | closed |
| `C23_bare_lot_refuted` | closed |
| `C24_header_scanned` | closed |
| `C24_header_read` | closed |
| `C25_glued_cost_refuted` | closed |
| `C25_first_character_lost_partial` | closed |
| `C25_any_spaces_partial` | closed |
| `C26_ignored_refuted` | closed |
| `C26_other_number_refuted` | closed |
| `C26_tab_refuted` | closed |
| `C26_plain_number_partial` | closed |
| `C26_no_other_number_partial` | closed |
| `C27_inert_lines_partial` | closed |
| `C27_inert_text_partial` | closed |
| `C27_empty_lines` | closed |
| `C27_after_posting_refuted` | closed |
| `C28_lines` | closed |
| `C28_texts` | closed |
| `C28_texts_blank_line` | closed |
| `C29_read_appends` | closed |
| `C30_pool_consistent` | closed |
| `C30_find_or_create` | closed |
| `C30_stable_index` | closed |
| `C31_newest_recorded` | closed |
| `C31_none_recorded` | closed |
| `C32_moment_refuted` | closed |
| `C32_moment_partial` | closed |
| `C33_contract_satisfiable` | closed |
| `C33_rate_of_chain` | closed |
| `C34_ordinary_prices` | closed |
| `C34_lookup_total` | closed |
| `C35_journal_refuted` | closed |
| `C35_directive_partial` | closed |
| `C36_include_inlined_partial` | closed |
| `C36_missing_ignored` | closed |
| `C36_missing_refuted` | closed |
| `C36_bare_name_refuted` | closed |
| `C36_bare_name_ignored` | closed |
| `C36_root_panics` | closed |
| `C37_note_line_partial` | closed |
| `C37_note_read_partial` | closed |
| `C37_earlier_note_refuted` | closed |
| `C38_exchange_partial` | closed |
| `C38_basis_refuted` | closed |
| `C39_reported_refuted` | closed |
| `C39_rest_dropped` | closed |
| `C39_ends_transaction` | closed |
| `C39_message` | closed |
| `C39_message_inside` | closed |
| `C39_no_message` | closed |
| `C39_no_message_run` | closed |
| `C39_decodable` | closed |
| `C40_words_and_files` | closed |
| `C40_accepted` | closed |
| `C40_all_others_fail` | closed |
| `C40_bad_option` | closed |
| `C41_balance` | closed |
| `C41_accounts` | closed |
| `C41_only` | closed |
| `C41_contents_only` | closed |
| `C42_main_refuted` | closed |
| `C42_main_never_reports` | closed |
| `C43_posting_pointer_exact` | closed |
| `C43_posting_pointer_valid_partial` | closed |
| `C43_posting_pointer_refuted` | closed |
| `C44_posting_names` | closed |
| `C44_parent_names` | closed |
| `C44_node_names` | closed |
| `C44_lifetime_exact` | closed |
| `C44_not_updated` | closed |
| `C44_pointer_valid_partial` | closed |
| `C44_small_journal_partial` | closed |
| `C44_account_refuted` | closed |
| `C44_xact_refuted` | closed |
| `C44_parent_refuted` | closed |
| `C44_amount_refuted` | closed |
| `C44_node_refuted` | closed |
| `C45_circle_never_read` | closed |
| `C45_circle_diverges` | closed |
| `C45_circle_no_report` | closed |
| `C45_depth_reading` | closed |
| `C45_depth_run` | closed |
| `C45_reading_terminates` | closed |
| `C45_run_terminates` | closed |
| `C45_cycle_diverges` | closed |
| `C46_journal_accepted_partial` | closed |
| `C46_elided_sum_refuted` | closed |
| `C47_date_text` | closed |
| `C47_accepted_valid` | closed |
| `C47_accepted_texts` | closed |
| `C47_accepted_times` | closed |
| `C47_days_and_moments` | closed |
| `C47_order` | closed |
| `C48_which_partial` | closed |
| `C48_lot_refuted` | closed |
| `C48_first_lot_partial` | closed |
| `C49_date_line_refuted` | closed |
| `C49_date_only_partial` | closed |
| `C49_date_space_partial` | closed |
| `C49_date_note_partial` | closed |
| `C50_product` | closed |
| `C50_quotient` | closed |
| `C50_sum` | closed |
| `C50_exact_if_representable` | closed |
| `C50_product_exists` | closed |
| `C50_quotient_exists` | closed |
| `C51_one_pointer_partial` | closed |
| `C51_one_pointer_refuted` | closed |
| `C52_balance_partial` | closed |
| `C52_balance_refuted` | closed |
| `C53_read_accounts` | closed |
| `C53_accounts_command` | closed |
| `C54_run_command` | closed |
| `C54_words_unique` | closed |
| `C54_quoted` | closed |
| `C54_simple` | closed |
| `C55_reading` | closed |
| `C55_output` | closed |
| `C55_growth_unseen` | closed |
| `C56_balance_partial` | closed |
| `C56_few_children` | closed |
| `C56_balance_exact_partial` | closed |
| `C56_every_growth_refuted` | closed |
| `C56_reading_partial` | closed |
| `C56_command_partial` | closed |
| `C56_commodities_refuted` | closed |
| `C56_postings_refuted` | closed |
| `C56_children_refuted` | closed |
| `C56_null_refuted` | closed |
| `C57_refuted` | closed |
| `C57_sub_partial` | closed |
| `C58_refuted` | closed |
| `C58_all_partial` | closed |
| `C58_written_partial` | closed |
| `C59_own_balances` | closed |
| `C59_lines` | closed |
| `C59_text_injective` | closed |
| `C60_parse_amount` | closed |
| `C61_sum` | closed |
| `C61_difference` | closed |
| `C61_product` | closed |
| `C61_quotient` | closed |
| `C61_ends` | closed |
| `C62_full_journal` | closed |
| `C63_balance` | closed |
| `C63_accounts` | closed |
| `C64_items` | closed |
| `C64_fused` | closed |
| `C64_undecodable` | closed |
| `C65_buffer_refuted` | closed |
| `C65_buffer_partial` | closed |
| `C66_items` | closed |
| `C66_fused_refuted` | closed |
| `C66_overflow_refuted` | closed |
| `C66_calls_partial` | closed |
| `C67_lookups` | closed |
| `C67_exchange_commodities` | closed |
| `C67_how` | closed |
| `C68_next_element` | closed |
| `C68_price_element` | closed |
| `C69_text` | closed |
| `C69_from` | closed |
| `C69_into` | closed |
| `C69_out_of_range` | closed |
| `C69_round_trip` | closed |
| `C70_windows_line_ends_partial` | closed |
| `C70_price_line_refuted` | closed |
| `C71_trailing_space_partial` | closed |
| `C71_after_account_refuted` | closed |
| `C71_after_date_refuted` | closed |
| `C72_indentation_partial` | closed |
| `C72_tab_refuted` | closed |
| `C72_white_space` | closed |
| `C73_every_line_counts` | closed |
| `C73_accounts` | closed |
| `C73_outline_unique` | closed |
| `C73_lines` | closed |
| `C74_accounts` | closed |
| `C74_balance_partial` | closed |
| `C74_postings_partial` | closed |
| `C74_decimals_refuted` | closed |
| `C75_commodities` | closed |
| `C75_any_lines` | closed |
| `C76_decimals` | closed |
| `C76_order` | closed |
| `C76_one_commodity` | closed |
| `C76_minus_zero_refuted` | closed |
| `C76_two_commodities_refuted` | closed |
| `C77_prices` | closed |
| `C77_line_end_refuted` | closed |
| `C78_trial_balance_partial` | closed |
| `C78_positive_rest_refuted` | closed |
| `C78_accepted_refuted` | closed |
| `C79_order` | closed |
| `C79_unique` | closed |
| `C79_report` | closed |
| `C79_same_text` | closed |
| `C79_reordered` | closed |
| `C80_total` | closed |
| `C80_line` | closed |
| `C80_run` | closed |
| `C80_reading` | closed |
| `C81_compare` | closed |
| `C81_max_min` | closed |
| `C81_equal_amounts` | closed |
| `C81_equal_prices` | closed |
| `C81_sum` | closed |
| `C81_difference` | closed |
| `C81_product` | closed |
| `C81_quotient` | closed |
| `C81_determined` | closed |
| `C81_same_arithmetic` | closed |
| `C81_same_signs` | closed |
| `C81_zero` | closed |
| `C81_same_balances` | closed |
| `C82_reading` | closed |
| `C82_totals` | closed |
| `C82_report` | closed |
| `C82_prices` | closed |
| `C82_run` | closed |
| `C83_posting` | closed |
| `C83_posting_refused` | closed |
| `C83_posting_one_way` | closed |
| `C83_header` | closed |
| `C83_header_total` | closed |
| `C83_price` | closed |
| `C83_price_refused` | closed |
| `C84_transactions` | closed |
| `C84_content_unique` | closed |
| `C85_refused` | closed |
| `C85_never_read` | closed |
| `C86_reading` | closed |
| `C86_report` | closed |
| `C86_read_unless_refused` | closed |
| `C86_run` | closed |
| `C87_reading` | closed |
| `C87_report` | closed |
| `C87_run` | closed |
| `C88_balance` | closed |
| `C88_accounts` | closed |
| `C88_ordinary_balance` | closed |
| `C88_told_once` | closed |
| `C89_reading` | closed |
| `C89_report` | closed |
| `C89_run` | closed |
| `C89_prices` | closed |
| `C90_reading` | closed |
| `C90_report` | closed |
| `C90_run` | closed |
| `C91_lines` | closed |
| `C91_determined` | closed |
| `C91_ordinary` | closed |
| `C92_lookup` | closed |
| `C93_arithmetic` | closed |
| `C93_balance` | closed |
| `C93_reading_partial` | closed |
| `C93_totals` | closed |
| `C93_report` | closed |
| `C93_run_partial` | closed |
| `C93_left_out_refuted` | closed |
| `C94_right` | closed |
| `C94_defined` | closed |
| `C94_again` | closed |
| `C94_register` | closed |
| `C94_few` | closed |
| `C94_late_refuted` | closed |
| `C95_found` | closed |
| `C95_fresh` | closed |
| `C95_kept` | closed |
| `C95_mixed` | closed |
| `C95_node` | closed |
| `C96_source` | closed |
| `C96_together` | closed |
| `C96_readable` | closed |
| `C96_refused` | closed |
| `C96_totals` | closed |
| `C96_order` | closed |
| `C96_twice` | closed |
| `C96_readable_refuted` | closed |
| `C96_refused_refuted` | closed |
| `C97_run` | closed |
| `C97_reading` | closed |
| `C97_source` | closed |
| `C97_reports` | closed |
| `C97_lookups` | closed |
| `C97_one_entry` | closed |
| `C98_source` | closed |
| `C98_files` | closed |
| `C98_run` | closed |
| `C99_source` | closed |
| `C99_run` | closed |
| `C99_full_source` | closed |
| `C99_full_run` | closed |
| `C100_entries_partial` | closed |
| `C100_accounts_partial` | closed |
| `C100_commodities_partial` | closed |
| `C100_prices_partial` | closed |
| `C100_no_includes` | closed |
| `C100_exponential` | closed |
| `C100_doubling` | closed |
| `C100_linear_refuted` | closed |
| `C101_alike_partial` | closed |
| `C101_unit_cost_refuted` | closed |
| `C101_left_out_refuted` | closed |
| `C101_notes_refuted` | closed |
| `C101_lots_refuted` | closed |
| `C102_own_partial` | closed |
| `C102_balance_partial` | closed |
| `C102_accounts` | closed |
| `C102_split` | closed |
| `C102_merge` | closed |
| `C102_written_out` | closed |
| `C102_text_refuted` | closed |
| `C103_run` | closed |
| `C103_report` | closed |
| `C104_lookup` | closed |
| `C104_direct` | closed |
| `C104_found` | closed |
| `C104_records` | closed |
| `C104_files` | closed |
| `C104_ties_refuted` | closed |
| `C104_conflict_refuted` | closed |
| `C105_chain` | closed |
| `C105_older` | closed |
| `C105_unrelated` | closed |
| `C106_source` | closed |
| `C106_run` | closed |
| `C106_missing_refuted` | closed |
