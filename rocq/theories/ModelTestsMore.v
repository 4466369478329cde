(** The rest of the repository's tests, replayed on the model.  These are tests, not proofs.  Left out are tests of other
    crates (petgraph, [str::trim]), of [f32] conversions, tests that are switched off and tests that end in [todo!]. *)
From Coq Require Import String List NArith ZArith Bool.
From Verif Require Import Base Decimal Dates Amount Balance Scanner History Pool Account Journal Xact Parser Report Options Lib
  Shell Compare Unfinished Memory Heap ModelTests.
Import ListNotations.
Open Scope nat_scope.
Open Scope string_scope.

Definition num (z : Z) (c : comm) : amount := mkAmt (d_of_int z) c.
Definition same (o : outcome amount) (a : amount) : bool := match o with Ok b => amt_eqb b a | _ => false end.
Definition eur : comm := Some (lit "EUR").
Definition abc : comm := Some (lit "ABC").

(** amount.rs:317-361, parser.rs:858-874, 961-1001 *)
Example test_amounts :
  quantity_into_i32 (quantity_from_i32 5) = Ok 5%Z
  /\ same (amt_div (num 10 eur) (num 5 eur)) (num 2 eur) = true
  /\ same (amt_mul (amount_from_i32 10) (amount_from_i32 5)) (num 50 None) = true
  /\ option_map (d_eqb (d_of_int 3)) (d_from_str (lit "3")) = Some true
  /\ d_from_str (lit "3 USD") = None
  /\ option_map (d_eqb (d_of_int (-1000000))) (d_from_str (lit "-1000000.00")) = Some true
  /\ same (amt_plus (num 10 None) (num 15 None)) (num 25 None) = true
  /\ same (amt_add (num 21 None) (num 13 None)) (num 34 None) = true.
Proof. vm_compute. repeat split. Qed.

(** balance.rs:103-269 *)
Definition sums (l : list amount) : outcome balance := fold_outcome bal_add l bal_new.
Example test_balances :
  sums [num 25 None] = Ok [num 25 None]
  /\ sums [num 25 None; num 5 None] = Ok [num 30 None]
  /\ sums [num 25 abc; num 5 None] = Ok [num 25 abc; num 5 None]
  /\ sums [num 25 eur; num 5 abc] = Ok [num 25 eur; num 5 abc]
  /\ sums [num 25 eur; num 5 eur] = Ok [num 30 eur]
  /\ bal_sub bal_new (num 10 abc) = Ok [amt_inverse (num 10 abc)]
  /\ (let* b1 := sums [num 10 abc] in let* b2 := sums [num 15 abc] in bal_add_bal b2 b1) = Ok [num 25 abc].
Proof. vm_compute. repeat split. Qed.

(** annotate.rs:60-77 *)
Example test_annotation :
  (let* (_, a) := annotation_parse pool_new (lit "2023-01-10") (lit "20") (lit "EUR") in Ok (an_date a, an_price a))
  = Ok (Some (mkDate 2023 1 10), Some (num 20 eur)).
Proof. vm_compute. reflexivity. Qed.

(** commodity.rs:74-92 *)
Example test_commodities : str_eqb (lit "EUR") (lit "EUR") = true /\ str_eqb (lit "EUR") (lit "GBP") = false.
Proof. vm_compute. split; reflexivity. Qed.

(** account.rs:228-250, journal.rs:115-139 *)
Example test_register :
  (let* (m, p) := register_account (j_master journal_new) (lit "Assets:Cash") in Ok (map ac_name (flatten m), option_map ac_name (get_account m p)))
  = Ok ([[]; lit "Assets"; lit "Cash"], Some (lit "Cash"))
  /\ (let* (m, p) := register_account (j_master journal_new) (lit "Assets") in Ok (option_map ac_name (get_account m p))) = Ok (Some (lit "Assets"))
  /\ ac_name (j_master journal_new) = [].
Proof. vm_compute. repeat split. Qed.

(** journal.rs:143-177, the names on the way *)
Definition names_on (o : outcome (account * path)) : outcome (list (option str)) :=
  let* (m, _) := o in
  let* a := find_account m (lit "Assets") in
  match a with
  | None => Ok []
  | Some pa => match get_account m pa with
               | None => Ok []
               | Some assets =>
                   let* i := find_account assets (lit "Investments") in
                   match i with
                   | None => Ok []
                   | Some pi => match get_account assets pi with
                                | None => Ok []
                                | Some inv => let* b := find_account inv (lit "Broker") in
                                              Ok [Some (ac_name assets); Some (ac_name inv);
                                                  match b with Some pb => option_map ac_name (get_account inv pb) | None => None end]
                                end
                   end
               end
  end.
Example test_register_tree :
  names_on (register_account (j_master journal_new) (lit "Assets:Investments:Broker"))
  = Ok [Some (lit "Assets"); Some (lit "Investments"); Some (lit "Broker")].
Proof. vm_compute. reflexivity. Qed.

(** account.rs:254-271 *)
Example test_fullname :
  (let* j := read "2023-05-01 Test
    Expenses:Food  10 EUR
    Assets:Cash
" in let* a := find_account (j_master j) (lit "Expenses:Food") in
   Ok (length (flatten (j_master j)),
       match a with Some p => (option_map ac_name (get_account (j_master j) p), fullname p) | None => (None, []) end))
  = Ok (5, (Some (lit "Food"), lit "Expenses:Food")).
Proof. vm_compute. reflexivity. Qed.

(** journal.rs:189-206 *)
Example test_read :
  (let* (_, n) := journal_read 3 [] no_files (text_source (lit "2023-05-01 Test
  Expenses:Food  20 EUR
  Assets:Cash
")) journal_new in Ok n) = Ok 1.
Proof. vm_compute. reflexivity. Qed.

(** The files of /repo/tests. *)
Definition ledgers : filesystem := fun f =>
  let file name text := if str_eqb f (lit "tests/" ++ lit name)%list then Some (text_source (lit text)) else None in
  match file "basic.ledger" "; basic test file

2023-04-21 Supermarket
    Expenses:Food  20 EUR
    Assets:Cash
" with Some s => Some s | None =>
  match file "minimal.ledger" "; The simplest journal. No commodities, two accounts, integer value.
2023-05-05 Payee
    Expenses  20
    Assets
" with Some s => Some s | None =>
  match file "lot.ledger" "2023-05-01 Trade
    Assets:Stocks  10 VEUR @ 12.75 EUR
    Assets:Cash
" with Some s => Some s | None =>
  match file "multiple_currencies.ledger" "; Multiple currencies in one transaction

2023-04-21 FX
    Assets:Eur   -20 EUR
    Assets:Bam    40 BAM
" with Some s => Some s | None =>
  match file "two-xact-sub-acct.ledger" "; Two transactions with two accounts under the same parent.

2023-04-21 Supermarket
    Expenses:Food  20 EUR
    Assets:Cash

2023-04-22 Supermarket
    Expenses:Dining  10 EUR
    Assets:Checking
" with Some s => Some s | None =>
  match file "two_xact.ledger" "; Two transactions with a blank line separator.

2023-04-21 Supermarket
    Expenses:Food  20 EUR
    Assets:Cash

2023-04-22 Supermarket
    Expenses:Food  10 EUR
    Assets:Cash
" with Some s => Some s | None =>
  match file "trade-buy-sell.ledger" "; a full trade, with purchase and sale of a commodity.

2023-04-21 Buy Stocks
    Assets:Stocks  10 VEUR @ 20 EUR
    Assets:Cash

2023-05-17 Sell Stocks
    Assets:Stocks  -10 VEUR @ 25 EUR
    ;Income:Capital Gains
    Assets:Cash
" with Some s => Some s | None =>
  match file "trade-buy-sell-full-price.ledger" "; a full trade, with purchase and sale of a commodity.

2023-04-21 Buy Stocks
    Assets:Stocks  10 VEUR @@ 20 EUR
    Assets:Cash

2023-05-17 Sell Stocks
    Assets:Stocks  -10 VEUR @@ 25 EUR
    ;Income:Capital Gains
    Assets:Cash
" with Some s => Some s | None =>
  match file "trade-buy-sell-lot.ledger" "; a full trade, with purchase and sale of a commodity.

2023-04-01 Buy Stocks
    Assets:Stocks  10 VEUR @ 20 EUR
    Assets:Cash

2023-05-01 Sell Stocks
    Assets:Stocks  -10 VEUR {20 EUR} [2023-04-01] @ 25 EUR
    ;Income:Capital Gains
    Assets:Cash
" with Some s => Some s | None =>
  match file "commodity_exchange.ledger" "; based on the given price and a transaction,
; run the balance report with -X USD, 
; to get the account balances in USD.

P 2022-03-03 13:00:00 EUR 1.10 USD

2023-01-10 Vacation
    Expenses:Vacation  20 EUR
    Assets:Cash
" with Some s => Some s | None => None end end end end end end end end end end.
Definition on_file {A} (name : string) (f : journal -> A) : outcome A :=
  let* j := parse_file 3 [] ledgers (lit "tests/" ++ lit name)%list journal_new in Ok (f j).
Definition at_account {A} (j : journal) (name : string) (f : account -> A) : outcome (option A) :=
  let* a := find_account (j_master j) (lit name) in
  Ok (match a with Some p => option_map f (get_account (j_master j) p) | None => None end).

(** account.rs:275-318, journal.rs:142-150 *)
Example test_amount_parsing :
  (let* j := on_file "basic.ledger" (fun j => j) in at_account j "Assets:Cash" (fun a => account_amount (j_xacts j) (ac_posts a)))
  = Ok (Some (Ok [num (-20) eur])).
Proof. vm_compute. reflexivity. Qed.
Example test_total :
  (let* j := on_file "two-xact-sub-acct.ledger" (fun j => j) in at_account j "Assets" (account_total (j_xacts j)))
  = Ok (Some (Ok [num (-30) eur])).
Proof. vm_compute. reflexivity. Qed.

(** lib.rs:205-247 *)
Example test_multiple_files :
  (let* words := shell_split (lit "accounts -f tests/minimal.ledger -f tests/basic.ledger") in
   let* (_, files) := process_arguments words in
   let* j := read_journal_files 3 [] ledgers files in
   Ok (map x_payee (j_xacts j), map (fun x => length (x_posts x)) (j_xacts j),
       option_map po_amount (nth_error (all_posts j) 0), option_map po_amount (nth_error (all_posts j) 2),
       map ac_name (flatten (j_master j)), map fst (p_comms (j_pool j))))
  = Ok ([lit "Payee"; lit "Supermarket"], [2; 2], Some (Some (num 20 None)), Some (Some (num 20 eur)),
        map lit [""; "Assets"; "Cash"; "Expenses"; "Food"], [lit "EUR"]).
Proof. vm_compute. reflexivity. Qed.

(** history.rs:272-420 *)
Definition with_prices (names : list string) (prices : list (string * string)) (f : pool -> outcome (option (datetime * dec))) :=
  let d := mkDT (mkDate 2023 5 1) midnight in
  let p := fold_left (fun p s => pool_create p (lit s) None) names pool_new in
  let* p := fold_outcome (fun p sp => let* (p, a) := parse_amount p (lit (snd sp)) in let* a := unwrap a in
                                      pool_add_price p (Some (lit (fst sp))) d a) prices p in
  f p.
Example test_history :
  fst (add_commodity graph_new (lit "EUR")) = mkGraph [lit "EUR"] []
  /\ (let '(g, i) := add_commodity graph_new (lit "EUR") in get_commodity g i) = Ok (lit "EUR")
  /\ get_latest_price (fold_left (fun m (kv : string * Z) => match parse_datetime (lit (fst kv)) with
                                                            | Some d => pm_insert d (d_of_int (snd kv)) m | None => m end)
                        [("2023-05-05", 10%Z); ("2023-05-01", 20%Z); ("2023-05-10", 30%Z); ("2023-05-02", 40%Z)] [])
     = Some (mkDT (mkDate 2023 5 10) midnight, d_of_int 30)
  /\ with_prices ["EUR"; "USD"] [("EUR", "25 USD")] (fun p => Ok (get_direct_price (p_hist p) 0 1)) = Ok (Some (mkDT (mkDate 2023 5 1) midnight, d_of_int 25))
  /\ with_prices ["EUR"; "USD"] [("EUR", "1.20 USD")] (fun p => Ok (get_direct_price (p_hist p) 0 1)) = Ok (Some (mkDT (mkDate 2023 5 1) midnight, mkDec false 120 2))
  /\ with_prices ["EUR"; "AUD"; "USD"] [("EUR", "2 AUD"); ("AUD", "3 USD")]
       (fun p => let* r := calculate_rate (p_hist p) 0 [0; 1; 2] (mkDT (mkDate 2026 1 1) midnight) in Ok (Some r))
     = Ok (Some (mkDT (mkDate 2023 5 1) midnight, d_of_int 6))
  /\ with_prices ["EUR"; "USD"] [("EUR", "1.20 USD")]
       (fun p => let now := mkDT (mkDate 2026 1 1) midnight in
                 let* r := pool_find_price bfs p (Some (lit "EUR")) (Some (lit "USD")) now (mkDT (mkDate 2023 5 1) midnight) now in
                 Ok (option_map (fun x => (fst x, a_q (snd x))) r))
     = Ok (Some (mkDT (mkDate 2023 5 1) midnight, mkDec false 120 2)).
Proof. vm_compute. repeat split. Qed.

(** parser.rs:585-601, 640-670 *)
Example test_two_currencies :
  with_journal ";
2023-05-05 Payee
    Assets:Cash EUR  -25 EUR
    Assets:Cash USD   30 USD
" (fun j => length (p_comms (j_pool j))) = Ok 2
  /\ with_journal "; Standard transaction
2023-04-10 Supermarket
    Expenses  20 EUR
    Assets
" (fun j => (map x_payee (j_xacts j), map po_account (all_posts j))) = Ok ([lit "Supermarket"], [[lit "Expenses"]; [lit "Assets"]]).
Proof. vm_compute. split; reflexivity. Qed.

(** parser.rs:750-793 with the file itself *)
Example test_lot_file :
  on_file "lot.ledger" (fun j => (length (j_xacts j), length (flatten (j_master j)), length (p_comms (j_pool j)), length (g_nodes (p_hist (j_pool j))), costs j))
  = Ok (1, 4, 2, 2, [Some (lit "127.50", eur); None]).
Proof. vm_compute. reflexivity. Qed.

(** parser.rs:840-960 *)
Definition one_post (line : string) : outcome (list (option (str * comm))) :=
  let* x := xact_create (lit "2023-05-02") [] (lit "Supermarket") [] in
  let j := mkJournal (j_master journal_new) (pool_create pool_new (lit "EUR") None) [x] in
  let* j := parse_post j 0 (lit line) in
  Ok (map (fun p => option_map (fun a => (d_to_string (a_q a), a_c a)) (po_amount p)) (all_posts j)).
Example test_one_post :
  map one_post ["  Assets  20 EUR"; "  Assets  -20 EUR"; "  Assets  -20000.00 EUR"; "  Assets  A$-20000.00"]
  = [Ok [Some (lit "20", eur)]; Ok [Some (lit "-20", eur)]; Ok [Some (lit "-20000.00", eur)]; Ok [Some (lit "-20000.00", Some (lit "A$"))]].
Proof. vm_compute. reflexivity. Qed.

(** pool.rs:296-323, 367-385 *)
Example test_pool :
  option_map c_symbol (pool_find (pool_create pool_new (lit "DHI") None) (lit "DHI")) = Some (lit "DHI")
  /\ map fst (p_comms (pool_create pool_new (lit "EUR") None)) = [lit "EUR"]
  /\ lookup (lit "EUR") (p_ann (pool_create pool_new (lit "EUR") (Some (mkAnn None None)))) = Some (mkAnn None None).
Proof. vm_compute. repeat split. Qed.

(** option.rs:339-413 *)
Example test_arguments :
  (let* w := shell_split (lit "accounts -f basic.ledger") in process_arguments w) = Ok ([lit "accounts"], [lit "basic.ledger"])
  /\ (let* w := shell_split (lit "accounts b -f tests/minimal.ledger") in process_arguments w) = Ok ([lit "accounts"; lit "b"], [lit "tests/minimal.ledger"])
  /\ (let* w := shell_split (lit "b -f tests/minimal.ledger") in process_arguments w) = Ok ([lit "b"], [lit "tests/minimal.ledger"])
  /\ (let* w := shell_split (lit "accounts -f one -f two") in process_arguments w) = Ok ([lit "accounts"], [lit "one"; lit "two"])
  /\ get_input_options (map lit ["-f"; "one"; "-f"; "two"]) = Ok (map lit ["one"; "two"]).
Proof. vm_compute. repeat split. Qed.

(** scanner.rs:528-550, 570-760 *)
Example test_scanning :
  scan_date (lit "2023-05-01=2023") = (lit "2023-05-01", lit "=2023")
  /\ map (fun s => scan_post (lit s)) ["  Assets  25 EUR"; "  Expenses  25.0 EUR"; "  Expenses  25,00 EUR"; "  Account  5 VAS @ 13.21 AUD"]
     = [pt "Assets" "25" "EUR" "" "" "" "" "" false; pt "Expenses" "25.0" "EUR" "" "" "" "" "" false;
        pt "Expenses" "25,00" "EUR" "" "" "" "" "" false; pt "Account" "5" "VAS" "" "" "" "13.21" "AUD" true]
  /\ scan_amount (lit "EUR25,0.01") = Ok (lit "25,0.01", lit "EUR", [])
  /\ map (fun s => scan_symbol (lit s)) [" ""VECP"" @ 13.68 EUR"; " VECP @ 13.68 EUR"; " VECP "]
     = [(lit """VECP""", lit "@ 13.68 EUR"); (lit "VECP", lit "@ 13.68 EUR"); (lit "VECP", [])]
  /\ trim ([9%N; 32%N; 9%N; 32%N] ++ lit "Text" ++ [32%N; 9%N])%list = lit "Text".
Proof. vm_compute. repeat split. Qed.
(** scanner.rs:763-905 *)
Example test_scanning_more :
  map (fun s => scan_annotations (lit s)) ["{20 EUR}"; "[2023-11-07]"; "{20 EUR} [2023-11-07]"]
  = [Ok ((lit "20", lit "EUR", []), []); Ok (([], [], lit "2023-11-07"), []); Ok ((lit "20", lit "EUR", lit "2023-11-07"), [])]
  /\ map (fun s => scan_cost (lit s)) ["@ 25.86 EUR"; "@@ 25.86 EUR"] = [Ok (lit "25.86", lit "EUR", true); Ok (lit "25.86", lit "EUR", false)]
  /\ scan_price_directive (lit "P 2022-03-03 13:00:00 EUR 1.12 USD") = Ok (lit "2022-03-03", lit "13:00:00", lit "EUR", lit "1.12", lit "USD").
Proof. vm_compute. repeat split. Qed.

(** reader.rs:70-85 *)
Example test_reader :
  diter_next (create_str_reader (lit "; blah blah")) = Ok (Some DComment, mkDiter [] (lit "; blah blah"))
  /\ diter_next (mkDiter [] (lit "; blah blah")) = Ok (None, mkDiter [] (lit "; blah blah")).
Proof. vm_compute. split; reflexivity. Qed.

(** tests/accounts-tests.rs, tests/ext-parser-tests.rs:14-113 *)
Example test_account_names : on_file "basic.ledger" (fun j => map ac_name (flatten (j_master j))) = Ok (map lit [""; "Assets"; "Cash"; "Expenses"; "Food"]).
Proof. vm_compute. reflexivity. Qed.
Example test_files_read :
  on_file "minimal.ledger" (fun j => map (fun x => length (x_posts x)) (j_xacts j)) = Ok [2]
  /\ on_file "two_xact.ledger" (fun j => map (fun x => length (x_posts x)) (j_xacts j)) = Ok [2; 2]
  /\ on_file "multiple_currencies.ledger" (fun j => map (fun x => length (x_posts x)) (j_xacts j)) = Ok [2]
  /\ on_file "basic.ledger" (fun j => (map x_date (j_xacts j), map x_payee (j_xacts j), map po_account (all_posts j), map po_amount (all_posts j)))
     = Ok ([Some (mkDate 2023 4 21)], [lit "Supermarket"], [[lit "Expenses"; lit "Food"]; [lit "Assets"; lit "Cash"]], [Some (num 20 eur); Some (num (-20) eur)]).
Proof. vm_compute. repeat split. Qed.
(** tests/ext-parser-tests.rs:115-165, 199-214 *)
Definition trade (name : string) := on_file name (fun j => (length (j_xacts j), quantities j, costs j)).
Example test_trades :
  trade "trade-buy-sell.ledger"
  = Ok (2, [Some (lit "10"); Some (lit "-200"); Some (lit "-10"); Some (lit "-250")], [Some (lit "200", eur); None; Some (lit "-250", eur); None])
  /\ trade "trade-buy-sell-full-price.ledger"
  = Ok (2, [Some (lit "10"); Some (lit "-20"); Some (lit "-10"); Some (lit "-25")], [Some (lit "20", eur); None; Some (lit "25", eur); None])
  /\ trade "trade-buy-sell-lot.ledger"
  = Ok (2, [Some (lit "10"); Some (lit "-200"); Some (lit "-10"); Some (lit "-250")], [Some (lit "200", eur); None; Some (lit "-250", eur); None]).
Proof. vm_compute. repeat split. Qed.
(** tests/functional-tests.rs: a [P] line is not read yet (the tests are switched off). *)
Example test_price_line : on_file "commodity_exchange.ledger" (fun j => length (j_xacts j)) = Panic PTodo.
Proof. vm_compute. reflexivity. Qed.
(** tests/utility-tests.rs *)
Example test_xact_verification :
  with_journal "2023-05-23 Supermarket
    Expenses:Food  20 EUR
    Assets:Cash
" (fun j => option_map po_amount (nth_error (all_posts j) 1)) = Ok (Some (Some (num (-20) eur))).
Proof. vm_compute. reflexivity. Qed.

(** account.rs:320-389, journal.rs:127-139: the parent pointers.  The address of the account [name] below the account
    at the path [p] is [AAcct p _ name]. *)
Definition parents (text : string) : outcome (list (str * option addr)) :=
  let* h := h_read std_policy false 3 [] no_files (text_source (lit text)) heap_new in
  Ok (map (fun a => (hc_name a, hc_parent a)) (h_flatten (h_master h))).
Example test_parent_pointer :
  parents "2023-05-05 Payee
    Expenses  20
    Assets
" = Ok [([], None); (lit "Assets", Some AMaster); (lit "Expenses", Some AMaster)].
Proof. vm_compute. reflexivity. Qed.
Example test_parent_pointers :
  parents "2023-05-05 Payee
        Expenses:Groceries  20
        Assets:Cash
    " = Ok [([], None); (lit "Assets", Some AMaster); (lit "Cash", Some (AAcct [] 1 (lit "Assets")));
          (lit "Expenses", Some AMaster); (lit "Groceries", Some (AAcct [] 1 (lit "Expenses")))].
Proof. vm_compute. reflexivity. Qed.
(** All commands of tests/ext-report-tests.rs, with the pointers. *)
Example test_reports_with_pointers :
  map (fun s => let* w := shell_split (lit s) in h_run std_policy false 3 [] ledgers w)
    ["b -f tests/minimal.ledger"; "b -f tests/basic.ledger"; "accounts -f tests/minimal.ledger"]
  = [Ok (map lit ["Account  has balance 0"; "Account Assets has balance -20"; "Account Expenses has balance 20"]);
     Ok (map lit ["Account  has balance 0 EUR"; "Account Assets has balance -20 EUR"; "Account Assets:Cash has balance -20 EUR";
                  "Account Expenses has balance 20 EUR"; "Account Expenses:Food has balance 20 EUR"]);
     Ok (map lit [""; "Assets"; "Expenses"])].
Proof. vm_compute. reflexivity. Qed.
