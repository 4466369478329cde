(** The repository's own unit tests, replayed on the model.  These are tests, not proofs: they
    check that the model was transcribed correctly. *)
From Coq Require Import String List NArith ZArith Bool.
From Verif Require Import Base Decimal Dates Amount Balance Scanner History Pool Account Journal
  Xact Parser Report Options Lib.
Import ListNotations.
Open Scope nat_scope.
Open Scope string_scope.

Definition no_files : filesystem := fun _ => None.
Definition read (s : string) : outcome journal := parse_text 3 [] no_files (lit s) journal_new.
Definition with_journal {A} (s : string) (f : journal -> A) : outcome A :=
  let* j := read s in Ok (f j).
Definition report (s : string) : outcome (list str) := let* j := read s in balance_report j.
Definition quantities (j : journal) : list (option str) :=
  map (fun p => option_map (fun a => d_to_string (a_q a)) (po_amount p)) (all_posts j).
Definition costs (j : journal) : list (option (str * comm)) :=
  map (fun p => option_map (fun a => (d_to_string (a_q a), a_c a)) (po_cost p)) (all_posts j).

(** report.rs:147-167 *)
Example test_balance_report_one_xact :
  report ";
2023-05-05 Payee
    Expenses  25 EUR
    Assets

" = Ok [lit "Account  has balance 0 EUR"; lit "Account Assets has balance -25 EUR";
        lit "Account Expenses has balance 25 EUR"].
Proof. vm_compute. reflexivity. Qed.

(** report.rs:170-193 *)
Example test_bal_report_two_commodities :
  report ";
2023-05-05 Payee
    Expenses  25 EUR
    Assets

2023-05-05 Payee 2
    Expenses  13 BAM
    Assets
" = Ok [lit "Account  has balance 0 EUR0 BAM"; lit "Account Assets has balance -25 EUR-13 BAM";
        lit "Account Expenses has balance 25 EUR13 BAM"].
Proof. vm_compute. reflexivity. Qed.

(** report.rs:196-216 *)
Example test_bal_multiple_commodities_in_the_same_xact :
  report ";
2023-05-05 Payee
    Assets:Cash EUR  -25 EUR
    Assets:Cash USD   30 USD
" = Ok [lit "Account  has balance -25 EUR30 USD"; lit "Account Assets has balance -25 EUR30 USD";
        lit "Account Assets:Cash EUR has balance -25 EUR";
        lit "Account Assets:Cash USD has balance 30 USD"].
Proof. vm_compute. reflexivity. Qed.

(** parser.rs:526-543 *)
Example test_xact_with_space_after :
  with_journal ";
2023-05-05 Payee
    Expenses  25 EUR
    Assets
            
" (fun j => length (flatten (j_master j))) = Ok 3.
Proof. vm_compute. reflexivity. Qed.

(** parser.rs:552-581 *)
Example test_minimal_parsing :
  with_journal "; Minimal transaction
2023-04-10 Supermarket
    Expenses  20
    Assets
" (fun j => (map x_payee (j_xacts j), map po_account (all_posts j), quantities j,
             map (fun p => option_map a_c (po_amount p)) (all_posts j)))
  = Ok ([lit "Supermarket"], [[lit "Expenses"]; [lit "Assets"]],
        [Some (lit "20"); Some (lit "-20")], [Some None; Some None]).
Proof. vm_compute. reflexivity. Qed.

(** parser.rs:670-714 *)
Example test_parse_trade_xact :
  with_journal "; Standard transaction
2023-04-10 Supermarket
    Assets:Investment  20 VEUR @ 10 EUR
    Assets
" (fun j => (quantities j, costs j, map po_account (all_posts j)))
  = Ok ([Some (lit "20"); Some (lit "-200")], [Some (lit "200", Some (lit "EUR")); None],
        [[lit "Assets"; lit "Investment"]; [lit "Assets"]]).
Proof. vm_compute. reflexivity. Qed.

(** parser.rs:717-739 *)
Example test_parsing_account_tree :
  with_journal "
2023-05-23 Payee
  Assets:Eur   -20 EUR
  Assets:USD    30 USD
  Trading:Eur   20 EUR
  Trading:Usd  -30 USD
" (fun j => (length (flatten (j_master j)), length (p_comms (j_pool j)))) = Ok (7, 2).
Proof. vm_compute. reflexivity. Qed.

(** parser.rs:750-793 (tests/lot.ledger) *)
Example test_parsing_buy_lot :
  with_journal "2023-05-01 Trade
    Assets:Stocks  10 VEUR @ 12.75 EUR
    Assets:Cash
" (fun j => (length (flatten (j_master j)), length (g_nodes (p_hist (j_pool j))),
             map (fun e => map (fun kv => (fst kv, d_eqb (snd kv) (mkDec false 1275 2))) (snd e))
                 (g_edges (p_hist (j_pool j))), costs j))
  = Ok (4, 2, [[(mkDT (mkDate 2023 5 1) midnight, true)]],
        [Some (lit "127.50", Some (lit "EUR")); None]).
Proof. vm_compute. reflexivity. Qed.

(** parser.rs:796-837 *)
Example test_parsing_trailing_comments :
  with_journal "2023-03-02 Payee
    ; this is xact comment
    Expenses  20 EUR
    ; this is post comment
    Assets
" (fun j => (map x_note (j_xacts j), map po_note (all_posts j)))
  = Ok ([Some (lit "this is xact comment")], [Some (lit "this is post comment"); None]).
Proof. vm_compute. reflexivity. Qed.

(** tests/ext-parser-tests.rs:119-174 *)
Example test_parsing_lots :
  with_journal "; a full trade, with purchase and sale of a commodity.

2023-04-21 Buy Stocks
    Assets:Stocks  10 VEUR @ 20 EUR
    Assets:Cash

2023-05-17 Sell Stocks
    Assets:Stocks  -10 VEUR @ 25 EUR
    ;Income:Capital Gains
    Assets:Cash

2023-05-18 Sell Stocks
    Assets:Stocks  -10 VEUR @@ 25 EUR
    Assets:Cash
" costs
  = Ok [Some (lit "200", Some (lit "EUR")); None; Some (lit "-250", Some (lit "EUR")); None;
        Some (lit "25", Some (lit "EUR")); None].
Proof. vm_compute. reflexivity. Qed.

(** pool.rs:326-364 *)
Example test_parsing_price_directive :
  (let* p := parse_price_directive pool_new (lit "P 2022-03-03 13:00:00 EUR 1.12 USD") in
   Ok (map fst (p_comms p), p_hist p))
  = Ok ([lit "EUR"; lit "USD"],
        mkGraph [lit "EUR"; lit "USD"]
          [(0, 1, [(mkDT (mkDate 2022 3 3) (mkTime 13 0 0), mkDec false 112 2)])]).
Proof. vm_compute. reflexivity. Qed.

(** pool.rs:388-409 *)
Example test_exchange_stores_base_cost :
  with_journal "2023-05-01 Sell Stocks
    Assets:Stocks  -10 VEUR {20 EUR} [2023-04-01] @ 25 EUR
    Assets:Cash
" (fun j => map (fun e => map (fun kv => (fst kv, d_eqb (snd kv) (d_of_int 25))) (snd e))
                (g_edges (p_hist (j_pool j))))
  = Ok [[(mkDT (mkDate 2023 5 1) midnight, true)]].
Proof. vm_compute. reflexivity. Qed.

(** history.rs:462-490 *)
Example test_find_price_2_hops :
  (let p := pool_create (pool_create (pool_create pool_new (lit "EUR") None) (lit "AUD") None)
              (lit "USD") None in
   let d := mkDT (mkDate 2023 5 1) midnight in
   let now := mkDT (mkDate 2026 1 1) midnight in
   let* p := pool_add_price p (Some (lit "EUR")) d (mkAmt (d_of_int 2) (Some (lit "AUD"))) in
   let* p := pool_add_price p (Some (lit "AUD")) d (mkAmt (d_of_int 3) (Some (lit "USD"))) in
   pool_find_price bfs p (Some (lit "EUR")) (Some (lit "USD")) now d now)
  = Ok (Some (mkDT (mkDate 2023 5 1) midnight, mkAmt (d_of_int 6) (Some (lit "USD")))).
Proof. vm_compute. reflexivity. Qed.

(** scanner.rs:466-525 *)
Example test_parsing_xact_header :
  map (fun s => tokenize_xact_header (lit s))
    ["2023-05-01 Payee  ; Note"; "2023-05-02=2023-05-01 Payee  ; Note"; "2023-05-01 Payee";
     "2023-05-01  ; Note"; "2023-05-01"]
  = map (fun t => let '(a, b, c, d) := t in Ok (lit a, lit b, lit c, lit d))
    [("2023-05-01", "", "Payee", "Note"); ("2023-05-02", "2023-05-01", "Payee", "Note");
     ("2023-05-01", "", "Payee", ""); ("2023-05-01", "", "", "Note"); ("2023-05-01", "", "", "")].
Proof. vm_compute. reflexivity. Qed.

(** scanner.rs:553-760 *)
Definition pt a q s pq ps pd cq cs u : outcome post_tokens :=
  Ok (mkPT (lit a) (lit q) (lit s) (lit pq) (lit ps) (lit pd) (lit cq) (lit cs) u).
Example test_tokenize_post :
  map (fun s => scan_post (lit s))
    ["  Assets  20 VEUR @ 25.6 EUR"; "Assets  20 EUR"; "Assets  20"; "  Assets";
     "  Expenses  -25 EUR"; "  Expenses  25,0.01 EUR"; "  Expenses  25,0.01EUR";
     "  Account  5 VAS @@ 10 AUD";
     "    Assets:Stocks  -10 VEUR {20 EUR} [2023-04-01] @ 25 EUR"]
  = [pt "Assets" "20" "VEUR" "" "" "" "25.6" "EUR" true; pt "Assets" "20" "EUR" "" "" "" "" "" false;
     pt "Assets" "20" "" "" "" "" "" "" false; pt "Assets" "" "" "" "" "" "" "" false;
     pt "Expenses" "-25" "EUR" "" "" "" "" "" false;
     pt "Expenses" "25,0.01" "EUR" "" "" "" "" "" false;
     pt "Expenses" "25,0.01" "EUR" "" "" "" "" "" false;
     pt "Account" "5" "VAS" "" "" "" "10" "AUD" false;
     pt "Assets:Stocks" "-10" "VEUR" "20" "EUR" "2023-04-01" "25" "EUR" true].
Proof. vm_compute. reflexivity. Qed.

(** scanner.rs:620-630: symbol first, a non-ASCII symbol. *)
Example test_tokenize_amount_symbol_first :
  scan_post (lit "  Expenses  " ++ [8364%N] ++ lit "25")%list
  = Ok (mkPT (lit "Expenses") (lit "25") [8364%N] [] [] [] [] [] false).
Proof. vm_compute. reflexivity. Qed.

Example test_scan_amount :
  map (fun s => scan_amount (lit s)) ["EUR 25,0.01"; "EUR-25,0.01"; "5 VECP @ 13.68 EUR"]
  = [Ok (lit "25,0.01", lit "EUR", []); Ok (lit "-25,0.01", lit "EUR", []);
     Ok (lit "5", lit "VECP", lit "@ 13.68 EUR")].
Proof. vm_compute. reflexivity. Qed.

(** tests/ext-report-tests.rs:6-40, lib.rs:185-203 *)
Definition test_files : filesystem := fun f =>
  if str_eqb f (lit "tests/minimal.ledger") then Some (text_source (lit "; The simplest journal.
2023-05-05 Payee
    Expenses  20
    Assets
"))
  else if str_eqb f (lit "tests/basic.ledger") then Some (text_source (lit "; basic test file

2023-04-21 Supermarket
    Expenses:Food  20 EUR
    Assets:Cash
"))
  else None.
Definition run_words (ws : list string) : outcome (list str) := run 3 [] test_files (map lit ws).
Example test_balance_minimal :
  run_words ["b"; "-f"; "tests/minimal.ledger"]
  = Ok (map lit ["Account  has balance 0"; "Account Assets has balance -20";
                 "Account Expenses has balance 20"]).
Proof. vm_compute. reflexivity. Qed.
Example test_balance_basic :
  run_words ["b"; "-f"; "tests/basic.ledger"]
  = Ok (map lit ["Account  has balance 0 EUR"; "Account Assets has balance -20 EUR";
                 "Account Assets:Cash has balance -20 EUR"; "Account Expenses has balance 20 EUR";
                 "Account Expenses:Food has balance 20 EUR"]).
Proof. vm_compute. reflexivity. Qed.
Example test_accounts :
  run_words ["accounts"; "-f"; "tests/minimal.ledger"] = Ok (map lit [""; "Assets"; "Expenses"]).
Proof. vm_compute. reflexivity. Qed.

(** option.rs:371-413 *)
Example test_options :
  process_arguments (map lit ["accounts"; "b"; "-f"; "one"; "-f"; "two"])
  = Ok (map lit ["accounts"; "b"], map lit ["one"; "two"]).
Proof. vm_compute. reflexivity. Qed.

(** account.rs / journal.rs:143-177 *)
Example test_register_account :
  (let* (m, p) := register_account (Acct [] [] []) (lit "Assets:Investments:Broker") in
   Ok (length (flatten m), fullname p)) = Ok (4, lit "Assets:Investments:Broker").
Proof. vm_compute. reflexivity. Qed.
