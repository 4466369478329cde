"""The seeded bugs: (id, file, text, replacement, definition, what the bug breaks, claims that become false)."""
MUTANTS = []
def m(file, old, new, what, why, claims):
    MUTANTS.append(('m%03d' % (len(MUTANTS) + 1), file, old, new, what, why, claims.split()))

# --- quantities
m('Decimal', "let frac := skipn (length ds - d_s d) ds in", "let frac := rev (drop_while (fun c => (c =? 48)%N) (rev (skipn (length ds - d_s d) ds))) in",
  'd_to_string', 'trailing zeros of a quantity are not printed, so the number of decimals is lost', 'C01')
m('Decimal', "let ds := repeat 48%N (d_s d - length ds) ++ ds in", "let ds := ds in",
  'd_to_string', 'leading zeros after the point are not printed: 0.05 prints as 0.5', 'C01')
m('Decimal', "(if d_neg d then [45%N] else [])", "(if d_neg d && negb (d_m d <? p10 (d_s d)) then [45%N] else [])",
  'd_to_string', 'the sign of quantities below one is not printed', 'C01')
m('Decimal', "let sc' := if point then S sc else sc in", "let sc' := S sc in",
  'parse_digits', 'digits before the point count as decimals', 'C01 C02')
m('Decimal', "else if (c =? 46)%N && negb point then parse_digits s' true has m sc", "else if ((c =? 46)%N || (c =? 44)%N) && negb point then parse_digits s' true has m sc",
  'parse_digits', 'a comma is read as a decimal point', 'C02')
m('Decimal', "else if point && (MAXS <=? sc')%nat && negb (is_empty s') then None", "else if point && (MAXS <=? sc')%nat && negb (is_empty s') then Some (m', sc')",
  'parse_digits', 'decimals beyond the 28th are silently truncated', 'C02')
m('Decimal', "if MAXM <=? m' then None", "if MAXM <=? m' then Some (m, sc)",
  'parse_digits', 'digits that do not fit are silently dropped', 'C02')
m('Decimal', "       d_reduced (d_signed a * p10 (s - d_s a) + d_signed b * p10 (s - d_s b)) s.", "       d_reduced (d_signed a * p10 (s - d_s a) + d_signed b) s.",
  'd_add', 'the second operand of a sum is not rescaled', 'C03 C05 C18 C19 C50')
m('Decimal', "       d_reduced (d_signed a * p10 (s - d_s a) - d_signed b * p10 (s - d_s b)) s.", "       d_reduced (d_signed a * p10 (s - d_s a) - d_m b * p10 (s - d_s b)) s.",
  'd_sub', 'the sign of the subtrahend is ignored', 'C03')
m('Decimal', "if d_is_zero a then Ok (if d_is_zero b then b else mkDec (negb (d_neg b)) (d_m b) (d_s b))", "if d_is_zero a then Ok b",
  'd_sub', 'zero minus x is x', 'C03')
m('Decimal', "else d_reduced (d_signed a * d_signed b) (d_s a + d_s b).", "else d_reduced (d_m a * d_m b) (d_s a + d_s b).",
  'd_mul', 'the product loses its sign', 'C50 C10 C11')
m('Decimal', "else d_reduced (d_signed a * d_signed b) (d_s a + d_s b).", "else d_reduced (d_signed a * d_signed b) (Nat.max (d_s a) (d_s b)).",
  'd_mul', 'the scale of a product is wrong', 'C50 C10 C11 C33 C38')
m('Decimal', "if 2 * r <? d then q else if d <? 2 * r then q + 1 else if Z.even q then q else q + 1.", "q.",
  'rhe', 'results are truncated instead of rounded', 'C50')
m('Decimal', "let neg := xorb (d_neg a) (d_neg b) in", "let neg := orb (d_neg a) (d_neg b) in",
  'd_div', 'minus divided by minus is minus', 'C50')
m('Decimal', "  if d_is_zero b then Panic PArith\n  else if d_is_zero a then Ok d_zero", "  if d_is_zero a then Ok d_zero\n  else if d_is_zero b then Ok d_zero",
  'd_div', 'division by zero yields zero', 'C50')
m('Decimal', "if m mod 10 =? 0 then strip s' (m / 10) else (m, s)", "if m mod 10 =? 0 then strip s' (m / 10) else (m, s')",
  'strip', 'one decimal too many is dropped after a division', 'C50')
m('Decimal', "match reduce (Z.abs z) s with", "match reduce (Z.abs z mod MAXM) s with",
  'd_reduced', 'sums wrap around silently instead of panicking or rounding', 'C03 C50')
# --- amounts and balances
m('Amount', "    if d_is_zero (a_q b) then Ok a\n    else let* q := d_add", "    if d_is_zero (a_q a) then Ok a\n    else let* q := d_add",
  'amt_add', 'adding to a zero amount does nothing', 'C03 C05 C18')
m('Amount', "    else let* q := d_add (a_q a) (a_q b) in Ok (mkAmt q (a_c a))\n  else Panic PExplicit.\n\n(** amount.rs:116", "    else let* q := d_add (a_q a) (a_q b) in Ok (mkAmt q (a_c a))\n  else Ok a.\n\n(** amount.rs:116",
  'amt_add', 'adding a different commodity is ignored instead of panicking', 'C03')
m('Amount', "    let* q := d_sub (a_q a) (a_q b) in Ok (mkAmt q (a_c a))\n  else Panic PExplicit.", "    let* q := d_sub (a_q a) (a_q b) in Ok (mkAmt q None)\n  else Panic PExplicit.",
  'amt_minus', 'a difference loses its commodity', 'C03')
m('Amount', "  | Some x, Some y => str_eqb x y\n  | _, _ => false", "  | Some x, Some y => str_eqb x y\n  | _, _ => true",
  'comm_eqb', 'no commodity equals every commodity', 'C03 C05')
m('Amount', "mkAmt (if d_is_sign_positive (a_q a) then d_set_neg (a_q a) else d_set_pos (a_q a)) (a_c a).", "mkAmt (d_set_neg (a_q a)) (a_c a).",
  'amt_invert', 'inverting a negative amount leaves it negative', 'C04')
m('Amount', "mkAmt (if d_is_sign_positive (a_q a) then d_set_neg (a_q a) else a_q a) (a_c a).", "mkAmt (if d_is_sign_positive (a_q a) then a_q a else a_q a) (a_c a).",
  'amt_inverse', 'the inverse of a positive amount is positive', 'C04 C06')
m('Amount', "let* q := d_mul (a_q a) (a_q b) in Ok (mkAmt q (comm_or (a_c a) (a_c b))).", "let* q := d_mul (a_q a) (a_q b) in Ok (mkAmt q (comm_or (a_c b) (a_c a))).",
  'amt_mul', 'a product takes the commodity of the second factor', 'C10 C38')
m('Amount', "let* q := d_div (a_q a) (a_q b) in Ok (mkAmt q (comm_or (a_c a) (a_c b))).", "let* q := d_div (a_q a) (a_q b) in Ok (mkAmt q (a_c b)).",
  'amt_div', 'a quotient takes the commodity of the divisor', 'C11 C12 C38')
m('Balance', "  | [] => Ok [a]\n", "  | [] => Ok (if amt_is_zero a then [] else [a])\n",
  'bal_add', 'a commodity with zero amount gets no entry', 'C05')
m('Balance', "               else let* b'' := bal_add b' a in Ok (x :: b'')\n  end.\n\n(** balance.rs:60", "               else Ok (x :: b' ++ [a])\n  end.\n\n(** balance.rs:60",
  'bal_add', 'only the first entry is searched: a commodity can get two entries', 'C05')
m('Balance', "Definition bal_add_bal (b o : balance) : outcome balance := fold_outcome bal_add o b.", "Definition bal_add_bal (b o : balance) : outcome balance := fold_outcome bal_add (firstn 1 o) b.",
  'bal_add_bal', 'only the first commodity of a balance is added', 'C18 C19')
m('Balance', "  | [] => Ok [amt_inverse a]", "  | [] => Ok [a]",
  'bal_sub', 'subtracting from an empty balance adds', '')
# --- finalisation
m('Xact', "  match po_cost p with Some c => Some c | None => po_amount p end.", "  match po_amount p with Some c => Some c | None => po_cost p end.",
  'post_value', 'postings are balanced at their amount instead of their cost', 'C06 C11')
m('Xact', "[b] => Ok (pool', update_nth i (fun p => set_amount p (amt_inverse b)) posts2)", "[b] => Ok (pool', update_nth i (fun p => set_amount p b) posts2)",
  'finalize_posts', 'an elided amount gets the sum itself', 'C06 C46')
m('Xact', "[b] => Ok (pool', update_nth i (fun p => set_amount p (amt_inverse b)) posts2)", "[b] => Ok (pool', update_nth 0 (fun p => set_amount p (amt_inverse b)) posts2)",
  'finalize_posts', 'the first posting is overwritten instead of the elided one', 'C06 C08 C13')
m('Xact', "[b] => Ok (pool', update_nth i (fun p => set_amount p (amt_inverse b)) posts2)\n        | _ => Panic PTodo", "[b] => Ok (pool', update_nth i (fun p => set_amount p (amt_inverse b)) posts2)\n        | _ => Ok (pool', posts2)",
  'finalize_posts', 'a transaction with an elided amount and several commodities is accepted with the amount missing', 'C13 C06 C85')
m('Xact', "| None => match null_post with\n                | Some _ => Panic PTodo", "| None => match null_post with\n                | Some _ => sum_posts posts' (S i) bal null_post",
  'sum_posts', 'a second elided amount is accepted and stays missing', 'C13 C85')
m('Xact', "  if (length posts =? 1)%nat then Panic PTodo", "  if (length posts =? 0)%nat then Panic PTodo",
  'finalize_posts', 'a transaction with a single posting is accepted', 'C13 C85')
m('Xact', "                  Ok (pool', set_amount p (bd_amount bd))", "                  Ok (pool', set_amount p (bd_final_cost bd))",
  'price_loop', 'the written amount is overwritten by the cost', 'C08')
m('Xact', "let* (bd, np) := exchange pool amt cost false (mkDT d midnight) in", "let* (bd, np) := exchange pool amt cost true (mkDT d midnight) in",
  'price_loop', 'the total cost is recorded as the unit price', 'C12')
m('Xact', "let* (bd, np) := exchange pool amt cost false (mkDT d midnight) in", "let* (bd, np) := exchange pool amt cost false (mkDT d (mkTime 23 59 59)) in",
  'price_loop', 'prices are recorded at the end of the day', 'C12')
m('Xact', "let* pool' := match np with\n                                | Some pr => pool_add_price_struct pool pr\n                                | None => Ok pool\n                                end in", "let* pool' := Ok pool in",
  'price_loop', 'no prices are recorded', 'C12')
m('Xact', "if comm_eqb (a_c amt) (a_c cost) then Panic PExplicit\n                else", "if comm_eqb (a_c amt) (a_c cost) then Ok (pool, p)\n                else",
  'price_loop', 'a cost in the commodity of the amount is accepted', 'C13 C85')
m('Xact', "            let* r := amt_div y x in", "            let* r := amt_div x y in",
  'infer_costs', 'the implied unit cost is inverted', 'C11')
m('Xact', "            cost_loop (a_c x) (amt_abs r) posts bal", "            cost_loop (a_c x) r posts bal",
  'infer_costs', 'the implied unit cost keeps its sign', 'C11')
m('Xact', "            cost_loop (a_c x) (amt_abs r) posts bal", "            cost_loop (a_c y) (amt_abs r) posts bal",
  'infer_costs', 'the cost is given to the postings in the other commodity', 'C11')
m('Xact', "if negb (amt_is_zero x0) && negb (amt_is_zero y0) then", "if negb (amt_is_zero y0) then",
  'infer_costs', 'a zero first commodity is not excluded', 'C11')
m('Xact', "(if is_empty t_payee then lit \"Unknown Payee\" else t_payee)", "t_payee",
  'xact_create', 'a missing payee is stored as the empty text', 'C49')
m('Xact', "  Ok (mkXact d aux\n", "  Ok (mkXact d d\n",
  'xact_create', 'the auxiliary date is the date', 'C46')
m('Xact', "      Ok (p' :: posts'', bal'')", "      Ok (posts'', bal'')",
  'cost_loop', 'postings are dropped when costs are implied', 'C08')
# --- accounts
m('Account', "  | Some i => (firstn i name, skipn (i + 1) name)", "  | Some i => (firstn i name, skipn i name)",
  'split_first', 'the colon stays in the rest of the name', 'C14 C45')
m('Account', "Ok (Some (Acct n (set_child first child' cs) ps, first :: p))", "Ok (Some (Acct n cs ps, first :: p))",
  'find_or_create', 'an account created below an existing one is lost', 'C14 C15 C17')
m('Account', "Ok (Some (Acct n (set_child first child' cs) ps, first :: p))", "Ok (Some (Acct n (set_child first child' cs) [], first :: p))",
  'find_or_create', 'registering below an account clears its postings', 'C15 C17')
m('Account', "                    Ok (Some (Acct n (cs ++ [child']) ps, first :: p))", "                    Ok (Some (Acct n [child'] ps, first :: p))",
  'find_or_create', 'registering an account removes its siblings', 'C15 C14')
m('Account', "              else Ok None\n", "              else Ok (Some (self, [first]))\n",
  'find_or_create', 'looking up a missing account yields a non-existing one', 'C16')
m('Account', "let* r := find_or_create (S (length name)) self name false in", "let* r := find_or_create (S (length name)) self name true in",
  'find_account', 'looking up a missing account yields one', 'C16')
m('Account', "  | [] => Ok (Acct n cs (ps ++ [r]))", "  | [] => Ok (Acct n cs (r :: ps))",
  'push_post', 'postings are listed in reverse order', 'C17')
m('Account', "fold_left (fun full n => match n with [] => full | _ => n ++ 58%N :: full end) up name", "fold_left (fun full n => match n with [] => full | _ => n ++ full end) up name",
  'fullname', 'full names have no colons', 'C14')
m('Account', "a :: concat (map snd (sort_key (map (fun c => (ac_name c, flatten c)) (ac_children a)))).", "a :: concat (map snd ((map (fun c => (ac_name c, flatten c)) (ac_children a)))).",
  'flatten', 'accounts are listed in creation order', '')
m('Account', "a :: concat (map snd (sort_key (map (fun c => (ac_name c, flatten c)) (ac_children a)))).", "match ac_children a with [] => [a] | _ => concat (map snd (sort_key (map (fun c => (ac_name c, flatten c)) (ac_children a)))) end.",
  'flatten', 'only the leaves of the account tree are listed', 'C22')
m('Journal', "                   | Some a => bal_add bal a\n                   | None => Ok bal", "                   | Some a => bal_add bal (amt_abs a)\n                   | None => Ok bal",
  'account_amount', 'account amounts sum absolute values', 'C18 C19')
m('Journal', "  let* own := account_amount xs (ac_posts a) in\n  bal_add_bal t own.", "  let* own := account_amount xs (ac_posts a) in\n  match ac_children a with [] => Ok own | _ => Ok t end.",
  'account_total', 'own postings of an account with children are not counted', 'C18 C19')
m('Journal', "let* b := snd s in bal_add_bal t b)", "let* b := snd s in match t with [] => Ok b | _ => Ok t end)",
  'account_total', 'only the first child with a balance is counted', 'C18 C19')
# --- reports
m('Report', "let* l := snd s in Ok (ls ++ l))", "let* l := snd s in Ok (ls ++ firstn 1 l))",
  'children_lines', 'grandchildren are missing from the balance report', 'C20')
m('Report', "let* l := snd s in Ok (ls ++ l))", "let* l := snd s in Ok (l ++ ls))",
  'children_lines', 'children come before their parent in reverse order', 'C20')
m('Report', "  let subs := sort_key (map (fun c => (ac_name c, children_lines xs (p ++ [ac_name c]) c))\n                            (ac_children a)) in", "  let subs := (map (fun c => (ac_name c, children_lines xs (p ++ [ac_name c]) c))\n                            (ac_children a)) in",
  'children_lines', 'the balance report is in creation order', 'C20')
m('Report', "children_lines xs (p ++ [ac_name c]) c))", "children_lines xs [ac_name c] c))",
  'children_lines', 'the balance report gives last names instead of full names', 'C20')
m('Report', "  d_to_string (a_q a) ++ match a_c a with Some s => 32%N :: s | None => [] end.", "  d_to_string (mkDec (d_neg (a_q a)) (d_m (a_q a) / p10 (d_s (a_q a))) 0) ++ match a_c a with Some s => 32%N :: s | None => [] end.",
  'amount_text', 'amounts are printed without decimals', 'C21')
m('Report', "  d_to_string (a_q a) ++ match a_c a with Some s => 32%N :: s | None => [] end.", "  d_to_string (a_q a) ++ match a_c a with Some s => 32%N :: firstn 1 s | None => [] end.",
  'amount_text', 'only the first character of a symbol is printed', 'C21')
m('Lib', "Definition sort_strings (l : list str) : list str := map fst (sort_key (map (fun s => (s, tt)) l)).", "Definition sort_strings (l : list str) : list str := l.",
  'sort_strings', 'the accounts report is not sorted', 'C22')
m('Lib', "fold_outcome (fun j f => parse_file depth cwd fs f j) files journal_new.", "fold_outcome (fun j f => parse_file depth cwd fs f journal_new) files journal_new.",
  'read_journal_files', 'only the last file counts', 'C41')
m('Lib', "fold_outcome (fun j f => parse_file depth cwd fs f j) files journal_new.", "fold_outcome (fun j f => parse_file depth cwd fs f j) (rev files) journal_new.",
  'read_journal_files', 'files are read in reverse order', 'C41')
m('Lib', "if str_eqb verb (lit \"b\") || str_eqb verb (lit \"bal\") || str_eqb verb (lit \"balance\")", "if str_eqb verb (lit \"b\") || str_eqb verb (lit \"bal\")",
  'execute_command', 'the command balance is not known', 'C41')
m('Lib', "  | 97%N :: _ => Ok (sort_strings (report_accounts j)) ", "  | 97%N :: _ :: _ => Ok (sort_strings (report_accounts j)) ",
  'execute_command', 'the command a is not known', 'C41')
m('Options', "Ok (cmds, opts ++ opts')", "Ok (cmds, opts' ++ opts)",
  'split_args', 'input files are collected in reverse order', 'C40 C41')
m('Options', "      else Panic PExplicit\n  end.\n\n(** option.rs:26", "      else Ok []\n  end.\n\n(** option.rs:26",
  'get_input_options', 'an unknown option is ignored together with what follows', 'C40')
m('Options', "      | [] => Panic PExplicit\n      | v :: args' => let*", "      | [] => Ok ([], [])\n      | v :: args' => let*",
  'take_values', 'a missing option value is ignored', 'C40')
# --- scanner
m('Scanner', "match find_char (fun c => (c =? 61) || (c =? 32)) input with  (* '=' or ' ' *)", "match find_char (fun c => (c =? 32)) input with",
  'scan_date', 'the auxiliary date is taken as part of the date', 'C24 C46')
m('Scanner', "match find_sub [32; 32; 59] input with", "match find_sub [59] input with",
  'tokenize_payee', 'a semicolon in the payee starts the note', 'C24')
m('Scanner', "| _ => let* r := drop_bytes 3 input in Ok (trim r)", "| _ => let* r := drop_bytes 3 input in Ok r",
  'tokenize_note', 'spaces around the note are kept', 'C24')
m('Scanner', "| Some i => (trim (firstn i input), skipn i input)\n  | None => (trim input, [])", "| Some i => (trim (firstn i input), skipn i input)\n  | None => ([], [])",
  'tokenize_payee', 'the payee is lost if there is no note', 'C24')
m('Scanner', "Definition is_qchar (c : char) : bool := is_digit c || (c =? 45) || (c =? 46) || (c =? 44).", "Definition is_qchar (c : char) : bool := is_digit c || (c =? 46) || (c =? 44).",
  'is_qchar', 'a minus sign is not part of a quantity', 'C23 C26')
m('Scanner', "Definition is_sym_end (c : char) : bool := is_ws c || (c =? 64) || is_digit c || (c =? 45).", "Definition is_sym_end (c : char) : bool := is_ws c || is_digit c || (c =? 45).",
  'is_sym_end', "an '@' is part of the symbol", 'C23')
m('Scanner', "                 annotation_loop f q' s' d (trim_start (skipn 1 rest))", "                 annotation_loop f s' q' d (trim_start (skipn 1 rest))",
  'annotation_loop', 'quantity and symbol of a lot price are exchanged', 'C23 C48')
m('Scanner', "                 annotation_loop f q s d' (trim_start (skipn 1 rest))", "                 annotation_loop f q s d (trim_start (skipn 1 rest))",
  'annotation_loop', 'lot dates are dropped', 'C23 C48')
m('Scanner', "        | 64 :: _ => (3%nat, false)\n        | _ => (2%nat, true)", "        | 64 :: _ => (3%nat, true)\n        | _ => (2%nat, false)",
  'scan_cost', '@ and @@ are exchanged', 'C23 C10')
m('Scanner', "          Ok (mkPT account q s pq ps pd cq cs pu)", "          Ok (mkPT account q s cq cs pd pq ps pu)",
  'scan_post', 'lot price and cost are exchanged', 'C23 C10 C48')
m('Scanner', "      | None => Ok (mkPT (trim_end input) [] [] [] [] [] [] [] false)", "      | None => Ok (mkPT input [] [] [] [] [] [] [] false)",
  'scan_post', 'the line feed is part of the account name', 'C23 C46')
m('Scanner', "      let '(quantity, input) := scan_price_element (trim_start input) in\n      let '(price_commodity, _) := scan_price_element (trim_start input) in", "      let '(price_commodity, input) := scan_price_element (trim_start input) in\n      let '(quantity, _) := scan_price_element (trim_start input) in",
  'scan_price_directive', 'quantity and commodity of a price are exchanged', 'C35')
m('Scanner', "let '(time, input) := if is_digit c then scan_price_element input else ([], input) in", "let '(time, input) := ([], input) in",
  'scan_price_directive', 'the time of a price is not recognised', 'C35')
# --- parser
m('Parser', "if (c =? 59)%N || (c =? 35)%N || (c =? 42)%N || (c =? 124)%N   (* ; # * | *)", "if (c =? 59)%N || (c =? 35)%N || (c =? 42)%N",
  'top_line', 'lines starting with | are not comments', 'C27')
m('Parser', "else if (c =? 45)%N then Ok (Continue Top j)                    (* '-' *)", "else if (c =? 45)%N then Ok (Stop j)",
  'top_line', 'an option line ends the reading', 'C27')
m('Parser', "Ok (set_xacts j (j_xacts j ++ [x])).", "Ok (set_xacts j (x :: j_xacts j)).",
  'create_xact', 'new transactions are put in front', 'C29')
m('Parser', "  update_nth xi (fun x => set_posts x (x_posts x ++ [p])) xs.", "  update_nth xi (fun x => set_posts x (p :: x_posts x)) xs.",
  'add_post', 'postings are stored in reverse order', 'C17 C46')
m('Parser', "let xs := add_post (j_xacts j) xi (mkPost acct amt cost None) in", "let xs := add_post (j_xacts j) xi (mkPost acct amt None None) in",
  'parse_post', 'written costs are dropped', 'C10 C09')
m('Parser', "        | Some c => if t_is_per_unit t then let* c' := amt_mul c a in Ok (p1, Some c')", "        | Some c => if t_is_per_unit t then let* c' := amt_mul c (amt_abs a) in Ok (p1, Some c')",
  'parse_cost', 'the cost of a sale has the wrong sign', 'C10')
m('Parser', "        | Some c => if t_is_per_unit t then let* c' := amt_mul c a in Ok (p1, Some c')", "        | Some c => if t_is_per_unit t then Ok (p1, Some c)",
  'parse_cost', 'the unit cost is taken for the cost', 'C10')
m('Parser', "let '(p3, _) := pool_find_or_create p2 (t_symbol t) (Some ann) in", "let '(p3, _) := pool_find_or_create p2 (t_symbol t) None in",
  'parse_post', 'lots are not stored', 'C48')
m('Parser', "let* master2 := push_post master1 acct (xi, length (x_posts x)) in", "let* master2 := push_post master1 acct (xi, 0%nat) in",
  'parse_post', 'accounts list the first posting of the transaction', 'C17')
m('Parser', "let* master2 := push_post master1 acct (xi, length (x_posts x)) in", "let* master2 := push_post master1 [] (xi, length (x_posts x)) in",
  'parse_post', 'all postings are listed by the master account', 'C17 C18')
m('Parser', "(update_nth (length (x_posts x) - 1)\n", "(update_nth 0\n",
  'parse_trailing_note', 'notes go to the first posting', 'C37')
m('Parser', "                          | [] => xact_add_note x note\n", "                          | [] => x\n",
  'parse_trailing_note', 'notes of a transaction are dropped', 'C37')
m('Parser', "  let note := trim (skipn 1 line) in", "  let note := trim line in",
  'parse_trailing_note', 'the semicolon is part of the note', 'C37')
m('Parser', "  mkPost (po_account p) (po_amount p) (po_cost p) (Some note).", "  mkPost (po_account p) (po_amount p) None (Some note).",
  'post_add_note', 'a note removes the cost of its posting', 'C37 C09')
m('Parser', "  | InXact xi, None => let* j' := finalize j xi in Ok (Continue Top j')", "  | InXact xi, None => Ok (Continue (InXact xi) j)",
  'step', 'an undecodable line inside a transaction is skipped', 'C39')
m('Parser', "  | [] => match m with\n          | Top => Ok j\n          | InXact xi => finalize j xi\n          end", "  | [] => match m with\n          | Top => Ok j\n          | InXact xi => Ok j\n          end",
  'parse_lines', 'the last transaction is not finalised at the end of the text', 'C13')
m('Parser', "           | Some src => parse_lines (include_file d cwd fs) Top j src\n", "           | Some src => parse_lines (include_file d cwd fs) Top journal_new src\n",
  'include_file', 'an include replaces the journal', 'C36 C29')
m('Parser', "  | 47%N :: _ | 92%N :: _ | 126%N :: _ => arg\n", "  | 92%N :: _ | 126%N :: _ => arg\n",
  'resolve', 'absolute paths are taken as relative', 'C36')
m('Parser', "Ok (j', length (j_xacts j')).", "Ok (j', length (j_xacts j))).".replace("j)))", "j))"),
  'journal_read', 'the number of transactions before reading is returned', 'C58')
# --- pool and prices
m('Pool', "              (mkPool (p_comms p) (insert symbol a (p_ann p)) (p_hist p), Some symbol)", "              (pool_create p symbol ann, Some symbol)",
  'pool_find_or_create', 'a commodity that gets a lot is created a second time', 'C30')
m('Pool', "      | None => (pool_create p symbol ann, Some symbol)", "      | None => (pool_create p symbol ann, None)",
  'pool_find_or_create', 'a new commodity is not returned', 'C30')
m('Pool', "(graph_add_price (p_hist p) (c_index src) (c_index dst) when (a_q price)))", "(graph_add_price (p_hist p) (c_index dst) (c_index src) when (a_q price)))",
  'pool_add_price', 'prices are recorded in the wrong direction', 'C12 C31 C35')
m('Pool', "     else let* q := amt_div cost amt in Ok (amt_abs q)) in", "     else let* q := amt_div cost amt in Ok q) in",
  'exchange', 'unit prices can be negative', 'C38 C12')
m('Pool', "let* final_cost := (if is_per_unit then amt_mul cost (amt_abs amt) else Ok cost) in", "let* final_cost := (if is_per_unit then amt_mul cost amt else Ok cost) in",
  'exchange', 'the final cost of a sale is negative', 'C38')
m('Pool', "                | Some ap => amt_mul ap amt\n", "                | Some ap => Ok ap\n",
  'exchange', 'the basis cost is the unit lot price', 'C38')
m('Pool', "  Ok (mkBd amt final_cost basis_cost, new_price).", "  Ok (mkBd (amt_abs amt) final_cost basis_cost, new_price).",
  'exchange', 'the amount loses its sign', 'C38 C08')
m('Pool', "    if negb (amt_is_zero per_unit_cost) && negb (comm_eqb (a_c amt) (a_c per_unit_cost))\n    then", "    if negb (comm_eqb (a_c amt) (a_c per_unit_cost))\n    then",
  'exchange', 'zero prices are recorded', 'C38 C12')
m('Pool', "  Ok (p1, mkAnn price d).", "  Ok (p1, mkAnn price None).",
  'annotation_parse', 'lot dates are not stored', 'C48')
m('Pool', "let* time := (if is_empty t_time then Ok midnight else unwrap (parse_time_opt t_time)) in", "let* time := Ok midnight in",
  'parse_price_directive', 'the time of a price is ignored', 'C35')
m('History', "      | Eq => (k', v) :: m'\n", "      | Eq => (k', v') :: m'\n",
  'pm_insert', 'the first price of a moment is kept', 'C31 C12')
m('History', "      | Gt => (k', v') :: pm_insert k v m'\n", "      | Gt => (k, v) :: m\n",
  'pm_insert', 'newer prices are put in front', 'C31')
m('History', "  | [x] => Some x\n  | _ :: m' => get_latest_price m'", "  | [x] => Some x\n  | x :: m' => Some x",
  'get_latest_price', 'the oldest price is returned', 'C31 C33')
m('History', "if (x =? a)%nat && (y =? b)%nat then Some m else find_edge es' a b", "if ((x =? a)%nat && (y =? b)%nat) || ((x =? b)%nat && (y =? a)%nat) then Some m else find_edge es' a b",
  'find_edge', 'prices are found in the reverse direction', 'C31 C34')
m('History', "let least' := if (dt_key d <? dt_key least)%Z then d else least in", "let least' := d in",
  'rate_loop', 'an indirect rate is dated with the last price', 'C33')
m('History', "        let* rate' := d_mul rate q in\n        rate_loop g t path' least' rate'", "        let* rate' := d_mul rate q in\n        rate_loop g t path' least' q",
  'rate_loop', 'an indirect rate is the last price', 'C33')
m('History', "      Ok (Some (d, mkAmt q (Some target_sym)))", "      Ok (Some (d, mkAmt q None))",
  'find_price', 'a price has no commodity', 'C33')
m('History', "  | None => Ok None\n  | Some (distance, path) =>", "  | None => Panic PUnwrap\n  | Some (distance, path) =>",
  'find_price', 'a missing price panics', 'C34')
# --- dates
m('Dates', "((y mod 4 =? 0) && negb (y mod 100 =? 0)) || (y mod 400 =? 0).", "(y mod 4 =? 0).",
  'is_leap', '1900 is a leap year', 'C47')
m('Dates', "else if (m =? 4) || (m =? 6) || (m =? 9) || (m =? 11) then 30", "else if (m =? 4) || (m =? 6) || (m =? 8) || (m =? 11) then 30",
  'days_in_month', 'August has 30 days', 'C47')
m('Dates', "match s5 with [] => from_ymd y m d | _ => None end.", "from_ymd y m d.",
  'parse_date_opt', 'text after a date is ignored', 'C47')
m('Dates', "dt_m (dt_date t)) * 32 + dt_d (dt_date t)) * 32", "dt_m (dt_date t)) * 30 + dt_d (dt_date t)) * 32",
  'dt_key', 'the 31st sorts as the 1st of the next month', 'C47')
# --- memory
m('Memory', "if n <? al_cap a then a else mkAlloc (S (al_gen a)) (next (al_cap a)).", "a.",
  'room', 'containers never move', 'C43 C44 C51')
m('Memory', "let a' := mkMA (ma_parent a) (ma_posts a ++ [APost xi (al_gen al) (length (mx_posts x))])", "let a' := mkMA (ma_parent a) (ma_posts a ++ [APost xi (al_gen (mx_alloc x)) (length (mx_posts x))])",
  'm_add_post', 'the address of a posting is taken before it is pushed', 'C43')
m('Memory', "let child := mkMA (Some (acct_addr m p)) [] no_alloc [] in", "let child := mkMA (Some AMaster) [] no_alloc [] in",
  'm_create', 'the parent of every account is the master account', 'C44')
m('Memory', "let new := mkMP (acct_addr m p) (AXact (al_gen (m_xalloc m)) xi) amount cost in", "let new := mkMP (acct_addr m p) (AXact (al_gen (m_xalloc m)) 0) amount cost in",
  'm_add_post', 'postings point to the first transaction', 'C44')
m('Memory', "let ptr := AComm (al_gen al) s in", "let ptr := AComm (al_gen (m_calloc m)) s in",
  'm_commodity', 'the address of a commodity is taken before it is inserted', 'C44 C51')
# --- text
m('Base', "  ((9 <=? c) && (c <=? 13)) || (c =? 32)", "  ((9 <=? c) && (c <=? 12)) || (c =? 32)",
  'is_ws', 'a carriage return is not white space', 'C72')
m('Base', "  | [] => match acc with [] => [] | _ => [rev acc] end", "  | [] => []",
  'split_lines_acc', 'a last line without line feed is dropped', 'C46')
m('Base', "  | (k', a') :: m' => if str_eqb k k' then (k', a) :: m' else (k', a') :: insert k a m'", "  | (k', a') :: m' => if str_eqb k k' then (k', a') :: m' else (k', a') :: insert k a m'",
  'insert', 'an existing value is not replaced', '')
# --- second round: the program with pointers
m('Heap', "  | AComm g s => if g =? al_gen (hp_alloc p)\n                 then match lookup s (hp_comms p) with Some c => Ok c | None => Panic PNull end\n                 else Panic PNull",
  "  | AComm g s => match lookup s (hp_comms p) with Some c => Ok c | None => Panic PNull end",
  'h_commodity', 'freed commodities can still be read', 'C56')
m('Heap', "  if ptr_eqb (ha_c a) (ha_c b) then\n    if d_is_zero (ha_q b) then Ok a", "  if true then\n    if d_is_zero (ha_q b) then Ok a",
  'ha_add', 'amounts of different commodities are added', 'C55')
m('Heap', "Definition ptr_or (a b : option addr) : option addr := match a with None => b | Some _ => a end.", "Definition ptr_or (a b : option addr) : option addr := match b with None => a | Some _ => b end.",
  'ptr_or', 'products have the commodity of the second factor', 'C55')
m('Heap', "      if ocomm_eqb c d then let* x' := ha_minus x a in Ok (x' :: b')", "      if ocomm_eqb c d then let* x' := ha_add x a in Ok (x' :: b')",
  'hb_sub', 'subtracting from a balance adds', 'C55')
m('Heap', "  let c := mkComm symbol (length (hp_nodes p)) (match ann with Some _ => true | None => false end) in", "  let c := mkComm symbol (length (hp_comms p)) (match ann with Some _ => true | None => false end) in",
  'hp_create', 'the index of a commodity is the number of commodities (equal to the number of nodes)', '')
m('Heap', "  let al := room (map_next pol) (hp_alloc p) (length (hp_comms p)) in\n  let ptr := AComm (al_gen al) symbol in", "  let al := room (map_next pol) (hp_alloc p) (length (hp_comms p)) in\n  let ptr := AComm (al_gen (hp_alloc p)) symbol in",
  'hp_create', 'the address of a commodity is taken before the map grows', 'C56')
m('Heap', "          | Some a, None =>\n              (mkHPool (hp_alloc p) (hp_comms p) (insert symbol a (hp_ann p)) (hp_nodes p) (hp_edges p), Some ptr)", "          | Some a, _ =>\n              (mkHPool (hp_alloc p) (hp_comms p) (insert symbol a (hp_ann p)) (hp_nodes p) (hp_edges p), Some ptr)",
  'hp_find_or_create', 'the last annotation is kept', 'C55')
m('Heap', "(put_price (hp_edges p) (c_index src) (c_index dst) when (ha_q price))).", "(put_price (hp_edges p) (c_index dst) (c_index src) when (ha_q price))).",
  'hp_add_price', 'prices are recorded in the wrong direction', 'C55')
m('Heap', "      | Some s => if g =? al_gen (hc_alloc s)\n", "      | Some s => if true\n",
  'h_account', 'freed accounts can still be read', 'C56')
m('Heap', "              let child := HAcct first (Some here) no_alloc [] [] in", "              let child := HAcct first None no_alloc [] [] in",
  'h_find_or_create', 'new accounts have no parent', 'C55')
m('Heap', "  let post_ptr := APost xi (al_gen al) (length (hx_posts x)) in", "  let post_ptr := APost xi (al_gen al) (length (hx_posts x) - 1) in",
  'h_parse_post', 'the account gets the posting before', 'C55 C56')
m('Heap', "(hx_posts x ++ [mkHPost acct xact_ptr amt cost None])) (h_xacts h) in", "(hx_posts x ++ [mkHPost acct xact_ptr amt None None])) (h_xacts h) in",
  'h_parse_post', 'written costs are dropped', 'C55')
m('Heap', "      AXact (al_gen al) (length (h_xacts h))).", "      AXact (al_gen (h_xalloc h)) (length (h_xacts h))).",
  'h_create_xact', 'the address of a transaction is taken before it is pushed', 'C56')
m('Heap', "                | Some _ => Panic PTodo\n                | None => h_sum_posts pool posts' (S i) bal (Some i)", "                | Some _ => Panic PTodo\n                | None => h_sum_posts pool posts' (S i) bal (Some 0)",
  'h_sum_posts', 'the first posting gets the missing amount', 'C55')
m('Heap', "           let* b1 := hb_sub pool bal amt in\n           let* cost := ha_mul pool per_unit_cost amt in", "           let* b1 := hb_sub pool bal amt in\n           let* cost := ha_mul pool amt per_unit_cost in",
  'h_cost_loop', 'implied costs have the commodity of the amount', 'C55')
m('Heap', "                let* c := h_get_commodity pool (ha_c amt) in\n                let* d := h_get_commodity pool (ha_c cost) in\n                if ocomm_eqb c d then Panic PExplicit", "                if ptr_eqb (ha_c amt) (ha_c cost) then Panic PExplicit",
  'h_price_loop', 'cost and amount are compared by pointer', 'C55')
m('Heap', "        | [b] => let* a := ha_inverse pool' b in Ok (pool', update_nth i (fun p => hset_amount p a) posts2)", "        | b :: _ => let* a := ha_inverse pool' b in Ok (pool', update_nth i (fun p => hset_amount p a) posts2)",
  'h_finalize_posts', 'a missing amount is filled with several commodities open', 'C55')
m('Heap', "  | [] => match m with\n          | HTop => Ok h\n          | HIn a => h_finalize h a\n          end", "  | [] => Ok h",
  'h_parse_lines', 'the last transaction is not finalised', 'C55')
m('Heap', "      | Some x => if g =? al_gen (hx_alloc x)\n", "      | Some x => if true\n",
  'h_post', 'freed postings can still be read', 'C56')
m('Heap', "                  match ho_amount p with Some a => hb_add pool bal a | None => Ok bal end) posts [].", "                  match hpost_value p with Some a => hb_add pool bal a | None => Ok bal end) posts [].",
  'h_account_amount', 'totals are at cost', 'C55')
m('Heap', "match hc_name acct with [] => full | n => n ++ 58%N :: full end)", "hc_name acct ++ 58%N :: full)",
  'h_up', 'full names start with a colon', 'C55')
m('Heap', "               subs [lit \"Account \" ++ name ++ lit \" has balance \" ++ text].", "               subs [lit \"Account \" ++ hc_name a ++ lit \" has balance \" ++ text].",
  'h_children_lines', 'reports show the last component only', 'C55')
m('Heap', "     else let* q := ha_div cost amt in Ok (ha_abs q)) in", "     else let* q := ha_div amt cost in Ok (ha_abs q)) in",
  'h_exchange', 'the unit price is the reciprocal', 'C55')
# --- words of a command
m('Shell', "Definition is_gap (c : char) : bool := ((c =? 32) || (c =? 9) || (c =? 10))%N.", "Definition is_gap (c : char) : bool := ((c =? 32) || (c =? 10))%N.",
  'is_gap', 'tabs do not separate words', 'C54')
m('Shell', "          | SingleQuoted | DoubleQuoted | DoubleQuotedBackslash => Panic PUnwrap", "          | SingleQuoted | DoubleQuoted | DoubleQuotedBackslash => Ok [word]",
  'shell_words', 'an open quote is closed at the end', 'C54')
m('Shell', "          else if is_escapable c then shell_words DoubleQuoted (word ++ [c]) s'\n", "",
  'shell_words', 'a backslash in double quotes is always kept', 'C54')
m('Shell', "          if (c =? 10)%N then shell_words Unquoted word s' else shell_words Unquoted (word ++ [c]) s'\n      | SingleQuoted", "          shell_words Unquoted (word ++ [c]) s'\n      | SingleQuoted",
  'shell_words', 'an escaped line feed is kept', 'C54')
m('Shell', "          else if (c =? 35)%N then shell_words Comment word s'\n", "",
  'shell_words', 'there are no comments', 'C54')
m('Shell', "          else if is_gap c then cons_word word (shell_words Delimiter [] s')", "          else if is_gap c then cons_word word (shell_words Delimiter word s')",
  'shell_words', 'a word starts with the previous one', 'C54')
# --- the earlier report
m('OldReport', "  | a :: p', b :: q' => str_eqb a b && same_path p' q'", "  | a :: p', b :: q' => same_path p' q'",
  'same_path', 'accounts at one depth are taken for the same', 'C59')
m('OldReport', "  fold_outcome (fun b p => let* a := unwrap (po_amount p) in bal_add b a)", "  fold_outcome (fun b p => let* a := unwrap (po_amount p) in bal_add b (amt_abs a))",
  'own_balance', 'signs are dropped', 'C59')
m('OldReport', "  let text := match text with [] => text | _ => text ++ lit \", \" end in", "  let text := text in",
  'balance_entry', 'no separator between amounts', 'C59')
m('OldReport', "fold_left balance_entry (snd e) []) (sort_key balances).", "fold_left balance_entry (snd e) []) balances.",
  'format_balance_report', 'lines are not sorted', 'C59')
# --- unused code
m('Unfinished', "mkDiter r (di_buffer it ++ l))", "mkDiter r l)",
  'diter_next', 'the buffer is cleared (the code does not)', 'C65')
m('Unfinished', "  | None :: _ => Panic PExplicit\n", "  | None :: r => Ok (Some DComment, mkDiter r (di_buffer it))\n",
  'diter_next', 'an undecodable line counts as a comment', 'C64')
m('Unfinished', "       if (100 <? c)%N then", "       if (100 <=? c)%N then",
  'siter_next', 'one item less', 'C66')
m('Unfinished', "  then let '(_, _) := pool_find_or_create pool commodities None in Panic PTodo\n", "  then let '(_, _) := pool_find_or_create pool commodities None in Ok tt\n",
  'exchange_commodities', 'a single commodity is accepted', 'C67')
m('Unfinished', "  | Some i => Some (firstn i input)\n  | None => None", "  | Some i => Some (firstn i input)\n  | None => Some input",
  'next_element', 'the last element is returned', 'C68')
m('Unfinished', "  let z := Z.quot (d_signed d) (p10 (d_s d)) in", "  let z := (d_signed d / p10 (d_s d))%Z in",
  'quantity_into_i32', 'negative quantities are rounded down', 'C69')
m('Unfinished', "(z <? 2 ^ 31))%Z then", "(z <=? 2 ^ 31))%Z then",
  'quantity_into_i32', '2^31 is accepted', 'C69')
# --- second round: reading and reports
m('Parser', "  (p1, option_map (fun q => mkAmt q c) (d_from_str quantity)).", "  (p1, Some (mkAmt (match d_from_str quantity with Some q => q | None => d_zero end) c)).",
  'parse_amount_parts', 'unreadable quantities are read as zero', 'C26 C62')
m('Parser', "        | Some c => if t_is_per_unit t then let* c' := amt_mul c a in Ok (p1, Some c')", "        | Some c => if t_is_per_unit t then let* c' := amt_mul c (amt_abs a) in Ok (p1, Some c')",
  'parse_cost', 'the cost of a sale is positive', 'C10 C62')
m('Parser', "  let '(p3, _) := pool_find_or_create p2 (t_symbol t) (Some ann) in", "  let '(p3, _) := pool_find_or_create p2 (t_symbol t) None in",
  'parse_post', 'lot annotations are dropped', 'C48')
m('Parser', "      let* master2 := push_post master1 acct (xi, length (x_posts x)) in", "      let* master2 := push_post master1 acct (xi, pred (length (x_posts x))) in",
  'parse_post', 'accounts refer to the posting before', 'C17')
m('Parser', "      | [] => let* j' := finalize j xi in Ok (Continue Top j')\n      | 59%N :: r", "      | [] => Ok (Continue (InXact xi) j)\n      | 59%N :: r",
  'xact_line', 'a line of white space does not end a transaction', 'C27 C46')
m('Parser', "  | 13%N :: _ | 10%N :: _ => let* j' := finalize j xi in Ok (Continue Top j')", "  | 10%N :: _ => let* j' := finalize j xi in Ok (Continue Top j')",
  'xact_line', 'an empty line with a carriage return panics', 'C46 C62')
m('Parser', "  if str_eqb line [13%N; 10%N] || str_eqb line [10%N] then Ok (Continue Top j)", "  if str_eqb line [10%N] then Ok (Continue Top j)",
  'top_line', 'an empty line with a carriage return panics', 'C27')
m('Parser', "           else if (c =? 45)%N then Ok (Continue Top j)                    (* '-' *)\n", "",
  'top_line', 'option lines panic', 'C27')
m('Parser', "  | Top, None => Ok (Stop j)", "  | Top, None => Ok (Continue Top j)",
  'step', 'an undecodable line is skipped', 'C39')
m('Parser', "  | 47%N :: _ => dir ++ name", "  | 47%N :: _ => dir ++ 47%N :: name",
  'push_path', 'two slashes when the directory ends in one', 'C36')
m('Parser', "  | [_] => match p with 47%N :: _ => Ok (fs p) | _ => Ok None end", "  | [_] => Ok (fs p)",
  'included', 'a file without directory is read', 'C36')
m('Parser', "  let* j' := read_into_journal depth cwd fs src j in Ok (j', length (j_xacts j')).", "  let* j' := read_into_journal depth cwd fs src j in Ok (j', length (j_xacts j)).",
  'journal_read', 'the number of transactions before is returned', 'C58')
m('Report', "Definition balance_text (b : balance) : str := flat_map amount_text b.", "Definition balance_text (b : balance) : str := flat_map amount_text (filter (fun a => negb (d_is_zero (a_q a))) b).",
  'balance_text', 'zero amounts are not shown', 'C52 C63')
m('Report', "  d_to_string (a_q a) ++ match a_c a with Some s => 32%N :: s | None => [] end.", "  d_to_string (a_q a) ++ match a_c a with Some s => s | None => [] end.",
  'amount_text', 'no space before the symbol', 'C52 C63')
m('Lib', "  | 97%N :: _ => Ok (sort_strings (report_accounts j))             (* 'a' *)", "  | 97%N :: _ => Ok (report_accounts j)             (* 'a' *)",
  'execute_command', 'accounts are not sorted', 'C22 C53')
m('Options', "              Ok (cmds, opts ++ opts')", "              Ok (cmds, opts' ++ opts)",
  'split_args', 'files are read in reverse order', 'C40')
m('Dates', "  | 43%N :: r => take_digits (length r) r 0 false", "  | 43%N :: r => take_digits 4 r 0 false",
  'year_field', 'at most four digits after a plus sign', 'C47')
m('Dates', "  take_digits width (trim_start s) 0 false.", "  take_digits width s 0 false.",
  'num_field', 'no white space before a month or day', 'C47')
m('Dates', "(sec <=? 60) then", "(sec <=? 59) then",
  'parse_time_opt', 'no leap seconds', 'C47')

# Layout of lines, every line counted, order of transactions, commodities known
m('Scanner', "Definition is_sym_end (c : char) : bool := is_ws c ||", "Definition is_sym_end (c : char) : bool := (c =? 32) || (c =? 10) ||",
  'is_sym_end', 'only spaces and line feeds end a symbol, so carriage returns and tabs become part of it', 'C70 C71')
m('Scanner', "  | None => (trim input, [])\n  end.\n\n(** scanner.rs:163", "  | None => (trim_start input, [])\n  end.\n\n(** scanner.rs:163",
  'tokenize_payee', 'white space at the end of the payee is kept', 'C70 C71')
m('Scanner', "let* r := drop_bytes 3 input in Ok (trim r)", "let* r := drop_bytes 3 input in Ok (trim_start r)",
  'tokenize_note', 'white space at the end of a note in a header is kept', 'C70 C71')
m('Parser', "  let note := trim (skipn 1 line) in", "  let note := trim_start (skipn 1 line) in",
  'parse_trailing_note', 'white space at the end of a note is kept', 'C70 C71')
m('Base', "Definition take_word (s : str) : str * str :=\n  let s := trim_start s in\n  match find_char is_ws s with", "Definition take_word (s : str) : str * str :=\n  let s := trim_start s in\n  match find_char (fun c => (c =? 32) || (c =? 10))%N s with",
  'take_word', 'words end only at spaces and line feeds, so a carriage return is part of a file name', 'C70')
m('Parser', "      | input => let* j' := parse_post j xi input in Ok (Continue (InXact xi) j')", "      | input => match finalize j xi with\n                 | Ok _ => let* j' := parse_post j xi input in Ok (Continue (InXact xi) j')\n                 | _ => let* j' := parse_post j xi input in Ok (Continue (InXact xi) j')\n                 end",
  'xact_line', 'nothing: an equivalent program', '')
m('Parser', "      match trim_start line with\n      | [] => let* j' := finalize j xi in Ok (Continue Top j')", "      match match line with 32%N :: 32%N :: _ => trim_start line | _ => [] end with\n      | [] => let* j' := finalize j xi in Ok (Continue Top j')",
  'xact_line', 'a line with one space in front ends the transaction', 'C72 C73')
m('Parser', "      match trim_start line with\n      | [] => let* j' := finalize j xi in Ok (Continue Top j')", "      match drop_while (fun c => (c =? 32)%N) line with\n      | [] => let* j' := finalize j xi in Ok (Continue Top j')",
  'xact_line', 'tabs after the first space are not skipped before a note', 'C72')
m('Parser', "  | 13%N :: _ | 10%N :: _ => let* j' := finalize j xi in Ok (Continue Top j')", "  | 13%N :: _ | 10%N :: _ => Ok (Continue (InXact xi) j)",
  'xact_line', 'an empty line does not end a transaction', 'C73 C28')
m('Parser', "             Ok (Continue (InXact (length (j_xacts j))) j')", "             Ok (Continue (InXact (pred (length (j_xacts j)))) j')",
  'top_line', 'postings are added to the transaction before', 'C73')
m('Parser', "           | Some src => parse_lines (include_file d cwd fs) Top j src", "           | Some src => let* j' := parse_lines (include_file d cwd fs) Top j src in parse_lines (include_file d cwd fs) Top j' src",
  'include_file', 'an included file is read twice', 'C73 C36')
m('Parser', "  update_nth xi (fun x => set_posts x (x_posts x ++ [p])) xs.", "  update_nth xi (fun x => set_posts x (p :: x_posts x)) xs.",
  'add_post', 'postings are in reverse order', 'C73')
m('Parser', "           if (c =? 59)%N || (c =? 35)%N || (c =? 42)%N || (c =? 124)%N   (* ; # * | *)", "           if (c =? 59)%N || (c =? 35)%N || (c =? 42)%N || (c =? 124)%N || (c =? 57)%N",
  'top_line', 'a transaction whose year starts with 9 is skipped', 'C73')
m('Parser', "      | 59%N :: r => let* j' := parse_trailing_note j xi (59%N :: r) in\n                     Ok (Continue (InXact xi) j')", "      | 59%N :: r => let* j' := parse_trailing_note j xi (59%N :: r) in\n                     let* j' := finalize j' xi in Ok (Continue Top j')",
  'xact_line', 'a note ends the transaction', 'C73 C37')
m('Parser', "      | 59%N :: r => let* j' := parse_trailing_note j xi (59%N :: r) in\n                     Ok (Continue (InXact xi) j')", "      | 59%N :: r | 35%N :: r => let* j' := parse_trailing_note j xi (59%N :: r) in\n                     Ok (Continue (InXact xi) j')",
  'xact_line', 'posting lines that start with # are notes', 'C73')
m('Parser', "  let* t := scan_post input in\n  let* (master1, acct) := register_account (j_master j) (t_account t) in", "  let* t := scan_post input in\n  let* (master1, acct) := register_account (j_master j) (trim (t_account t)) in",
  'parse_post', 'nothing for written accounts: white space around them is dropped', '')
m('Pool', "  | [] => (p, None)\n  | _ =>\n      match pool_find p symbol with", "  | _ =>\n      match pool_find p symbol with",
  'pool_find_or_create', 'the empty symbol is a commodity', 'C75')
m('Parser', "      if is_empty (t_cost_quantity t) then Ok (p, None)\n      else", "      if is_empty (t_cost_quantity t) then Ok (fst (pool_find_or_create p (lit \"USD\") None), None)\n      else",
  'parse_cost', 'a posting without cost creates a commodity', 'C75')
m('Parser', "  (p1, option_map (fun q => mkAmt q c) (d_from_str quantity)).", "  (match d_from_str quantity with Some q => if d_is_zero q then p else p1 | None => p1 end, option_map (fun q => mkAmt q c) (d_from_str quantity)).",
  'parse_amount_parts', 'the commodity of a zero amount is not created', 'C75')
m('Pool', "  let '(p1, c) := pool_find_or_create p t_symbol None in\n  let price :=", "  let '(p1, c) := (p, snd (pool_find_or_create p t_symbol None)) in\n  let price :=",
  'annotation_parse', 'the commodity of a lot price is not created', 'C75')
m('Decimal', "  if d_is_zero a then Ok b\n  else if d_is_zero b then Ok a\n  else let s := Nat.max (d_s a) (d_s b) in\n       d_reduced (d_signed a * p10 (s - d_s a) + d_signed b * p10 (s - d_s b)) s.", "  if d_is_zero a then Ok a\n  else if d_is_zero b then Ok a\n  else let s := Nat.max (d_s a) (d_s b) in\n       d_reduced (d_signed a * p10 (s - d_s a) + d_signed b * p10 (s - d_s b)) s.",
  'd_add', 'zero plus something is zero', 'C03 C05 C74')
m('Journal', "  let subs := sort_key (map (fun c => (ac_name c, account_total xs c)) (ac_children a)) in", "  let subs := (map (fun c => (ac_name c, account_total xs c)) (ac_children a)) in",
  'account_total', 'children are added in the order of insertion', 'C79 C80')
m('Report', "  let subs := sort_key (map (fun c => (ac_name c, children_lines xs (p ++ [ac_name c]) c))\n                            (ac_children a)) in", "  let subs := (map (fun c => (ac_name c, children_lines xs (p ++ [ac_name c]) c))\n                            (ac_children a)) in",
  'children_lines', 'accounts are listed in the order of their first use', 'C20 C74')
m('Balance', "               then let* x' := amt_add x a in Ok (x' :: b')\n", "               then let* x' := amt_add a x in Ok (x' :: b')\n",
  'bal_add', 'the new amount comes first in the sum: only the decimals of zero sums differ', '')

# Definitions not edited above: texts, decimals, dates, amounts
m('Base', "Definition is_digit (c : char) : bool := (48 <=? c) && (c <=? 57).", "Definition is_digit (c : char) : bool := (48 <=? c) && (c <=? 56).",
  'is_digit', '9 is not a digit', 'C01 C46')
m('Base', "  if c <? 128 then 1%nat else if c <? 2048 then 2%nat else", "  if c <? 256 then 1%nat else if c <? 2048 then 2%nat else",
  'utf8_len', 'Latin-1 characters take one byte, so a cost after @ and such a character is read', 'C83')
m('Base', "  | x :: a', y :: b' => (x =? y) && str_eqb a' b'\n  | _, _ => false", "  | x :: a', y :: b' => (x =? y) && str_eqb a' b'\n  | [], _ => true\n  | _, _ => false",
  'str_eqb', 'a text equals every text it is in front of', 'C15 C30 C53')
m('Base', "  | [], _ => true\n  | _ :: _, [] => false\n  | x :: a', y :: b' => if x <? y then true else", "  | [], _ => false\n  | _ :: _, [] => true\n  | x :: a', y :: b' => if x <? y then true else",
  'str_leb', 'longer names come first', 'C20 C22')
m('Base', "Definition trim_end (s : str) : str := rev (drop_while is_ws (rev s)).", "Definition trim_end (s : str) : str := rev (drop_while (fun c => c =? 32) (rev s)).",
  'trim_end', 'only spaces are removed at the end', 'C70 C71')
m('Base', "Definition trim_start (s : str) : str := drop_while is_ws s.", "Definition trim_start (s : str) : str := drop_while (fun c => c =? 32) s.",
  'trim_start', 'only spaces are removed in front', 'C72')
m('Base', "  | [] => match acc with [] => [] | _ => [rev acc] end\n", "  | [] => []\n",
  'split_lines', 'a last line without line feed is dropped', 'C73')
m('Base', "Fixpoint sort_key {A} (l : list (str * A)) : list (str * A) :=\n  match l with\n  | [] => []\n  | x :: l' => insert_key x (sort_key l')", "Fixpoint sort_key {A} (l : list (str * A)) : list (str * A) :=\n  match l with\n  | [] => []\n  | x :: l' => if is_empty (fst x) then sort_key l' else insert_key x (sort_key l')",
  'sort_key', 'accounts without a name are left out', 'C18 C19 C20')
m('Decimal', "Definition d_signed (d : dec) : Z := if d_neg d then - d_m d else d_m d.", "Definition d_signed (d : dec) : Z := d_m d.",
  'd_signed', 'the sign is ignored in arithmetic', 'C03 C05 C19')
m('Decimal', "  mkDec (if m =? 0 then false else neg) m s.", "  mkDec neg m s.",
  'd_make', 'zero can be negative: -0 is shown', 'C76')
m('Decimal', "  let q := rhe m (p10 k) in\n  if (q <? MAXM)", "  let q := m / p10 k in\n  if (q <? MAXM)",
  'reduce_from', 'decimals are cut off instead of rounded', 'C50')
m('Decimal', "  d_signed a * p10 (d_s b) =? d_signed b * p10 (d_s a).", "  d_signed a =? d_signed b.",
  'd_eqb', 'equality ignores the scale', 'C81')
m('Decimal', "                      | 43%N :: r => (false, r)  (* '+' *)", "                      | 43%N :: r => (true, r)  (* '+' *)",
  'd_from_str', 'a plus sign negates', 'C02')
m('Decimal', "       d_reduced (d_signed a * p10 (s - d_s a) + d_signed b * p10 (s - d_s b)) s.", "       let* r := d_reduced (d_signed a * p10 (s - d_s a) + d_signed b * p10 (s - d_s b)) s in\n       let '(m, s') := (fix st (n : nat) (m : Z) := match n with O => (m, O) | S n' => if m mod 10 =? 0 then st n' (m / 10) else (m, n) end) (d_s r) (d_m r) in Ok (d_make (d_neg r) m s').",
  'd_add', 'trailing zeros of a sum are dropped', 'C76')
m('Dates', "Definition midnight : time := mkTime 0 0 0.", "Definition midnight : time := mkTime 12 0 0.",
  'midnight', 'prices of transactions are recorded at noon', 'C12 C77')
m('Dates', "     && (1 <=? d) && (d <=? days_in_month y m)", "     && (0 <=? d) && (d <=? days_in_month y m)",
  'from_ymd', 'day 0 is accepted', 'C47')
m('Dates', "  | x :: s' => if (x =? c)%N then Some s' else None\n  | [] => None", "  | x :: s' => Some s'\n  | [] => None",
  'literal', 'any separator is accepted in dates', 'C47')
m('Amount', "Definition amt_abs (a : amount) : amount := mkAmt (d_set_pos (a_q a)) (a_c a).", "Definition amt_abs (a : amount) : amount := a.",
  'amt_abs', 'the absolute value keeps the sign: negative prices', 'C11 C12 C38')
m('Amount', "Definition comm_or (a b : comm) : comm := match a with None => b | Some _ => a end.", "Definition comm_or (a b : comm) : comm := match b with None => a | Some _ => b end.",
  'comm_or', 'a product has the commodity of the right factor: costs are in the commodity bought', 'C03 C10 C11')
m('Amount', "Definition amt_is_null (a : amount) : bool :=\n  d_is_zero (a_q a) && ", "Definition amt_is_null (a : amount) : bool :=\n  d_is_zero (a_q a) || ",
  'amt_is_null', 'a zero amount with a commodity is null', 'C81')
m('Amount', "    if d_is_zero (a_q b) then Ok a\n    else let* q := d_add (a_q a) (a_q b) in Ok (mkAmt q (a_c a))", "    if d_is_zero (a_q a) then Ok a\n    else let* q := d_add (a_q a) (a_q b) in Ok (mkAmt q (a_c a))",
  'amt_add', 'nothing can be added to zero', 'C03 C05')

# Scanner
m('Scanner', "      match find_char (fun c => c =? 32) input with\n      | Some i => (firstn i input, skipn i input)\n      | None => (input, [])\n      end\n  | _ => ([], input)", "      match find_char (fun c => c =? 32) input with\n      | Some i => ([], skipn i input)\n      | None => (input, [])\n      end\n  | _ => ([], input)",
  'tokenize_aux_date', 'the second date is dropped when a payee follows', 'C24')
m('Scanner', "         let* note := tokenize_note input in\n         Ok (date, aux_date, payee, note)", "         let* note := tokenize_note input in\n         Ok (date, aux_date, note, payee)",
  'tokenize_xact_header', 'payee and note are swapped', 'C24')
m('Scanner', "  | Some i => (firstn i input, trim_start (skipn i input))\n  | None => (input, [])\n  end.\n\n(** Characters that end", "  | Some i => (firstn i input, trim_start (skipn (S i) input))\n  | None => (input, [])\n  end.\n\n(** Characters that end",
  'scan_quantity', 'the character after a quantity is dropped', 'C23 C46')
m('Scanner', "      else\n        let '(symbol, input) := scan_symbol input in\n        let '(quantity, input) := scan_quantity input in\n        Ok (quantity, symbol, input)", "      else\n        let '(symbol, input) := scan_symbol input in\n        let '(quantity, input) := scan_quantity input in\n        Ok (symbol, quantity, input)",
  'scan_amount', 'quantity and symbol are swapped when the symbol comes first', 'C23 C60')
m('Scanner', "  | Some i => Ok (firstn i input, skipn i input)\n  | None => Panic PExplicit", "  | Some i => Ok (firstn i input, skipn i input)\n  | None => Ok (input, [])",
  'scan_until', 'a missing closing bracket is accepted', 'C83 C85')
m('Scanner', "  match find_char (fun c => (c =? 32) || (c =? 9)) input with\n", "  match find_char (fun c => c =? 32) input with\n",
  'scan_price_element', 'tabs do not separate the elements of a price line', 'C68')
m('Scanner', "      let '(commodity, input) := scan_price_element (trim_start input) in\n      let '(quantity, input) := scan_price_element (trim_start input) in\n      let '(price_commodity, _) := scan_price_element (trim_start input) in", "      let '(price_commodity, input) := scan_price_element (trim_start input) in\n      let '(quantity, input) := scan_price_element (trim_start input) in\n      let '(commodity, _) := scan_price_element (trim_start input) in",
  'scan_price_directive', 'a price line records the price in the other direction', 'C35 C77')

# History and pool
m('History', "  (mkGraph (g_nodes g ++ [symbol]) (g_edges g), length (g_nodes g)).", "  (mkGraph (g_nodes g ++ [symbol]) (g_edges g), pred (length (g_nodes g))).",
  'add_commodity', 'a new commodity has the index of the one before', 'C30 C35')
m('History', "  | (x, y, m) :: es' => if (x =? a)%nat && (y =? b)%nat then (x, y, pm_insert k v m) :: es'\n                        else (x, y, m) :: put_price es' a b k v", "  | (x, y, m) :: es' => if (x =? a)%nat && (y =? b)%nat then (x, y, pm_insert k v []) :: es'\n                        else (x, y, m) :: put_price es' a b k v",
  'put_price', 'recording a price forgets the earlier ones', 'C31 C77')
m('History', "  | (x, y, m) :: es' => if (x =? a)%nat && (y =? b)%nat then (x, y, pm_insert k v m) :: es'\n                        else (x, y, m) :: put_price es' a b k v", "  | (x, y, m) :: es' => if (x =? a)%nat then (x, b, pm_insert k v m) :: es'\n                        else (x, y, m) :: put_price es' a b k v",
  'put_price', 'a commodity has prices in one other commodity only', 'C31 C77')
m('History', "  mkGraph (g_nodes g) (put_price (g_edges g) a b k v).", "  mkGraph (g_nodes g) (put_price (g_edges g) b a k v).",
  'graph_add_price', 'prices are recorded in the other direction', 'C31 C35 C77')
m('History', "  | Some m => get_latest_price m\n  | None => None", "  | Some m => hd_error m\n  | None => None",
  'get_direct_price', 'the oldest price is returned', 'C31')
m('History', "  : outcome (datetime * dec) := rate_loop g source path now d_one.", "  : outcome (datetime * dec) := rate_loop g source path now d_zero.",
  'calculate_rate', 'indirect rates are zero', 'C33')
m('Pool', "  let c := mkComm symbol i (match ann", "  let c := mkComm symbol O (match ann",
  'pool_create', 'every commodity has index 0', 'C30 C35')
m('Pool', "  let* c := unwrap (pool_find p symbol) in Ok (Some (c_index c)).", "  Ok (option_map c_index (pool_find p symbol)).",
  'pool_find_index', 'an unknown symbol has no index instead of failing', 'C30')
m('Pool', "  pool_add_price p (pr_commodity pr) (pr_when pr) (pr_price pr).", "  Ok p.",
  'pool_add_price_struct', 'prices of transactions are not recorded', 'C12 C77')
m('Pool', "    find_price astar (p_hist p) (c_index s) (c_index t) (c_symbol t) now moment oldest.", "    find_price astar (p_hist p) (c_index s) (c_index t) (c_symbol s) now moment oldest.",
  'pool_find_price', 'a price is in the commodity priced', 'C34')
m('Pool', "  let* time := (if is_empty t_time then Ok midnight else unwrap (parse_time_opt t_time)) in", "  let* _ := (if is_empty t_time then Ok midnight else unwrap (parse_time_opt t_time)) in let time := midnight in",
  'parse_price_directive', 'the time of a price line is ignored', 'C35 C77')

# Accounts, transactions, journal
m('Account', "  | c :: r => if str_eqb (ac_name c) name then c' :: r else c :: set_child name c' r", "  | c :: r => if str_eqb (ac_name c) name then c :: r else c :: set_child name c' r",
  'set_child', 'sub-accounts of an existing account are lost', 'C14 C17')
m('Account', "  | _ => let* r := find_or_create (S (length name)) master name true in unwrap r", "  | _ => let* r := find_or_create (S (length name)) master (trim name) true in unwrap r",
  'register_account', 'white space around an account name is dropped', 'C14')
m('Xact', "  mkPost (po_account p) (Some a) (po_cost p) (po_note p).", "  mkPost (po_account p) (Some a) None (po_note p).",
  'set_amount', 'the cost is dropped when finalising', 'C08 C09')
m('Xact', "  mkPost (po_account p) (po_amount p) (Some c) (po_note p).", "  mkPost (po_account p) (Some c) (Some c) (po_note p).",
  'set_cost', 'an implied cost replaces the amount', 'C08 C11')
m('Xact', "  | p :: posts' => match po_amount p with Some a => Some a | None => top_amount posts' end", "  | p :: posts' => match top_amount posts' with Some a => Some a | None => po_amount p end",
  'top_amount', 'the last amount determines which commodity is priced', 'C11')
m('Xact', "  mkXact (x_date x) (x_aux_date x) (x_payee x) (x_note x) ps.", "  mkXact (x_date x) None (x_payee x) (x_note x) ps.",
  'set_posts', 'the second date is lost when finalising', 'C08 C46')
m('Xact', "        | [b] => Ok (pool', update_nth i (fun p => set_amount p (amt_inverse b)) posts2)", "        | [b] => Ok (pool', update_nth i (fun p => set_amount p b) posts2)",
  'finalize_posts', 'the elided amount doubles the rest', 'C06 C52')
m('Journal', "  let* own := account_amount xs (ac_posts a) in\n  bal_add_bal t own.", "  let* own := account_amount xs (ac_posts a) in\n  bal_add_bal own t.",
  'account_total', 'own amounts come before those of the sub-accounts', 'C79')
m('Balance', "  | x :: b' => if comm_eqb (a_c x) (a_c a)\n               then let* x' := amt_add x a in Ok (x' :: b')\n               else let* b'' := bal_add b' a in Ok (x :: b'')", "  | x :: b' => if comm_eqb (a_c x) (a_c a)\n               then let* x' := amt_add x a in Ok (x' :: b')\n               else let* b'' := bal_add b' a in Ok (if existsb (fun y => comm_eqb (a_c y) (a_c a)) b' then x :: b'' else a :: x :: b')",
  'bal_add', 'new commodities are put in front', 'C79')

# Reading and reporting
m('Parser', "  mkXact (x_date x) (x_aux_date x) (x_payee x) (Some note) (x_posts x).", "  mkXact (x_date x) (x_aux_date x) (x_payee x) (match x_note x with Some n => Some n | None => Some note end) (x_posts x).",
  'xact_add_note', 'the first note of a transaction is kept', 'C37')
m('Parser', "      if str_eqb directive (lit \"include\") then", "      if starts_with (lit \"inc\") directive then",
  'general_directive', 'inc is include', 'C70 C85')
m('Parser', "  match fs file with\n  | None => Panic PIo", "  match fs file with\n  | None => Ok j",
  'parse_file', 'a missing file is ignored', 'C41')
m('Report', "Definition report_accounts (j : journal) : list str := map ac_name (flatten (j_master j)).", "Definition report_accounts (j : journal) : list str := tl (map ac_name (flatten (j_master j))).",
  'report_accounts', 'the first account is left out', 'C22')
m('Report', "  lit \"Account \" ++ name ++ lit \" has balance \" ++ balance_text b.", "  lit \"Account \" ++ name ++ lit \" \" ++ balance_text b.",
  'account_line', 'the words between account and balance are left out', 'C20')
m('Report', "  children_lines (j_xacts j) [] (j_master j).", "  let* ls := children_lines (j_xacts j) [] (j_master j) in Ok (tl ls).",
  'balance_report', 'the line of the master account is left out', 'C20 C78')
m('Lib', "  execute_command depth cwd fs commands files.\n", "  execute_command depth cwd fs commands (rev files).\n",
  'run', 'files are read in reverse order', 'C41')
m('Lib', "run depth cwd fs (program :: args).", "run depth cwd fs args.",
  'main', 'the program is given its arguments only, so it works', 'C42')
m('Options', "  let* files := get_input_options opts in\n  Ok (cmds, files).", "  let* files := get_input_options opts in\n  Ok (cmds, firstn 1 files).",
  'process_arguments', 'only the first file is read', 'C40 C41')
m('Compare', "d_signed a * p10 (d_s b) ?= d_signed b * p10 (d_s a).", "d_signed a ?= d_signed b.", 'd_cmp', 'comparison ignores the decimals', 'C81')
m('Compare', "match d_cmp a b with Gt => a | _ => b end.", "match d_cmp a b with Lt => a | _ => b end.", 'd_max', 'the maximum is the minimum', 'C81')
m('Compare', "d_eqb (a_q a) (a_q b) && comm_eqb (a_c a) (a_c b).", "d_eqb (a_q a) (a_q b).", 'amt_eqb', 'amounts of different commodities are equal', 'C81')
m('Compare', "(dt_key (pp_when a) =? dt_key (pp_when b)) && ", "", 'pp_eqb', 'price points of different moments are equal', 'C81')
m('Decimal', "else if Z.even q then q else q + 1.", "else q + 1.", 'rhe', 'halves are rounded up', 'C81')
m('Decimal', "else if Z.even q then q else q + 1.", "else q.", 'rhe', 'halves are rounded down', 'C81')
m('Scanner', "      let input := drop_while (fun c => c =? 61) input in\n", "      let input := skipn 1 input in\n", 'tokenize_aux_date', 'of several = one is dropped', 'C83')
m('Scanner', "(fun c => (c =? 61) || (c =? 32)) input with", "(fun c => (c =? 61) || is_ws c) input with", 'scan_date', 'a tab ends the date of a header', 'C83')
m('Scanner', "find_sub [32; 32; 59] input", "find_sub [32; 59] input", 'tokenize_payee', 'a note of a header starts after one space', 'C83 C84')
m('Scanner', "is_ws c || (c =? 64) || is_digit c || (c =? 45).", "is_ws c || (c =? 64) || is_digit c.", 'is_sym_end', 'a minus sign is part of a symbol', 'C83 C84')
m('Scanner', "        if negb (is_empty q) then Panic PExplicit\n", "        if false then Panic PExplicit\n", 'annotation_loop', 'the second lot price counts', 'C83 C85')
m('Scanner', "      else if c =? 40 (* '(' *) then Panic PTodo\n", "      else if c =? 40 (* '(' *) then Ok ((q, s, d), [])\n", 'annotation_loop', 'lots in parentheses are ignored', 'C83 C85')
m('Scanner', "                 let '(d', _) := scan_date date_input in\n                 annotation_loop f q s d' ", "                 annotation_loop f q s date_input ", 'annotation_loop', 'a lot date is the whole text in brackets', 'C83')
m('Scanner', "        | 64 :: _ => (3%nat, false)", "        | 64 :: _ => (2%nat, false)", 'scan_cost', 'the character after @@ is part of the cost', 'C83')
m('Scanner', "        | _ => (2%nat, true)", "        | _ => (1%nat, true)", 'scan_cost', 'the character after @ is part of the cost', 'C83')
m('Scanner', "          let account := firstn i input in", "          let account := trim_end (firstn i input) in", 'scan_post', 'a tab before the two spaces is not part of the account', 'C83 C84')
m('Scanner', "if is_digit c then scan_price_element input else ([], input) in", "scan_price_element input in", 'scan_price_directive', 'a price line without time is not read', 'C83 C85')
m('Parser', "  if is_empty note then Ok j\n  else Ok", "  if false then Ok j\n  else Ok", 'parse_trailing_note', 'an empty note removes the one before', 'C84')
m('Parser', "  match line with\n  | 32%N :: _ =>\n      match trim_start line with", "  match line with\n  | 32%N :: _ | 9%N :: _ =>\n      match trim_start line with", 'xact_line', 'postings can be indented with a tab', 'C73 C85')
m('Parser', "(lit \"import\") then Panic PTodo", "(lit \"import\") then Ok j", 'general_directive', 'import lines are ignored', 'C70 C85')
m('Parser', "  | 97%N :: _ => Panic PTodo ", "  | 97%N :: _ => Ok j ", 'general_directive', 'lines starting with a are ignored', 'C70 C85')
m('Parser', "      else let* p := parse_price_directive (j_pool j) line in Ok (set_pool j p)\n  | _ => Panic PTodo", "      else let* p := parse_price_directive (j_pool j) line in Ok (set_pool j p)\n  | _ => Ok j", 'general_directive', 'unknown lines are ignored', 'C70 C85')
m('Parser', "(c =? 9)%N then Panic PTodo", "(c =? 9)%N then Ok (Continue Top j)", 'top_line', 'indented lines between transactions are ignored', 'C73 C85')
m('Parser', "  | [] => Panic PUnwrap\n  | [_] =>", "  | [] => Ok None\n  | [_] =>", 'included', 'including the root directory is ignored', 'C36 C85')
m('Parser', "        | [] => Panic PUnwrap\n        | argument", "        | [] => Ok j\n        | argument", 'general_directive', 'an include line without name is ignored', 'C85')
m('Pool', "    match a_c cost with None => amt_remove_commodity per_unit_cost | Some _ => per_unit_cost end in", "    per_unit_cost in", 'exchange', 'a cost without commodity is accepted', 'C85')
m('Pool', "       | None => Panic PUnwrap\n", "       | None => Ok p\n", 'pool_add_price', 'a price without commodity is ignored', 'C85')
m('Pool', "  let* q := unwrap (d_from_str t_q) in\n", "  let q := match d_from_str t_q with Some q => q | None => d_zero end in\n", 'parse_price_directive', 'a wrong price counts as zero', 'C77 C85')
m('Pool', "else unwrap (parse_time_opt t_time)) in", "else Ok (match parse_time_opt t_time with Some t => t | None => midnight end)) in", 'parse_price_directive', 'a wrong time counts as midnight', 'C77 C85')
m('Pool', "             else let* d := unwrap (parse_date_opt t_date) in Ok (Some d)) in", "             else Ok (parse_date_opt t_date)) in", 'annotation_parse', 'a wrong lot date is ignored', 'C85')
m('Xact', "               else let* d := parse_date t_aux in Ok (Some d)) in", "               else Ok (parse_date_opt t_aux)) in", 'xact_create', 'a wrong second date is ignored', 'C85')
m('Xact', "            | None => Panic PExplicit\n", "            | None => Ok (pool, p)\n", 'price_loop', 'nothing: a posting with a cost has an amount', '')
m('Pool', "    if negb (amt_is_zero per_unit_cost) && negb (comm_eqb (a_c amt) (a_c per_unit_cost))\n", "    if negb (comm_eqb (a_c amt) (a_c per_unit_cost))\n", 'exchange', 'zero prices are recorded', 'C12 C85')
m('Pool', "  let* sym := unwrap (a_c amt) in\n", "  let sym := match a_c amt with Some s => s | None => [] end in\n", 'exchange', 'nothing: an amount without commodity still fails', '')
m('Decimal', "      else if (c =? 95)%N && has then", "      else if (c =? 95)%N then", 'parse_digits', 'a quantity can start with an underscore', 'C02')
m('Decimal', "      else if (c =? 46)%N && negb point then", "      else if (c =? 46)%N then", 'parse_digits', 'a quantity can have several points', 'C02')
m('Decimal', "  | [] => if has then Some (m, sc) else None\n", "  | [] => Some (m, sc)\n", 'parse_digits', 'no digits are zero', 'C02')
m('Decimal', "        if MAXM <=? m' then None\n", "        if MAXM <? m' then None\n", 'parse_digits', '2^96 is read', 'C02')
m('Decimal', "  d_signed a * p10 (d_s b) <=? d_signed b * p10 (d_s a).", "  d_signed a * p10 (d_s b) <? d_signed b * p10 (d_s a).", 'd_leb', 'a quantity is not at most itself', 'C81')
m('Pool', "  let '(p1, c) := pool_find_or_create p t_comm None in\n  let* q := unwrap (d_from_str t_q) in", "  if (dt_y date <? 1990)%Z then Ok p else\n  let '(p1, c) := pool_find_or_create p t_comm None in\n  let* q := unwrap (d_from_str t_q) in", 'parse_price_directive', 'price lines of dates before 1990 are ignored', 'C77 C87')
m('Xact', "  Ok (mkXact d aux\n", "  Ok (mkXact (match aux with Some _ => aux | None => d end) aux\n", 'xact_create', 'the secondary date becomes the date', 'C84')
m('Parser', "  let '(p3, _) := pool_find_or_create p2 (t_symbol t) (Some ann) in\n", "  let '(p3, _) := match an_date ann with Some _ => pool_find_or_create p2 (t_symbol t) (Some ann) | None => (p2, None) end in\n", 'parse_post', 'lots without date are not kept', 'C48 C87')
m('Parser', "  mkPost (po_account p) (po_amount p) (po_cost p) (Some note).", "  mkPost (po_account p) (if str_eqb note (lit \"void\") then Some amt_null else po_amount p) (po_cost p) (Some note).", 'post_add_note', 'a posting with the note void counts as zero', 'C37 C87')
m('Xact', "                  let* (bd, np) := exchange pool amt cost false (mkDT d midnight) in\n", "                  let* (bd, np) := exchange pool amt cost (dt_y d <? 2000)%Z (mkDT d midnight) in\n", 'price_loop', 'costs of transactions before 2000 are per unit', 'C12')
m('Journal', "       | Some p => match po_amount p with\n", "       | Some p => match (match po_note p with Some _ => None | None => po_amount p end) with\n", 'account_amount', 'postings with a note do not count', 'C18 C87 C88')
m('Report', "subs [account_line (fullname p) total].", "subs (match total with [] => [] | _ => [account_line (fullname p) total] end).", 'children_lines', 'accounts without balance are not shown', 'C20 C88')
m('Xact', "          if negb (amt_is_zero x0) && negb (amt_is_zero y0) then\n", "          if negb (amt_is_zero y0) then\n", 'infer_costs', 'a rate is computed even if the first sum is zero', 'C11 C86')
m('Pool', "    (if is_per_unit || amt_is_zero amt then Ok (amt_abs cost)\n", "    (if is_per_unit then Ok (amt_abs cost)\n", 'exchange', 'the unit price of nothing is computed', 'C38 C86')
m('Decimal', "Definition MAXM : Z := 2 ^ 96.", "Definition MAXM : Z := 2 ^ 63.", 'MAXM', 'quantities have 63 bits', 'C02 C86')
m('Pool', "    | Some a => match an_price a with\n                | Some ap => amt_mul ap amt\n", "    | Some a => match an_price a with\n                | Some ap => let* r := amt_mul ap amt in amt_div r ap\n", 'exchange', 'the basis cost is divided by the lot price', 'C38 C86')
m('Pool', "  | [] => (p, None)\n  | _ =>\n      match pool_find p symbol with", "  | [] => (p, None)\n  | _ =>\n      if str_eqb symbol [69%N; 85%N; 82%N] then (p, None) else\n      match pool_find p symbol with", 'pool_find_or_create', 'EUR is the default commodity', 'C89')
m('Report', "match a_c a with Some s => 32%N :: s | None => [] end.", "match a_c a with Some s => if (length s =? 1)%nat then s else 32%N :: s | None => [] end.", 'amount_text', 'symbols of one character without space', 'C20 C89')
m('Amount', "  | Some x, Some y => str_eqb x y\n", "  | Some x, Some y => (length x =? length y)%nat\n", 'comm_eqb', 'symbols are compared by length', 'C03 C89')
m('Report', "                            (ac_children a)) in\n", "                            (filter (fun c => negb (str_eqb (ac_name c) (lit \"Equity\"))) (ac_children a))) in\n", 'children_lines', 'accounts named Equity are not shown', 'C20 C90')
m('Account', "  find (fun c => str_eqb (ac_name c) name) cs.", "  find (fun c => str_eqb (firstn 8 (ac_name c)) (firstn 8 name)) cs.", 'find_child', 'names are compared in the first 8 characters', 'C14 C90')
m('Journal', "  let* own := account_amount xs (ac_posts a) in\n", "  let* own := account_amount xs (if str_eqb (ac_name a) [86%N; 105%N; 114%N; 116%N; 117%N; 97%N; 108%N] then [] else ac_posts a) in\n", 'account_total', 'postings of accounts named Virtual do not count', 'C18 C90')
m("Stdout", '  else if c =? 92 then lit "\\\\"\n', '', "debug_char", "a backslash is printed without a second one", "C91")
m("Stdout", '  else if c =? 10 then lit "\\n"\n', '  else if c =? 10 then [10]\n', "debug_char", "a line end in a text is printed as a line end", "C91")
m("Stdout", '  | s :: l\' => debug_str plain s ++ lit ", " ++ debug_items plain l\'', '  | s :: l\' => debug_str plain s ++ lit "," ++ debug_items plain l\'', "debug_items", "no space after the comma", "C91")
m("Stdout", '         | Panic p => (hello ++ messages, Panic p)\n', '         | Panic p => (hello ++ messages ++ println (debug_list plain []), Ok tt)\n', "main_prints", "a failing command is printed as an empty report", "C91")
m("Stdout", 'println (lit "You requested " ++ debug_list plain args)', 'println (lit "You requested " ++ debug_list plain (tl args))', "main_prints", "the path of the program is left out of the printed arguments", "C91")
m("Stdout", '(if n <? 16 then [] else hex f (n / 16))', '(if n <? 256 then [] else hex f (n / 16))', "hex", "two hexadecimal digits are printed as one", "C91")
m("Stdout", '                  | None, _ => 1%nat\n', '                  | None, Top => 1%nat\n                  | None, InXact _ => 0%nat\n', "lines_errors", "no message for an undecodable line inside a transaction", "C39")
m("Stdout", 'Some argument => inc_errors argument j', 'Some argument => 0%nat', "lines_errors", "no messages for included files", "C39")
m("Stdout", 'concat (repeat (println (lit "Error: " ++ invalid)) (run_errors depth cwd fs args))', 'concat (repeat (println (lit "Error: " ++ invalid)) (Nat.min 1 (run_errors depth cwd fs args)))', "main_prints", "one message for all undecodable lines", "C91")
m('History', "let least' := if (dt_key d <? dt_key least)%Z then d else least in", "let least' := if (dt_key least <? dt_key d)%Z then d else least in", 'rate_loop', 'a rate has the latest date of its prices', 'C33 C92')
m('Parser', "      else let* p := parse_price_directive (j_pool j) line in Ok (set_pool j p)\n  | _ => Panic PTodo", "      else match j_xacts j with [] => let* p := parse_price_directive (j_pool j) line in Ok (set_pool j p) | _ => Ok j end\n  | _ => Panic PTodo", 'general_directive', 'price lines after the first transaction are ignored', 'C77 C92')
m('Lib', "  fold_outcome (fun j f => parse_file depth cwd fs f j) files journal_new.", "  fold_outcome (fun j f => let* j' := parse_file depth cwd fs f j in Ok (mkJournal (j_master j') (if (length (j_xacts j') =? length (j_xacts j))%nat then j_pool j else j_pool j') (j_xacts j'))) files journal_new.", 'read_journal_files', 'the prices of files without transactions are lost', 'C88 C92')
m('Decimal', "  | Some (m, s') => Ok (d_make (z <? 0) m s')", "  | Some (m, s') => Ok (d_make (z <? 0) (if (z <? 0) && (p10 (s - s') * m <? Z.abs z) && (m <? MAXM - 1) then m + 1 else m) s')", 'd_reduced', 'negative numbers are rounded away from zero', 'C50 C81 C93')
m('Xact', "           let* cost := amt_mul per_unit_cost amt in", "           let* cost := amt_mul per_unit_cost (amt_abs amt) in", 'cost_loop', 'the implied cost of a negative amount is positive', 'C09 C93')
m('Pool', "    (if is_per_unit || amt_is_zero amt then Ok (amt_abs cost)", "    (if is_per_unit || amt_is_zero amt then Ok cost", 'exchange', 'the price of a posting of zero units keeps its sign', 'C93')
m('Balance', "  | x :: b' => if comm_eqb (a_c x) (a_c a)\n               then let* x' := amt_add x a in Ok (x' :: b')", "  | x :: b' => if comm_eqb (a_c x) (a_c a)\n               then let* x' := (if d_neg (a_q a) then amt_add x (amt_abs a) else amt_add x a) in Ok (x' :: b')", 'bal_add', 'negative amounts are added without their sign', 'C05 C18 C93')
m('Report', "  lit \"Account \" ++ name ++ lit \" has balance \" ++ balance_text b.", "  lit \"Account \" ++ name ++ lit \" has balance\" ++ balance_text b.", 'account_line', 'no space before the balance', 'C20')
m('Report', "  d_to_string (a_q a) ++ match a_c a with Some s => 32%N :: s | None => [] end.", "  d_to_string (d_set_pos (a_q a)) ++ match a_c a with Some s => 32%N :: s | None => [] end.", 'amount_text', 'amounts are shown without their sign', 'C20 C21 C93')
m('Report', "               subs [account_line (fullname p) total].", "               subs [account_line (ac_name a) total].", 'children_lines', 'the report shows the last part of the names only', 'C20 C21')
# Repairs of the defects found: the refutations must fail.
m('Amount', "  mkAmt (if d_is_sign_positive (a_q a) then d_set_neg (a_q a) else a_q a) (a_c a).", "  mkAmt (if d_is_sign_positive (a_q a) then d_set_neg (a_q a) else d_set_pos (a_q a)) (a_c a).", 'amt_inverse', 'repair: the inverse of a negative amount is positive', 'C04 C06 C57 C93')
m('Scanner', "        | 64 :: _ => (3%nat, false)\n        | _ => (2%nat, true)", "        | 64 :: _ => (2%nat, false)\n        | _ => (1%nat, true)", 'scan_cost', 'repair: no character is lost after the at sign', 'C25')
m('Scanner', "      let '(price_commodity, _) := scan_price_element (trim_start input) in", "      let '(price_commodity, _) := scan_price_element (trim input) in", 'scan_price_directive', 'repair: the line end is no part of the commodity', 'C70 C77')
m('Amount', "    let* q := d_sub (a_q a) (a_q b) in Ok (mkAmt q (a_c a))", "    if d_is_zero (a_q a) then Ok a else let* q := d_sub (a_q a) (a_q b) in Ok (mkAmt q (a_c a))", 'amt_minus', 'nothing is subtracted from zero', 'C03 C57')
m('Report', "Definition balance_text (b : balance) : str := flat_map amount_text b.", "Definition balance_text (b : balance) : str := flat_map (fun a => amount_text a ++ [44%N]) b.", 'balance_text', 'repair: amounts are followed by a comma', 'C20 C21')
# Theorems that no edit above makes fail.
m('Decimal', "  | Some (m, s') => Ok (d_make (z <? 0) m s')", "  | Some (m, s') => if m =? MAXM - 1 then Panic PArith else Ok (d_make (z <? 0) m s')", 'd_reduced', 'the largest number is refused', 'C61')
m('Decimal', "      if num s0 / d_m b <? MAXM then Ok", "      if num s0 / d_m b <? MAXM / 2 then Ok", 'd_div', 'exact quotients above half of the range are refused', 'C61')
m('Decimal', "  else if d_is_zero b then Ok a\n  else let s := Nat.max (d_s a) (d_s b) in\n       d_reduced (d_signed a * p10 (s - d_s a) - d_signed b * p10 (s - d_s b)) s.", "  else if d_is_zero b then Ok a\n  else let s := Nat.max (d_s a) (d_s b) in\n       let* r := d_reduced (d_signed a * p10 (s - d_s a) - d_signed b * p10 (s - d_s b)) s in if d_neg r && negb (d_neg a) && (2 ^ 95 <=? d_m r) then Panic PArith else Ok r.", 'd_sub', 'differences far below zero are refused', 'C61')
m('Unfinished', "  | [] => Ok (None, it)\n", "  | [] => Ok (None, mkDiter [Some (di_buffer it)] [])\n", 'diter_next', 'the reader starts again after its end', 'C64')
m('Unfinished', "Definition quantity_from_i32 (z : Z) : dec := d_of_int z.", "Definition quantity_from_i32 (z : Z) : dec := d_of_int (Z.abs z).", 'quantity_from_i32', 'the sign of an integer is lost', 'C69')
m('Unfinished', "  let z := Z.quot (d_signed d) (p10 (d_s d)) in", "  let z := (d_signed d / p10 (d_s d))%Z in", 'quantity_into_i32', 'conversion rounds down instead of towards zero', 'C69')
m('Amount', "Definition amt_is_zero (a : amount) : bool := d_is_zero (a_q a).", "Definition amt_is_zero (a : amount) : bool := d_is_zero (a_q a) && (d_s (a_q a) =? 0)%nat.", 'amt_is_zero', '0.00 is not zero', 'C81 C82')
m('Balance', "  | [] => Ok [a]\n  | x :: b' => if comm_eqb (a_c x) (a_c a)\n               then let* x' := amt_add x a", "  | [] => Ok [a]\n  | x :: b' => if (5 <? d_s (a_q a))%nat then Ok (x :: b') else if comm_eqb (a_c x) (a_c a)\n               then let* x' := amt_add x a", 'bal_add', 'amounts with more than five decimals are not added', 'C05 C18 C81 C82')
m('History', "  | [x] => Some x", "  | [x] => if (8 <? d_s (snd x))%nat then None else Some x", 'get_latest_price', 'prices with more than eight decimals are not found', 'C31 C82 C92')
m('History', "  | Some p => Some (length p - 1, rev p)%nat", "  | Some p => Some (length p, rev p)%nat", 'bfs_loop', 'the search counts the nodes instead of the edges', 'C33')
m('Report', "Definition report_accounts (j : journal) : list str := map ac_name (flatten (j_master j)).", "Definition report_accounts (j : journal) : list str := map ac_name (filter (fun a => match ac_posts a with [] => false | _ => true end) (flatten (j_master j))).", 'report_accounts', 'accounts without postings are not listed', 'C22 C88')
m('OldReport', "  let text := match text with [] => text | _ => text ++ lit \", \" end in", "", 'balance_entry', 'no comma between amounts', 'C59')
# The full names that are kept, and the exact condition for balance reports.
m('NameCache', "          | k => Ok (t, k)", "          | _ => let* full := n_up (length p) t (na_parent a) (na_name a) in Ok (n_keep t p full, full)", 'n_fullname', 'the kept name is not used', 'C94')
m('NameCache', "(match na_name acct with [] => full | n => n ++ 58%N :: full end)", "(na_name acct ++ 58%N :: full)", 'n_up', 'the name of the master account is not skipped', 'C94')
m('NameCache', "in Ok (n_keep t p full, full)", "in Ok (n_keep t (removelast p) full, full)", 'n_fullname', 'the name is kept in the parent', 'C94')
m('NameCache', "let child := NAcct first (Some here) no_alloc [] [] in", "let child := NAcct first (Some here) no_alloc first [] in", 'n_find_or_create', 'new accounts keep their own name as full name', 'C94')
m('NameCache', "              | _ => let* (child', r) := n_find_or_create f child ptr (base ++ [first]) rest in\n                     Ok (NAcct n par al k (set_nchild first child' cs), r)", "              | _ => let* (child', r) := n_find_or_create f child ptr (base ++ [first]) rest in\n                     Ok (NAcct n par al [] (set_nchild first child' cs), r)", 'n_find_or_create', 'registering something below an account forgets its full name', 'C94')
m('NameCache', "let child := NAcct first (Some here) no_alloc [] [] in", "let child := NAcct first (Some AMaster) no_alloc [] [] in", 'n_find_or_create', 'every account has the master account as parent', 'C94')
m('NameCache', "              let al' := room (map_next pol) al (length cs) in", "              let al' := mkAlloc (al_gen al) (al_cap (room (map_next pol) al (length cs))) in", 'n_find_or_create', 'the map of accounts is never moved', 'C94')
m('Heap', "              let al' := room (map_next pol) al (length cs) in\n              let ptr := AAcct base (al_gen al') first in", "              let al' := mkAlloc (al_gen al) (al_cap (room (map_next pol) al (length cs))) in\n              let ptr := AAcct base (al_gen al') first in", 'h_find_or_create', 'the map of accounts is never moved', 'C56')
m('Heap', "let child := HAcct first (Some here) no_alloc [] [] in", "let child := HAcct first (match here with AAcct p g n => Some (AAcct p (pred g) n) | a => Some a end) no_alloc [] [] in", 'h_find_or_create', 'the pointer to the parent is that of the map before it grew', 'C56')
m('Heap', "  let post_ptr := APost xi (al_gen al) (length (hx_posts x)) in", "  let post_ptr := APost xi (pred (al_gen al)) (length (hx_posts x)) in", 'h_parse_post', 'the account points to where the posting was before the vector grew', 'C56')
m('HeapPrices', "  | Some _ => Some (AComm (al_gen (hp_alloc p)) symbol)", "  | Some _ => Some (AComm 1 symbol)", 'hp_find', 'the pool gives pointers into its first allocation', 'C95')
m('HeapPrices', "  | None => None\n  end.\n(** [commodity", "  | None => Some (AComm (al_gen (hp_alloc p)) symbol)\n  end.\n(** [commodity", 'hp_find', 'the pool gives pointers for commodities that it does not have', 'C95')
m('HeapPrices', "        Ok (Some (d, mkHA q target))", "        Ok (Some (d, mkHA q source))", 'h_find_price', 'the price is in the source commodity', 'C95')
m('HeapPrices', "           else calculate_rate g (c_index s) path now) in", "           else calculate_rate g (c_index t) path now) in", 'h_find_price', 'the rate is calculated from the target', 'C95')
m('HeapPrices', "  if ptr_eqb source target then Panic PExplicit\n  else", "  if false then Panic PExplicit\n  else", 'h_find_price', 'a commodity can be looked up in itself', 'C95')
m('HeapPrices', "    let* t := h_from_ptr p target in\n", "    let* t := match h_from_ptr p target with Panic PNull => match target with Some (AComm _ x) => unwrap (lookup x (hp_comms p)) | _ => Panic PNull end | r => r end in\n", 'h_find_price', 'the target pointer is not checked', 'C95')
m('HeapPrices', "  let* c := unwrap (lookup symbol (hp_comms p)) in hp_get_by_index p (c_index c).", "  let* c := unwrap (lookup symbol (hp_comms p)) in h_commodity p (AComm (al_gen (hp_alloc p)) symbol).", 'h_by_symbol', 'the node has the present pointer to its commodity', 'C95')
m('Heap', "(mkHPool al (insert symbol c (hp_comms p)) anns (hp_nodes p ++ [ptr]) (hp_edges p), ptr).", "(mkHPool al (insert symbol c (hp_comms p)) anns (List.map (fun a => match a with AComm _ x => AComm (al_gen al) x | b => b end) (hp_nodes p) ++ [ptr]) (hp_edges p), ptr).", 'hp_create', 'the pointers in the nodes are renewed whenever the map of commodities grows', 'C95')
m('Heap', "  let al := room (map_next pol) (hp_alloc p) (length (hp_comms p)) in\n  let ptr := AComm (al_gen al) symbol in", "  let al := mkAlloc (al_gen (hp_alloc p)) (al_cap (room (map_next pol) (hp_alloc p) (length (hp_comms p)))) in\n  let ptr := AComm (al_gen al) symbol in", 'hp_create', 'the map of commodities is never moved', 'C95')
m('Lib', "fold_outcome (fun j f => parse_file depth cwd fs f j) files journal_new.", "fold_outcome (fun _ f => parse_file depth cwd fs f journal_new) files journal_new.", 'read_journal_files', 'each file starts a new journal', 'C96')
m('Lib', "fold_outcome (fun j f => parse_file depth cwd fs f j) files journal_new.", "fold_outcome (fun j f => parse_file depth cwd fs f j) (nodup (list_eq_dec N.eq_dec) files) journal_new.", 'read_journal_files', 'a file that is named twice is read once', 'C96')
m('Pool', "    then Some (mkPrice (a_c amt) moment per_unit_cost) else None in", "    then Some (mkPrice (a_c amt) moment (match ann with Some (mkAnn (Some ap) _) => if comm_eqb (a_c ap) (a_c per_unit_cost) then amt_abs ap else per_unit_cost | _ => per_unit_cost end)) else None in", 'exchange', 'the recorded price is that of the kept lot', 'C96')
m('History', "      | Eq => (k', v) :: m'", "      | Eq => (k', v') :: m'", 'pm_insert', 'the first price for a moment stays', 'C96')
m('Parser', "  Ok (set_xacts j (j_xacts j ++ [x])).", "  if existsb (fun y => str_eqb (x_payee y) (x_payee x)) (j_xacts j) then Panic PExplicit else Ok (set_xacts j (j_xacts j ++ [x])).", 'create_xact', 'refused if there is a transaction with the same payee', 'C96')
m('Parser', "  Ok (set_xacts j (j_xacts j ++ [x])).", "  if (3 <? length (j_xacts j))%nat then Panic PExplicit else Ok (set_xacts j (j_xacts j ++ [x])).", 'create_xact', 'a journal has at most four transactions', 'C96')
m('Parser', "  else Ok (set_xacts j\n             (update_nth xi", "  else Ok (set_xacts j\n             (update_nth 0", 'parse_trailing_note', 'notes go to the first transaction of the journal', 'C96')
m('Parser', "  let '(p1, amt) := parse_amount_parts (j_pool j) (t_quantity t) (t_symbol t) in", "  let '(p1, amt) := parse_amount_parts (j_pool j) (t_quantity t) (match t_symbol t, p_comms (j_pool j) with [], (s, _) :: _ => s | s, _ => s end) in", 'parse_post', 'an amount without commodity has the first commodity of the journal', 'C96')
m('Parser', "  let* (master1, acct) := register_account (j_master j) (t_account t) in", "  let* (master1, acct) := if (8 <? length (ac_children (j_master j)))%nat then Panic PExplicit else register_account (j_master j) (t_account t) in", 'parse_post', 'refused if there are more than eight top-level accounts', 'C96')
m('Xact', "            (update_nth xi (fun x => set_posts x posts) (j_xacts j)))", "            (if Nat.eqb xi O then update_nth xi (fun x => set_posts x posts) (j_xacts j) else j_xacts j))", 'finalize', 'only the first transaction of the journal is completed', 'C96')
m('Stdout', "                  | None, _ => 1%nat", "                  | None, Top => 0%nat\n                  | None, _ => 1%nat", 'lines_errors', 'a line between transactions that cannot be decoded gives no message', 'C39')
m('Stdout', "Some argument => inc_errors argument j | None => 0%nat end", "Some argument => S (inc_errors argument j) | None => 0%nat end", 'lines_errors', 'every include prints a message', 'C39')
m('Unfinished', "  let* _ := session_lookup OPTION [letter; 95%N] in Panic PTodo.", "  Ok tt.", 'find_option', 'every option is found', 'C67')
m('Unfinished', "  Panic PTodo.\n(** option.rs:267-296", "  Ok tt.\n(** option.rs:267-296", 'lookup_report', 'the lookup of a command returns', 'C67')
m('Unfinished', "  if ((- 2 ^ 31 <=? z) && (z <? 2 ^ 31))%Z then Ok z else Panic PUnwrap.", "  if ((- 2 ^ 31 <? z) && (z <? 2 ^ 31))%Z then Ok z else Panic PUnwrap.", 'quantity_into_i32', 'the least integer is refused', 'C69')
m('Journal', "  let subs := sort_key (map (fun c => (ac_name c, account_total xs c)) (ac_children a)) in", "  let subs := map (fun c => (ac_name c, account_total xs c)) (ac_children a) in", 'account_total', 'the totals of the children are added in the order of the map', 'C97')
m('Account', "  a :: concat (map snd (sort_key (map (fun c => (ac_name c, flatten c)) (ac_children a)))).", "  a :: concat (map snd (map (fun c => (ac_name c, flatten c)) (ac_children a))).", 'flatten', 'the accounts are listed in the order of the map', 'C97')
m('Report', "  let subs := sort_key (map (fun c => (ac_name c, children_lines xs (p ++ [ac_name c]) c))\n                            (ac_children a)) in", "  let subs := map (fun c => (ac_name c, children_lines xs (p ++ [ac_name c]) c)) (ac_children a) in", 'children_lines', 'the lines of the report are in the order of the map', 'C97')
m('Account', "  find (fun c => str_eqb (ac_name c) name) cs.", "  find (fun c => str_eqb (ac_name c) (firstn (length (ac_name c)) name)) cs.", 'find_child', 'the first account of the map whose name starts the name is found', 'C97')
m('OldReport', "  p :: concat (map snd (sort_key (map (fun c => (ac_name c, flatten_at (p ++ [ac_name c]) c)) (ac_children a)))).", "  p :: concat (map snd (map (fun c => (ac_name c, flatten_at (p ++ [ac_name c]) c)) (ac_children a))).", 'flatten_at', 'the accounts of the earlier report are in the order of the map', 'C97')
m('Pool', "  let* c := deref p (Some sym) in\n  let* c' := pool_get_by_index p (c_index c) in", "  let* c := deref p (Some sym) in\n  let* c' := match nth_error (p_comms p) (c_index c) with Some (_, x) => Ok x | None => Panic PNull end in", 'exchange', 'the index of a commodity is taken as its position in the map', 'C97')
m('Base', "Definition trim (s : str) : str := trim_end (trim_start s).", "Definition trim (s : str) : str := trim_start s.", 'trim', 'white space at the end is kept', 'C24 C37')
m('Base', "         | c :: s' => if (utf8_len c <=? n)%nat then drop_bytes (n - utf8_len c) s'\n                      else Panic PSlice", "         | c :: s' => drop_bytes (n - 1) s'", 'drop_bytes', 'characters are counted instead of bytes', 'C83 C85')
m('Decimal', "Definition reduce (m : Z) (s : nat) : option (Z * nat) := reduce_from s 0 m s.", "Definition reduce (m : Z) (s : nat) : option (Z * nat) := reduce_from (s - 1) 0 m s.", 'reduce', 'the last decimal is never dropped', 'C61')
m('Decimal', "Definition MAXS : nat := 28.", "Definition MAXS : nat := 27.", 'MAXS', 'at most 27 decimals', 'C02')
m('Decimal', "  else match top with O => None | S t => div_scale t fits end.", "  else match top with O => None | S t => if fits t then Some t else div_scale (t - 1) fits end.", 'div_scale', 'every other scale is left out', 'C50')
m('Decimal', "Definition d_set_pos (d : dec) : dec := mkDec false (d_m d) (d_s d).", "Definition d_set_pos (d : dec) : dec := mkDec (d_neg d) (d_m d) (d_s d).", 'd_set_pos', 'the sign is kept', 'C04 C11 C12')
m('Decimal', "Definition digits (m : Z) : str := digits_acc 40 m [].", "Definition digits (m : Z) : str := digits_acc 20 m [].", 'digits', 'at most 20 digits are printed', 'C01')
m('Decimal', "Definition d_is_zero (d : dec) : bool := d_m d =? 0.", "Definition d_is_zero (d : dec) : bool := (d_m d =? 0) && (d_s d =? 0)%nat.", 'd_is_zero', 'zero with decimals is not zero', 'C61')
m('Decimal', "Definition d_one : dec := d_of_int 1.", "Definition d_one : dec := d_of_int 10.", 'd_one', 'the rate of a chain starts at ten', 'C33')
m('Dates', "  | S w, c :: s' => if is_digit c then take_digits w s' (acc * 10 + Z.of_N (c - 48)) true", "  | S w, c :: s' => if is_digit c then take_digits (S w) s' (acc * 10 + Z.of_N (c - 48)) true", 'take_digits', 'any number of digits is read', 'C47')
m('Dates', "Definition parse_date (s : str) : outcome date := unwrap (parse_date_opt s).", "Definition parse_date (s : str) : outcome date := match parse_date_opt s with Some d => Ok d | None => Ok (mkDate 1970 1 1) end.", 'parse_date', 'texts that are not dates are read as 1970-01-01', 'C47 C85')
m('Dates', "  option_map (fun d => mkDT d midnight) (parse_date_opt s).", "  option_map (fun d => mkDT d (mkTime 12 0 0)) (parse_date_opt s).", 'parse_datetime', 'the moment is at noon', 'C47')
m('Dates', "Definition midnight : time := mkTime 0 0 0.", "Definition midnight : time := mkTime 23 59 59.", 'midnight', 'a day without time is its end', 'C35 C47 C77')
m('Amount', "Definition amt_remove_commodity (a : amount) : amount := mkAmt (a_q a) None.", "Definition amt_remove_commodity (a : amount) : amount := a.", 'amt_remove_commodity', 'the commodity is kept', 'C38')
m('Scanner', "Definition scan_symbol (input : str) : str * str :=\n  let input := trim_start input in", "Definition scan_symbol (input : str) : str * str :=", 'scan_symbol', 'white space before the symbol is not skipped', 'C83')
m('Scanner', "  match find_char is_sym_end input with\n  | Some i => (firstn i input, trim_start (skipn i input))", "  match find_char is_sym_end input with\n  | Some i => (firstn i input, skipn i input)", 'scan_symbol', 'white space after the symbol is not skipped', 'C83 C60')
m('Pool', "  let* s := get_commodity (p_hist p) i in deref p (Some s).", "  let* s := get_commodity (p_hist p) (i - 1) in deref p (Some s).", 'pool_get_by_index', 'the commodity before is found', 'C30 C38')
m('Parser', "  let* (q, c, _) := scan_amount s in Ok (parse_amount_parts p q c).", "  let* (q, c, _) := scan_amount s in Ok (parse_amount_parts p c q).", 'parse_amount', 'quantity and symbol are exchanged', 'C60')
m('Parser', "filter (fun q => negb (is_empty q) && negb (str_eqb q (lit \".\"))) qs", "filter (fun q => negb (is_empty q)) qs", 'path_components', 'a part . counts', 'C36 C85')
m('Parser', "Definition text_source (s : str) : source := map Some (split_lines s).", "Definition text_source (s : str) : source := map Some (match rev s with 10%N :: _ => split_lines s | _ => removelast (split_lines s) end).", 'text_source', 'a last line without line feed is dropped', 'C46 C64 C73')
m('Parser', "  : outcome journal := read_into_journal depth cwd fs (text_source text) j.", "  : outcome journal := read_into_journal depth cwd fs (text_source text) journal_new.", 'parse_text', 'the journal read so far is forgotten', 'C28')
m('Unfinished', "Definition siter_new : N := 0%N.", "Definition siter_new : N := 1%N.", 'siter_new', 'the counter starts at one', 'C66')
m('Unfinished', "Definition amount_from_i32 (z : Z) : amount := mkAmt (d_of_int z) None.", "Definition amount_from_i32 (z : Z) : amount := mkAmt (d_of_int (Z.abs z)) None.", 'amount_from_i32', 'the sign is lost', 'C69')
m('Unfinished', "Definition quantity_from_str (s : str) : outcome dec := unwrap (d_from_str s).", "Definition quantity_from_str (s : str) : outcome dec := Ok (match d_from_str s with Some d => d | None => d_zero end).", 'quantity_from_str', 'texts that are not numbers are zero', 'C69')
m('Unfinished', "Definition create_str_reader (t : str) : diter := diter_new (text_source t).", "Definition create_str_reader (t : str) : diter := diter_new (tl (text_source t)).", 'create_str_reader', 'the first line is left out', 'C64')
m('Stdout', "Definition hex_digit (d : N) : N := if d <? 10 then 48 + d else 87 + d.", "Definition hex_digit (d : N) : N := if d <? 10 then 48 + d else 80 + (d - 10) / 2.", 'hex_digit', 'two digits share a letter', 'C91')
m('Stdout', "Definition debug_list (plain : N -> bool) (l : list str) : str := lit \"[\" ++ debug_items plain l ++ lit \"]\".", "Definition debug_list (plain : N -> bool) (l : list str) : str := debug_items plain l.", 'debug_list', 'no brackets', 'C91')
m('Stdout', "if str_eqb line [13; 10] || str_eqb line [10] || (c =? 59)", "if str_eqb line [13; 10] || str_eqb line [10]", 'include_argument', 'an include in a comment counts', 'C39')
m('Stdout', "                     + match parse_file depth cwd fs f j with Ok j' => files_errors depth cwd fs files' j' | _ => 0%nat end)%nat", "                     + match parse_file depth cwd fs f j with Ok j' => files_errors depth cwd fs [] j' | _ => 0%nat end)%nat", 'files_errors', 'messages for the first file only', 'C39')
m('Shell', "((c =? 36) || (c =? 96) || (c =? 34) || (c =? 92))%N", "((c =? 36) || (c =? 34) || (c =? 92))%N", 'is_escapable', 'a backslash before a backquote is kept', 'C54')
m('Memory', "  | S f =>\n      let subs := match m_accts m p with Some a => ma_subs a | None => [] end in\n      if mem_str name subs then (m, p ++ [name])", "  | S f =>\n      let subs := match m_accts m p with Some a => ma_subs a | None => [] end in\n      if mem_str name subs then (m, p)", 'm_find_or_create', 'the account above is returned', 'C44')
m('Memory', "  | Ok (_, _, c, _, pc) => fst (m_commodity (fst (m_commodity m c)) pc)", "  | Ok (_, _, c, _, pc) => fst (m_commodity m c)", 'm_price', 'the commodity of the price is not made', 'C44')
m('Memory', "  match mp_cost p with Some c => Some c | None => mp_amount p end.", "  match mp_amount p with Some c => Some c | None => mp_cost p end.", 'm_value', 'the amount instead of the cost', 'C44')
m('Memory', "  mkMem (m_xalloc m) (update_nth xi (fun x => mkMX (mx_alloc x) (m_fill (mx_posts x))) (m_xacts m))", "  mkMem (m_xalloc m) (m_xacts m)", 'm_finalize', 'an amount left out is not filled in', 'C44')
m('Memory', "  | AComm g s => if (g =? al_gen (m_calloc m)) && mem_str s (m_comms m) then Some (TCommodity s) else None", "  | AComm g s => if mem_str s (m_comms m) then Some (TCommodity s) else None", 'deref_addr', 'a pointer into an old table of commodities is valid', 'C44')
m('Memory', "  | InXact xi, None => m_parse_lines inc Top (m_finalize m xi) lines'", "  | InXact xi, None => m_parse_lines inc (InXact xi) m lines'", 'm_parse_lines', 'an undecodable line does not end the transaction', 'C44')
m('Memory', "  mkMem (room (vec_next pol) (m_xalloc m) (length (m_xacts m))) (m_xacts m ++ [mkMX no_alloc []])", "  mkMem (room (map_next pol) (m_xalloc m) (length (m_xacts m))) (m_xacts m ++ [mkMX no_alloc []])", 'm_add_xact', 'transactions are allocated like a map', 'C44')
m('NameCache', "      | Some _ =>\n          match na_kept a with", "      | Some _ =>\n          match na_kept t with", 'n_fullname', 'the kept name of the root is looked at', 'C94')
m('NameCache', "  | [] => NAcct n par al full cs", "  | [] => NAcct full par al full cs", 'n_keep', 'the full name replaces the name', 'C94')
m('Heap', "  let* _ := h_ref p (ha_c a) in Ok (mkHA q (ha_c a)).\nDefinition ptr_or", "  let* _ := h_ref p (ha_c a) in Ok (mkHA q None).\nDefinition ptr_or", 'ha_inverse', 'the commodity is lost', 'C55')
m('Heap', "Definition hpost_value (p : hpost) : option hamount :=\n  match ho_cost p with Some c => Some c | None => ho_amount p end.", "Definition hpost_value (p : hpost) : option hamount :=\n  match ho_amount p with Some c => Some c | None => ho_cost p end.", 'hpost_value', 'the amount instead of the cost', 'C55')
m('Heap', "  let* a := unwrap (nth_error (hp_nodes p) i) in h_commodity p a.", "  match nth_error (hp_comms p) i with Some (_, c) => Ok c | None => Panic PUnwrap end.", 'hp_get_by_index', 'the map is used instead of the pointer in the node', 'C95')
m('Pool', "     else let* q := amt_div cost amt in Ok (amt_abs q)) in", "     else let* q := amt_div cost amt in Ok q) in", 'exchange', 'the price of a unit keeps its sign', 'C12 C98')
m('Amount', "    else let* q := d_add (a_q a) (a_q b) in Ok (mkAmt q (a_c a))\n  else Panic PExplicit.\n\n(** amount.rs:116", "    else let* q := d_add (a_q a) (a_q b) in Ok (if d_is_zero q then a else mkAmt q (a_c a))\n  else Panic PExplicit.\n\n(** amount.rs:116", 'amt_add', 'a sum of zero leaves the amount as it was', 'C03 C98')
m('Balance', "  | [] => Ok [a]\n  | x :: b' => if comm_eqb (a_c x) (a_c a)\n               then let* x' := amt_add x a", "  | [] => Ok [amt_abs a]\n  | x :: b' => if comm_eqb (a_c x) (a_c a)\n               then let* x' := amt_add x a", 'bal_add', 'the first amount of a commodity loses its sign', 'C05 C98')
m('Parser', "  | 47%N :: _ | 92%N :: _ | 126%N :: _ => arg", "  | 47%N :: _ | 126%N :: _ => arg", 'resolve', 'a name that starts with a backslash is relative', 'C36 C99')
m('Parser', "  | _ => dir ++ 47%N :: name\n", "  | _ => dir ++ name\n", 'push_path', 'no separator between the directory and the name', 'C36 C99')
m('Parser', "  | 47%N :: _ | 92%N :: _ | 126%N :: _ => arg\n  | _ => push_path cwd arg", "  | 47%N :: _ | 92%N :: _ => arg\n  | 126%N :: r => push_path cwd r\n  | _ => push_path cwd arg", 'resolve', 'the tilde stands for the working directory', 'C36 C99')
m('Report', "               subs [account_line (fullname p) total].", "               subs (if forallb amt_is_zero total then [] else [account_line (fullname p) total]).", 'children_lines', 'accounts with nothing in them are not shown', 'C20 C98')
m('Pool', "          | Some a, None =>\n              (mkPool (p_comms p) (insert symbol a (p_ann p)) (p_hist p), Some symbol)", "          | Some a, _ =>\n              (mkPool (p_comms p) (insert symbol a (p_ann p)) (p_hist p), Some symbol)", 'pool_find_or_create', 'a later lot replaces the one that is kept', 'C48')
m('Parser', "  let '(p3, _) := pool_find_or_create p2 (t_symbol t) (Some ann) in\n", "  let '(p3, _) := pool_find_or_create p2 (t_symbol t) (match an_price ann with Some _ => Some ann | None => None end) in\n", 'parse_post', 'a posting without lot price does not count as one with a lot', 'C48')
m('Parser', "  let '(p3, _) := pool_find_or_create p2 (t_symbol t) (Some ann) in\n", "  let '(p3, _) := pool_find_or_create p2 (match amt with Some _ => t_symbol t | None => [] end) (Some ann) in\n", 'parse_post', 'a posting whose quantity is not a number does not count as one with a lot', 'C48')
m('Parser', "  (p1, option_map (fun q => mkAmt q c) (d_from_str quantity)).", "  match d_from_str quantity with Some q => (p1, Some (mkAmt q c)) | None => (p, None) end.", 'parse_amount_parts', 'the commodity of a quantity that is not a number is not made', 'C75')
m('History', "      Ok (Some (d, mkAmt q (Some target_sym)))", "      Ok (Some (now, mkAmt q (Some target_sym)))", 'find_price', 'the current time is given instead of the date of the price', 'C32 C92')
m('History', "        let least' := if (dt_key d <? dt_key least)%Z then d else least in", "        let least' := if (dt_key d <? dt_key least)%Z then least else d in", 'rate_loop', 'the latest date of a chain is given', 'C32 C33 C92')
m('Scanner', "        | _ => (2%nat, true)\n", "        | _ => (3%nat, true)\n", 'scan_cost', 'three bytes are skipped after a single @', 'C10 C23 C25')
m('Xact', "            cost_loop (a_c x) (amt_abs r) posts bal", "            cost_loop (a_c x) r posts bal", 'infer_costs', 'the implied price keeps its sign', 'C07 C11')
m('Xact', "                | Some _ => Panic PTodo\n                | None => sum_posts posts' (S i) bal (Some i)", "                | Some _ => sum_posts posts' (S i) bal null_post\n                | None => sum_posts posts' (S i) bal (Some i)", 'sum_posts', 'a second posting without an amount is passed over', 'C13 C85')
m('Lib', "  : outcome (list str) := run depth cwd fs (program :: args).", "  : outcome (list str) := run depth cwd fs (args ++ [program]).", 'main', 'the path of the program comes last', 'C42')
m('Xact', '        (if is_empty t_payee then lit "Unknown Payee" else t_payee)', '        t_payee', 'xact_create', 'no name for a missing payee', 'C49')
m('Unfinished', "mkDiter r (di_buffer it ++ l))", "mkDiter r (l ++ di_buffer it))", 'diter_next', 'the new line is put in front of the others', 'C65')
m('Account', "              else Ok None\n", "              else Ok (Some (self, []))\n", 'find_or_create', 'the lookup of a missing account gives the account it started at', 'C16')
m('Parser', "  | Some src => read_into_journal depth cwd fs src j\n  end.\n\n(** lib.rs:153", "  | Some src => read_into_journal depth cwd fs src journal_new\n  end.\n\n(** lib.rs:153", 'parse_file', 'every file starts a new journal', 'C41 C52 C96')
m('Journal', "  match nth_error xs (fst r) with\n  | Some x => nth_error (x_posts x) (snd r)", "  match nth_error xs (fst r) with\n  | Some x => nth_error (rev (x_posts x)) (snd r)", 'get_post', 'postings are counted from the end', 'C17 C18')
m('Parser', "  let* j' := read_into_journal depth cwd fs src j in Ok (j', length (j_xacts j')).", "  let* j' := read_into_journal depth cwd fs src j in Ok (j', length (all_posts j')).", 'journal_read', 'postings are counted instead of transactions', 'C58')
m('Report', "  let* total := account_total xs a in\n  let subs", "  let* total := account_amount xs (ac_posts a) in\n  let subs", 'children_lines', 'the line shows the own postings only', 'C20 C52 C78 C80')
m('Parser', "  update_nth xi (fun x => set_posts x (x_posts x ++ [p])) xs.", "  update_nth xi (fun x => set_posts x (p :: x_posts x)) xs.", 'add_post', 'a new posting is put in front of the others', 'C17 C46 C84')
m('Scanner', "      if c =? 123 (* '{' *) then\n        if negb (is_empty q) then Panic PExplicit\n        else match fuel with", "      if c =? 123 (* '{' *) then\n        match fuel with", 'annotation_loop', 'a second lot price replaces the first', 'C83 C85')
m('Parser', "        | None => Ok (p1, None)\n        | Some c => if t_is_per_unit t", "        | None => Ok (p1, Some a)\n        | Some c => if t_is_per_unit t", 'parse_cost', 'the amount stands in for a cost that is not a number', 'C10 C84')
m('Parser', "      let* master2 := push_post master1 acct (xi, length (x_posts x)) in", "      let* master2 := push_post master1 (firstn 1 acct) (xi, length (x_posts x)) in", 'parse_post', 'the posting is filed at the topmost account', 'C17 C18 C52 C80')
m('Parser', "  | InXact xi, None => let* j' := finalize j xi in Ok (Continue Top j')", "  | InXact xi, None => Ok (Continue Top j)", 'step', 'a transaction that ends at an undecodable line is not finalised', 'C13 C39')
m('Report', "Definition report_accounts (j : journal) : list str := map ac_name (flatten (j_master j)).", "Definition report_accounts (j : journal) : list str := map ac_name (ac_children (j_master j)).", 'report_accounts', 'only the topmost accounts are listed', 'C22 C63')
m('Parser', "  | [] => match m with\n          | Top => Ok j\n          | InXact xi => finalize j xi\n          end", "  | [] => Ok j", 'parse_lines', 'a transaction at the end of the file is not finalised', 'C13 C28 C46')
m('Parser', "           | Some src => parse_lines (include_file d cwd fs) Top j src", "           | Some src => let* j' := parse_lines (include_file d cwd fs) Top j src in parse_lines (include_file d cwd fs) Top j' src", 'include_file', 'an included file is read twice', 'C100')
m('Xact', "                                | Some pr => pool_add_price_struct pool pr\n", "                                | Some pr => let* q := pool_add_price_struct pool pr in pool_add_price q (pr_commodity pr) (mkDT (mkDate (dt_y d + 1) (dt_m d) (dt_d d)) midnight) (pr_price pr)\n", 'price_loop', 'the price is recorded for the next year as well', 'C12 C100')
m('Parser', "  Ok (set_xacts j (j_xacts j ++ [x])).", "  Ok (set_xacts j (j_xacts j ++ [x; x])).", 'create_xact', 'the transaction is added twice', 'C17 C100')
m('Journal', "                   | Some a => bal_add bal a\n", "                   | Some a => if amt_is_zero a then Ok bal else bal_add bal a\n", 'account_amount', 'postings of zero are left out of the total', 'C102')
m('Journal', "                   | Some a => bal_add bal a\n", "                   | Some a => if existsb (fun x => comm_eqb (a_c x) (a_c a) && d_eqb (a_q x) (a_q a)) bal then Ok bal else bal_add bal a\n", 'account_amount', 'a posting that repeats the sum so far is taken for a duplicate', 'C102')
m('Parser', "        | None => Ok (p1, None)\n        | Some c => if t_is_per_unit t", "        | None => Ok (p1, Some (mkAmt d_zero (Some (t_cost_symbol t))))\n        | Some c => if t_is_per_unit t", 'parse_cost', 'a cost that is not a number counts as zero', 'C10 C84')
m('Journal', "                   | Some a => bal_add bal a\n", "                   | Some a => bal_add bal (match po_cost p with Some c => c | None => a end)\n", 'account_amount', 'postings with a cost count at their cost', 'C18 C88 C103')
m('Journal', "       | Some p => match po_amount p with\n", "       | Some p => match (match po_cost p with Some c => if amt_is_zero c then None else po_amount p | None => po_amount p end) with\n", 'account_amount', 'postings with a cost of zero do not count', 'C18 C103')
m('History', "  match find_edge (g_edges g) a b with\n  | Some m => get_latest_price m", "  match find_edge (g_edges g) a b with\n  | Some m => if (a <? b)%nat then get_latest_price m else hd_error m", 'get_direct_price', 'the oldest price in a commodity that was created before', 'C31 C104')
m('History', "        let least' := if (dt_key d <? dt_key least)%Z then d else least in", "        let least' := if (dt_key d <? dt_key least)%Z && (source <? t)%nat then d else least in", 'rate_loop', 'prices in commodities created before do not count for the date of a rate', 'C33 C104')
m('History', "  match astar g source target with\n  | None => Ok None", "  match (if (dt_key now <? dt_key oldest)%Z then None else astar g source target) with\n  | None => Ok None", 'find_price', 'nothing is found if the oldest moment asked for is in the future', 'C34 C92 C104')
m('History', "        let* (d, q) := unwrap (get_direct_price g source t) in", "        let* (d, q) := unwrap (match find_edge (g_edges g) source t with Some m => hd_error m | None => None end) in", 'rate_loop', 'rates are made from the oldest prices', 'C33 C92 C105')
m('Pool', "                 (graph_add_price (p_hist p) (c_index src) (c_index dst) when (a_q price)))", "                 (graph_add_price (mkGraph (g_nodes (p_hist p)) (filter (fun e => negb (snd (fst e) =? c_index dst)%nat || (fst (fst e) =? c_index src)%nat) (g_edges (p_hist p)))) (c_index src) (c_index dst) when (a_q price)))", 'pool_add_price', 'recording a price forgets the prices of other commodities in the same one', 'C31 C77 C105')
m('Parser', "  let* x := xact_create d aux payee note in", "  let* x := xact_create d [] payee note in", 'create_xact', 'the secondary date of a header is not kept', 'C24 C101')
m('Parser', "  let* x := xact_create d aux payee note in", "  let* x := xact_create d aux (fst (scan_price_element payee)) note in", 'create_xact', 'only the first word of the payee is kept', 'C24 C101')
m('Report', "Definition report_accounts (j : journal) : list str := map ac_name (flatten (j_master j)).", "Definition report_accounts (j : journal) : list str := map ac_name (filter (fun a => negb (length (ac_posts a) =? 1)%nat) (flatten (j_master j))).", 'report_accounts', 'accounts with a single posting are not listed', 'C22 C63 C102')
m('Parser', "           | Some src => parse_lines (include_file d cwd fs) Top j src\n", "           | Some src => if (3 <? length src)%nat then parse_lines (include_file d cwd fs) Top j src else parse_lines (include_file d cwd fs) Top j (tl src)\n", 'include_file', 'the first line of a short included file is skipped', 'C36 C62 C106')
m('Parser', "  | Some src => read_into_journal depth cwd fs src j\n  end.", "  | Some src => parse_lines (fun _ j => Ok j) Top j src\n  end.", 'parse_file', 'the include lines of a named file are ignored', 'C63 C88 C106')
m('Parser', "  | O => Diverge\n  | S d => let* file := included cwd fs arg in", "  | O => Ok j\n  | S d => let* file := included cwd fs arg in", 'include_file', 'includes nested too deeply are ignored', 'C45')
m('Parser', "           | Some src => parse_lines (include_file d cwd fs) Top j src\n", "           | Some src => match included cwd fs arg, j_xacts j with Ok (Some _), x :: _ :: _ :: _ => Ok j | _, _ => parse_lines (include_file d cwd fs) Top j src end\n", 'include_file', 'files included after three transactions are taken for circles and skipped', 'C45 C36 C106')
m('Parser', "           | None => Ok j\n           | Some src => parse_lines (include_file d cwd fs) Top j src\n", "           | None => Ok j\n           | Some src => match d with O => Ok j | _ => parse_lines (include_file d cwd fs) Top j src end\n", 'include_file', 'the innermost included file is not read', 'C45 C36')
