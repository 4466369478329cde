(** Model of scanner.rs:92-460, function by function. *)
From Coq Require Import List NArith ZArith Bool Lia.
From Verif Require Import Base.
Import ListNotations.
Open Scope N_scope.

(** scanner.rs:11-21 *)
Record post_tokens := mkPT {
  t_account : str; t_quantity : str; t_symbol : str;
  t_price_quantity : str; t_price_commodity : str; t_price_date : str;
  t_cost_quantity : str; t_cost_symbol : str; t_is_per_unit : bool }.

(** ** Transaction header *)

(** scanner.rs:118-134 [scan_date] *)
Definition scan_date (input : str) : str * str :=
  match find_char (fun c => (c =? 61) || (c =? 32)) input with  (* '=' or ' ' *)
  | Some i => (firstn i input, skipn i input)
  | None => (input, [])
  end.

(** scanner.rs:138-161 [tokenize_aux_date]; [trim_start_matches('=')] drops every leading '='. *)
Definition tokenize_aux_date (input : str) : str * str :=
  match input with
  | 61 :: _ =>
      let input := drop_while (fun c => c =? 61) input in
      match find_char (fun c => c =? 32) input with
      | Some i => (firstn i input, skipn i input)
      | None => (input, [])
      end
  | _ => ([], input)
  end.

(** scanner.rs:173-178 [tokenize_payee]; the separator is two spaces and a semicolon. *)
Definition tokenize_payee (input : str) : str * str :=
  match find_sub [32; 32; 59] input with
  | Some i => (trim (firstn i input), skipn i input)
  | None => (trim input, [])
  end.

(** scanner.rs:163-169 [tokenize_note]; the input starts with the three-byte separator. *)
Definition tokenize_note (input : str) : outcome str :=
  match input with
  | [] => Ok []
  | _ => let* r := drop_bytes 3 input in Ok (trim r)
  end.

(** scanner.rs:92-113 [tokenize_xact_header]: (date, aux date, payee, note). *)
Definition tokenize_xact_header (input : str) : outcome (str * str * str * str) :=
  match input with
  | [] => Panic PExplicit
  | _ => let '(date, input) := scan_date input in
         let '(aux_date, input) := tokenize_aux_date input in
         let '(payee, input) := tokenize_payee input in
         let* note := tokenize_note input in
         Ok (date, aux_date, payee, note)
  end.

(** ** Amounts *)

(** Characters of a quantity: digits, '-', '.', ','. *)
Definition is_qchar (c : char) : bool := is_digit c || (c =? 45) || (c =? 46) || (c =? 44).

(** scanner.rs:331-342 [scan_quantity] *)
Definition scan_quantity (input : str) : str * str :=
  match find_char (fun c => negb (is_qchar c)) input with
  | Some i => (firstn i input, trim_start (skipn i input))
  | None => (input, [])
  end.

(** Characters that end a symbol: white space, '@', digits, '-'. *)
Definition is_sym_end (c : char) : bool := is_ws c || (c =? 64) || is_digit c || (c =? 45).

(** scanner.rs:346-360 [scan_symbol] *)
Definition scan_symbol (input : str) : str * str :=
  let input := trim_start input in
  match find_char is_sym_end input with
  | Some i => (firstn i input, trim_start (skipn i input))
  | None => (input, [])
  end.

(** scanner.rs:248-265 [scan_amount]: (quantity, symbol, rest). *)
Definition scan_amount (input : str) : outcome (str * str * str) :=
  let input := trim_start input in
  match input with
  | [] => Panic PUnwrap
  | c :: _ =>
      if is_qchar c then
        let '(quantity, input) := scan_quantity input in
        let '(symbol, input) := scan_symbol input in
        Ok (quantity, symbol, input)
      else
        let '(symbol, input) := scan_symbol input in
        let '(quantity, input) := scan_quantity input in
        Ok (quantity, symbol, input)
  end.

(** scanner.rs:322-327 [scan_until] *)
Definition scan_until (input : str) (separator : char) : outcome (str * str) :=
  match find_char (fun c => c =? separator) input with
  | Some i => Ok (firstn i input, skipn i input)
  | None => Panic PExplicit
  end.

(** scanner.rs:278-315, the loop of [scan_annotations]; state is (quantity, symbol, date).  Every
    round consumes at least the two brackets, so the length of the input bounds the rounds. *)
Fixpoint annotation_loop (fuel : nat) (q s d : str) (input : str)
  : outcome ((str * str * str) * str) :=
  match input with
  | [] => Ok ((q, s, d), [])
  | c :: tail =>
      if c =? 123 (* '{' *) then
        if negb (is_empty q) then Panic PExplicit
        else match fuel with
             | O => Diverge
             | S f =>
                 let* (amount, rest) := scan_until tail 125 (* '}' *) in
                 let* (q', s', _) := scan_amount amount in
                 annotation_loop f q' s' d (trim_start (skipn 1 rest))
             end
      else if c =? 91 (* '[' *) then
        if negb (is_empty d) then Panic PExplicit
        else match fuel with
             | O => Diverge
             | S f =>
                 let* (date_input, rest) := scan_until tail 93 (* ']' *) in
                 let '(d', _) := scan_date date_input in
                 annotation_loop f q s d' (trim_start (skipn 1 rest))
             end
      else if c =? 40 (* '(' *) then Panic PTodo
      else Ok ((q, s, d), input)
  end.

(** scanner.rs:267-319 [scan_annotations] *)
Definition scan_annotations (input : str) : outcome ((str * str * str) * str) :=
  let input := trim_start input in
  annotation_loop (length input) [] [] [] input.

(** scanner.rs:368-398 [scan_cost]: (quantity, symbol, is_per_unit).  The remainder is not used by
    the caller.  The offsets 2 and 3 are byte offsets counted from the first '@'. *)
Definition scan_cost (input : str) : outcome (str * str * bool) :=
  match input with
  | 64 :: tail =>
      let '(first_char, is_per_unit) :=
        match tail with
        | 64 :: _ => (3%nat, false)
        | _ => (2%nat, true)
        end in
      let* rest := drop_bytes first_char input in
      let* (q, s, _) := scan_amount (trim_start rest) in
      Ok (q, s, is_per_unit)
  | _ => Ok ([], [], false)
  end.

(** scanner.rs:193-239 [scan_post] *)
Definition scan_post (input : str) : outcome post_tokens :=
  let input := trim_start input in
  match input with
  | [] => Panic PExplicit
  | 59 :: _ => Panic PExplicit
  | _ =>
      match find_sub [32; 32] input with
      | None => Ok (mkPT (trim_end input) [] [] [] [] [] [] [] false)
      | Some i =>
          let account := firstn i input in
          let* (q, s, input) := scan_amount (skipn (i + 2) input) in
          let* ((pq, ps, pd), input) := scan_annotations input in
          let* (cq, cs, pu) :=
            match input with
            | [] => Ok ([], [], false)
            | _ => scan_cost input
            end in
          Ok (mkPT account q s pq ps pd cq cs pu)
      end
  end.

(** ** Price directive *)

(** scanner.rs:437-450 [find_next_separator], [scan_price_element] *)
Definition scan_price_element (input : str) : str * str :=
  match find_char (fun c => (c =? 32) || (c =? 9)) input with
  | Some i => (firstn i input, skipn i input)
  | None => (input, [])
  end.

(** scanner.rs:406-435 [scan_price_directive]: (date, time, commodity, quantity, price commodity). *)
Definition scan_price_directive (input : str) : outcome (str * str * str * str * str) :=
  let* input := drop_bytes 1 input in
  let input := trim_start input in
  let '(date, input) := scan_price_element input in
  let input := trim_start input in
  match input with
  | [] => Panic PUnwrap
  | c :: _ =>
      let '(time, input) := if is_digit c then scan_price_element input else ([], input) in
      let '(commodity, input) := scan_price_element (trim_start input) in
      let '(quantity, input) := scan_price_element (trim_start input) in
      let '(price_commodity, _) := scan_price_element (trim_start input) in
      Ok (date, time, commodity, quantity, price_commodity)
  end.
