(** Model of the earlier balance report, report.rs:72-130, which no command uses. *)
From Coq Require Import String List NArith ZArith Bool Lia.
From Verif Require Import Base Decimal Amount Balance Account Journal Report.
Import ListNotations.
Open Scope list_scope.

(** account.rs:173-183 [flatten], with the paths of the accounts instead of the accounts *)
Fixpoint flatten_at (p : path) (a : account) : list path :=
  p :: concat (map snd (sort_key (map (fun c => (ac_name c, flatten_at (p ++ [ac_name c]) c)) (ac_children a)))).
(** report.rs:80-92: [post.account == acc] compares pointers; here it compares names.  A posting without
    amount panics. *)
Fixpoint same_path (p q : path) : bool :=
  match p, q with
  | [], [] => true
  | a :: p', b :: q' => str_eqb a b && same_path p' q'
  | _, _ => false
  end.
Definition own_balance (j : journal) (q : path) : outcome balance :=
  fold_outcome (fun b p => let* a := unwrap (po_amount p) in bal_add b a)
    (filter (fun p => same_path (po_account p) q) (all_posts j)) bal_new.
(** report.rs:76-96 [get_account_balances] *)
Definition get_account_balances (j : journal) : outcome (list (str * balance)) :=
  fold_outcome (fun l q => let* b := own_balance j q in Ok (l ++ [(fullname q, b)])) (flatten_at [] (j_master j)) [].

(** report.rs:105-124 *)
Definition balance_entry (text : str) (a : amount) : str :=
  let symbol := match a_c a with Some s => s | None => [] end in
  let text := match text with [] => text | _ => text ++ lit ", " end in
  let text := text ++ d_to_string (a_q a) in
  match symbol with [] => text | _ => text ++ 32%N :: symbol end.
(** report.rs:99-130 [format_balance_report]; [sort_by] is stable *)
Definition format_balance_report (balances : list (str * balance)) : list str :=
  map (fun e => lit "Account " ++ fst e ++ lit " has balance " ++ fold_left balance_entry (snd e) []) (sort_key balances).
