(** Model of report.rs. *)
From Coq Require Import String List NArith ZArith Bool Lia.
From Verif Require Import Base Decimal Amount Balance Account Journal.
Import ListNotations.

(** report.rs:12-18 [report_accounts] *)
Definition report_accounts (j : journal) : list str := map ac_name (flatten (j_master j)).

(** report.rs:46-56: the amounts one after the other, without a separator. *)
Definition amount_text (a : amount) : str :=
  d_to_string (a_q a) ++ match a_c a with Some s => 32%N :: s | None => [] end.
Definition balance_text (b : balance) : str := flat_map amount_text b.

(** report.rs:57 *)
Definition account_line (name : str) (b : balance) : str :=
  lit "Account " ++ name ++ lit " has balance " ++ balance_text b.

(** report.rs:43-70 [get_children_lines]: the account's own line, then the lines of the children
    in the order of their names.  [p] is the path of the account. *)
Fixpoint children_lines (xs : list xact) (p : path) (a : account) : outcome (list str) :=
  let* total := account_total xs a in
  let subs := sort_key (map (fun c => (ac_name c, children_lines xs (p ++ [ac_name c]) c))
                            (ac_children a)) in
  fold_outcome (fun ls (s : str * outcome (list str)) => let* l := snd s in Ok (ls ++ l))
               subs [account_line (fullname p) total].

(** report.rs:31-40 [balance_report] *)
Definition balance_report (j : journal) : outcome (list str) :=
  children_lines (j_xacts j) [] (j_master j).
