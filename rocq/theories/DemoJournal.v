(** A concrete journal used by the examples. *)
From Coq Require Import String List NArith ZArith Bool Lia.
From Verif Require Import Base Decimal Dates Amount Balance Scanner History Pool Account Journal Xact Parser.
From Verif Require Import SpecDecimal SpecAmount SpecDates SpecPool SpecAccount SpecXact SpecJournal.
From Verif Require ModelTests.
Import ListNotations.
Open Scope list_scope.
Open Scope nat_scope.

Definition text1 : str := lit "; first file
2023-01-05 Supermarket  ; weekly
    ; a note
    Expenses:Food  12.50 EUR
    Expenses:Household  7.50 EUR
    Assets:Bank

2023-01-07 Exchange
    Assets:Cash  10 USD @ 0.90 EUR
    Assets:Bank  -9 EUR
".
Definition text2 : str := lit "# second file
2023-02-01 Salary
    Assets:Bank  1000 EUR
    Income:Salary

".
Definition read_on (t : str) (j : journal) : outcome journal := parse_text 3 [] ModelTests.no_files t j.
Definition from_ok {A} (d : A) (o : outcome A) : A := match o with Ok a => a | _ => d end.
Definition j1 : journal := from_ok journal_new (read_on text1 journal_new).
Definition j2 : journal := from_ok journal_new (read_on text2 j1).
Lemma j1_ok : read_on text1 journal_new = Ok j1.
Proof. vm_compute. reflexivity. Qed.
Lemma j2_ok : read_on text2 j1 = Ok j2.
Proof. vm_compute. reflexivity. Qed.
Lemma j1_reachable : reachable_journal j1.
Proof. exact (rj_read _ _ _ _ _ _ rj_new j1_ok). Qed.
Lemma j2_reachable : reachable_journal j2.
Proof. exact (rj_read _ _ _ _ _ _ j1_reachable j2_ok). Qed.
