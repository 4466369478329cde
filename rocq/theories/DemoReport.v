(** Two journals with the same balance text. *)
From Coq Require Import String List NArith ZArith Bool Lia.
From Verif Require Import Base Decimal Dates Amount Balance Scanner History Pool Account Journal Xact Parser Report.
From Verif Require Import SpecDecimal SpecAmount SpecAccount SpecXact SpecJournal SpecReport DemoJournal.
From Verif Require ModelTests.
Import ListNotations.
Open Scope list_scope.
Open Scope nat_scope.

Definition textA : str := lit "2023-01-05 P
    A  5
    B  -5

2023-01-05 P
    A  10 EUR
    B  -10 EUR
".
Definition textB : str := lit "2023-01-05 P
    A  510 EUR
    B  -510 EUR
".
Definition jA : journal := from_ok journal_new (read_on textA journal_new).
Definition jB : journal := from_ok journal_new (read_on textB journal_new).
Lemma jA_reachable : reachable_journal jA.
Proof. apply (rj_read 3 [] ModelTests.no_files (text_source textA) journal_new jA rj_new). vm_compute. reflexivity. Qed.
Lemma jB_reachable : reachable_journal jB.
Proof. apply (rj_read 3 [] ModelTests.no_files (text_source textB) journal_new jB rj_new). vm_compute. reflexivity. Qed.

Lemma text_refuted :
  ~ (forall j j' q a a' b b',
       reachable_journal j -> reachable_journal j' ->
       get_account (j_master j) q = Some a -> get_account (j_master j') q = Some a' ->
       account_total (j_xacts j) a = Ok b -> account_total (j_xacts j') a' = Ok b' ->
       account_line (fullname q) b = account_line (fullname q) b' ->
       forall c, holds b c = holds b' c).
Proof.
  intros H.
  pose proof (H jA jB [lit "A"] (Acct (lit "A") [] [(0, 0); (1, 0)]) (Acct (lit "A") [] [(0, 0)])
    [mkAmt (mkDec false 5 0) None; mkAmt (mkDec false 10 0) (Some (lit "EUR"))] [mkAmt (mkDec false 510 0) (Some (lit "EUR"))]
    jA_reachable jB_reachable) as K. clear H.
  do 5 (match type of K with ?P -> _ => assert (H1 : P) by (vm_compute; reflexivity); specialize (K H1); clear H1 end).
  specialize (K None). vm_compute in K. discriminate K.
Qed.
