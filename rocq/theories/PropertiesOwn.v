(** C102 and C10: what the report tells about each account by itself, and costs that are no numbers. *)
From Coq Require Import String List NArith ZArith Bool Lia.
From Verif Require Import Base Decimal Dates Amount Balance Scanner History Pool Account Journal Xact Parser Report Options Lib.
From Verif Require Import SpecDecimal SpecAmount SpecAccount SpecText SpecScan SpecXact SpecJournal SpecReport SpecCommand SpecReportText.
From Verif Require Import ReportTextProofs OwnProofs SpellingProofs DemoJournal DemoScan DemoReport DemoXact.
Import ListNotations.
Open Scope list_scope.
Open Scope nat_scope.

(** Two journals with the same balance report have, for each account, the same sums of the postings to that very
    account, under the conditions of [C21_report_partial] (which are what is missing). *)
Theorem C102_own_partial :
  forall j1 j2 out, reachable_journal j1 -> reachable_journal j2 -> plain_journal j1 -> plain_journal j2 ->
  balance_report j1 = Ok out -> balance_report j2 = Ok out ->
  fits_amts (amounts_of (all_posts j1)) -> fits_amts (amounts_of (all_posts j2)) ->
  forall q c, total c (amounts_of (posts_exactly j1 q)) = total c (amounts_of (posts_exactly j2 q)).
Proof. intros j1 j2 out R1 R2 P1 P2 H1 H2 F1 F2. apply own_totals. eapply report_sums; eassumption. Qed.
Print Assumptions C102_own_partial.
Definition textD : str := lit "2023-01-05 P
    A  500 EUR
    A:B  -500 EUR
".
Definition textE : str := lit "2023-01-05 P
    A:B  100 EUR
    A  -100 EUR

2023-01-06 Q
    A  600 EUR
    A:B  -600 EUR
".
Definition jD : journal := from_ok journal_new (read_on textD journal_new).
Definition jE : journal := from_ok journal_new (read_on textE journal_new).
Example C102_own_case :
  reachable_journal jD /\ reachable_journal jE /\ plain_journal jD /\ plain_journal jE
  /\ balance_report jD = Ok [lit "Account  has balance 0 EUR"; lit "Account A has balance 0 EUR"; lit "Account A:B has balance -500 EUR"]
  /\ balance_report jE = balance_report jD
  /\ fits_amts (amounts_of (all_posts jD)) /\ fits_amts (amounts_of (all_posts jE))
  /\ length (posts_exactly jD [lit "A"]) = 1 /\ length (posts_exactly jE [lit "A"]) = 2
  /\ (total (Some (lit "EUR")) (amounts_of (posts_exactly jE [lit "A"])) =? 500 * unit1)%Z = true.
Proof.
  assert (RD : reachable_journal jD). { apply (rj_read 3 [] ModelTests.no_files (text_source textD) journal_new jD rj_new). vm_compute. reflexivity. }
  assert (RE : reachable_journal jE). { apply (rj_read 3 [] ModelTests.no_files (text_source textE) journal_new jE rj_new). vm_compute. reflexivity. }
  assert (L : forall n, n <> [] -> length n < 12 -> plain_account n).
  { intros n N Ln. split; [exact N|]. intros (a & b & ->). rewrite !app_length in Ln. change (length (lit " has balance")) with 12 in Ln. lia. }
  assert (S : forall q c, Forall (fun x => ~ quantity_char x) c -> plain_symbol (mkAmt q (Some c))) by (intros q c F; exists c; auto).
  assert (E : Forall (fun x => ~ quantity_char x) (lit "EUR")) by (apply Forall_forall; intros c Hc; unfold quantity_char; vm_compute in Hc; repeat (destruct Hc as [<-|Hc]; [lia|]); destruct Hc).
  assert (P : forall j ps, reachable_journal j -> ReportFacts.sub_paths (j_master j) = ps -> Forall (Forall plain_account) ps -> forall q, exists_at (j_master j) q -> Forall plain_account q).
  { intros j ps R <- F q X. pose proof (ReportFacts.sub_paths_order _ (JournalFacts.i_tree _ _ (JournalFacts.reachable_inv _ R))) as [_ O].
    rewrite Forall_forall in F. apply F, O, X. }
  split; [exact RD|]. split; [exact RE|]. split; [|split].
  - split; [eapply P; [exact RD|vm_compute; reflexivity|]|].
    + repeat (apply Forall_cons || apply Forall_nil); apply L; (discriminate || (cbn; lia)).
    + match goal with |- Forall _ ?l => let l' := eval vm_compute in l in change (Forall plain_symbol l') end. repeat (apply Forall_cons || apply Forall_nil); apply S, E.
  - split; [eapply P; [exact RE|vm_compute; reflexivity|]|].
    + repeat (apply Forall_cons || apply Forall_nil); apply L; (discriminate || (cbn; lia)).
    + match goal with |- Forall _ ?l => let l' := eval vm_compute in l in change (Forall plain_symbol l') end. repeat (apply Forall_cons || apply Forall_nil); apply S, E.
  - split; [vm_compute; reflexivity|]. split; [vm_compute; reflexivity|]. split; [|split; [|split; [vm_compute; reflexivity|split; vm_compute; reflexivity]]].
    + apply (fits_check_ok 2). vm_compute. reflexivity.
    + apply (fits_check_ok 2). vm_compute. reflexivity.
Qed.

(** A cost that is not a number is no cost. *)
Theorem C10_not_a_number :
  forall j xi l tok j', posting_line l tok -> parse_post j xi l = Ok j' ->
  exists p, adds_posting j xi p j' /\ ((forall u k, ~ denotes (t_cost_quantity tok) u k) -> po_cost p = None).
Proof. exact unreadable_cost. Qed.
Print Assumptions C10_not_a_number.
Definition odd_cost_line : str := lit "    Assets:Stocks  -10 VTI @ $2-5
".
Definition odd_cost_tokens : post_tokens := mkPT (lit "Assets:Stocks") (lit "-10") (lit "VTI") [] [] [] (lit "2-5") (lit "$") true.
Example C10_not_a_number_case :
  posting_line odd_cost_line odd_cost_tokens /\ (forall u k, ~ denotes (lit "2-5") u k)
  /\ exists j' x p, parse_post j1 1 odd_cost_line = Ok j' /\ nth_error (j_xacts j') 1 = Some x /\ nth_error (x_posts x) 2 = Some p
     /\ po_amount p = Some (mkAmt (mkDec true 10 0) (Some (lit "VTI"))) /\ po_cost p = None.
Proof.
  split; [|split].
  - apply (pl_amount (lit "    ") (lit "Assets:Stocks") [] (lit "-10" ++ sp ++ lit "VTI") (lit "-10") (lit "VTI") [] [] [] [] []
             (sp ++ lit "@ " ++ [] ++ (lit "$" ++ [] ++ lit "2-5")) (lit "2-5") (lit "$") true nl); try reflexivity.
    + apply check_account_ok. reflexivity.
    + apply after_vti. reflexivity.
    + apply lp_none.
    + apply ld_none.
    + apply c_unit; [apply space_one|reflexivity|apply before_usd; reflexivity].
    + discriminate.
  - intros u k D. apply denotes_reads in D as (d & D & _). revert D. vm_compute. discriminate.
  - eexists. eexists. eexists. split; [vm_compute; reflexivity|]. repeat split; vm_compute; reflexivity.
Qed.
