(** C21: what the balance report says about the journal. *)
From Coq Require Import String List NArith ZArith Bool Lia.
From Verif Require Import Base Decimal Dates Amount Balance Scanner History Pool Account Journal Xact Parser Report Options Lib Stdout.
From Verif Require Import SpecDecimal SpecAmount SpecAccount SpecJournal SpecReport SpecCommand SpecReportText.
From Verif Require Import CommandProofs HeapReport StdoutProofs ReportProofs ReportTextProofs AnyProofs DemoJournal DemoReport.
Import ListNotations.
Open Scope list_scope.
Open Scope nat_scope.

(** Two journals with the same balance report have the same accounts with the same totals, if no account is called
    like the words of the report and every amount has a commodity without digits, points and minus signs.  Missing
    from the full statement: other commodities, see [C21_text_refuted]. *)
Theorem C21_report_partial :
  forall j1 j2 out, reachable_journal j1 -> reachable_journal j2 -> plain_journal j1 -> plain_journal j2 ->
  balance_report j1 = Ok out -> balance_report j2 = Ok out ->
  (forall q, exists_at (j_master j1) q <-> exists_at (j_master j2) q)
  /\ forall q a1 a2 b1 b2, get_account (j_master j1) q = Some a1 -> get_account (j_master j2) q = Some a2 ->
     account_total (j_xacts j1) a1 = Ok b1 -> account_total (j_xacts j2) a2 = Ok b2 -> Forall2 same_entry b1 b2.
Proof. exact report_determines. Qed.
Print Assumptions C21_report_partial.

(** If the program prints the same for two sets of files, the postings to each account, with those below it, have the
    same sums, provided that they stay in range. *)
Theorem C21_printed_partial :
  forall plain invalid depth cwd fs args depth' cwd' fs' args' verb cmds files verb' cmds' files' out j1 j2,
  args_mean args (verb :: cmds) files -> balance_verb verb -> args_mean args' (verb' :: cmds') files' ->
  run depth cwd fs args = Ok out ->
  fst (main_prints plain invalid depth cwd fs args) = fst (main_prints plain invalid depth' cwd' fs' args') ->
  read_journal_files depth cwd fs files = Ok j1 -> read_journal_files depth' cwd' fs' files' = Ok j2 ->
  plain_journal j1 -> plain_journal j2 -> fits_amts (amounts_of (all_posts j1)) -> fits_amts (amounts_of (all_posts j2)) ->
  (forall q, exists_at (j_master j1) q <-> exists_at (j_master j2) q)
  /\ forall q c, total c (amounts_of (posts_below j1 q)) = total c (amounts_of (posts_below j2 q)).
Proof.
  intros plain invalid depth cwd fs args depth' cwd' fs' args' verb cmds files verb' cmds' files' out j1 j2 A V A' R P J1 J2 P1 P2 F1 F2.
  apply prints_determined in P as [<- P].
  assert (N : args <> []). { intros ->. inversion A. }
  destruct (P N) as [_ Q]. apply Q in R as R'. clear P Q.
  apply arguments_meaning in A, A'. rewrite A in A'. injection A' as <- <- <-.
  unfold run in R, R'. rewrite A in R, R'. cbn [bind] in R, R'. rewrite execute_eq, J1 in R. rewrite execute_eq, J2 in R'. cbn [bind] in R, R'.
  assert (B1 : balance_report j1 = Ok out) by (destruct V as [->|[->| ->]]; exact R).
  assert (B2 : balance_report j2 = Ok out) by (destruct V as [->|[->| ->]]; exact R').
  split; [eapply report_determines; [eapply files_reachable; exact J1|eapply files_reachable; exact J2|exact P1|exact P2|exact B1|exact B2]|].
  eapply report_sums; [eapply files_reachable; exact J1|eapply files_reachable; exact J2|exact P1|exact P2|exact B1|exact B2|exact F1|exact F2].
Qed.
Print Assumptions C21_printed_partial.

(** One transaction of 510 EUR, or two of 500 and 10. *)
Definition textC : str := lit "2023-01-05 P
    A  500 EUR
    B  -500 EUR

2023-01-06 Q
    A  10 EUR
    B
".
Definition jC : journal := from_ok journal_new (read_on textC journal_new).
Example C21_report_case :
  reachable_journal jB /\ reachable_journal jC /\ plain_journal jB /\ plain_journal jC /\ jB <> jC
  /\ balance_report jB = Ok [lit "Account  has balance 0 EUR"; lit "Account A has balance 510 EUR"; lit "Account B has balance -510 EUR"]
  /\ balance_report jC = balance_report jB.
Proof.
  assert (RC : reachable_journal jC). { apply (rj_read 3 [] ModelTests.no_files (text_source textC) journal_new jC rj_new). vm_compute. reflexivity. }
  assert (L : forall n, n <> [] -> length n < 12 -> plain_account n).
  { intros n N Ln. split; [exact N|]. intros (a & b & ->). rewrite !app_length in Ln. change (length (lit " has balance")) with 12 in Ln. lia. }
  assert (S : forall q c, Forall (fun x => ~ quantity_char x) c -> plain_symbol (mkAmt q (Some c))) by (intros q c F; exists c; auto).
  assert (E : Forall (fun x => ~ quantity_char x) (lit "EUR")) by (apply Forall_forall; intros c Hc; unfold quantity_char; vm_compute in Hc; repeat (destruct Hc as [<-|Hc]; [lia|]); destruct Hc).
  assert (P : forall j ps, reachable_journal j -> ReportFacts.sub_paths (j_master j) = ps -> Forall (Forall plain_account) ps -> forall q, exists_at (j_master j) q -> Forall plain_account q).
  { intros j ps R <- F q X. pose proof (ReportFacts.sub_paths_order _ (JournalFacts.i_tree _ _ (JournalFacts.reachable_inv _ R))) as [_ O].
    rewrite Forall_forall in F. apply F, O, X. }
  split; [exact jB_reachable|]. split; [exact RC|]. split; [|split; [|split; [|split]]].
  - split; [eapply P; [exact jB_reachable|vm_compute; reflexivity|]|].
    + repeat (apply Forall_cons || apply Forall_nil); apply L; (discriminate || (cbn; lia)).
    + match goal with |- Forall _ ?l => let l' := eval vm_compute in l in change (Forall plain_symbol l') end. repeat (apply Forall_cons || apply Forall_nil); apply S, E.
  - split; [eapply P; [exact RC|vm_compute; reflexivity|]|].
    + repeat (apply Forall_cons || apply Forall_nil); apply L; (discriminate || (cbn; lia)).
    + match goal with |- Forall _ ?l => let l' := eval vm_compute in l in change (Forall plain_symbol l') end. repeat (apply Forall_cons || apply Forall_nil); apply S, E.
  - intros X. apply (f_equal (fun j => length (j_xacts j))) in X. vm_compute in X. discriminate.
  - vm_compute. reflexivity.
  - vm_compute. reflexivity.
Qed.
