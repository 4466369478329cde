(** C18-C22: account totals and reports. *)
From Coq Require Import String List NArith ZArith Bool Lia Sorted Permutation.
From Verif Require Import Base Decimal Dates Amount Balance Scanner History Pool Account Journal Xact Parser Report Options Lib.
From Verif Require Import SpecDecimal SpecAmount SpecDates SpecPool SpecAccount SpecXact SpecJournal SpecReport.
From Verif Require Import BalanceFacts ArithProofs DemoXact ReportProofs DemoJournal DemoReport.
From Verif Require ModelTests.
Import ListNotations.
Open Scope list_scope.
Open Scope nat_scope.

(** ** C18: account totals *)
Theorem C18_account_total :
  forall j q a, reachable_journal j -> get_account (j_master j) q = Some a ->
  fits_amts (amounts_of (posts_below j q)) ->
  exists b, account_total (j_xacts j) a = Ok b /\ sums_up b (amounts_of (posts_below j q)).
Proof. exact total_below. Qed.
Print Assumptions C18_account_total.

(** The amount of an account counts only its own postings. *)
Theorem C18_account_amount :
  forall j q a, reachable_journal j -> get_account (j_master j) q = Some a ->
  fits_amts (amounts_of (posts_exactly j q)) ->
  exists b, account_amount (j_xacts j) (ac_posts a) = Ok b /\ sums_up b (amounts_of (posts_exactly j q)).
Proof. exact amount_exactly. Qed.
Print Assumptions C18_account_amount.

(** Own postings plus the totals of the direct children. *)
Theorem C18_own_plus_children :
  forall j q a b c, reachable_journal j -> get_account (j_master j) q = Some a ->
  fits_amts (amounts_of (posts_below j q)) -> account_total (j_xacts j) a = Ok b ->
  exists own subs, account_amount (j_xacts j) (ac_posts a) = Ok own
    /\ Forall2 (fun ch s => account_total (j_xacts j) ch = Ok s) (ac_children a) subs
    /\ holds b c = (holds own c + sumZ (map (fun s => holds s c) subs))%Z.
Proof. exact total_children. Qed.
Print Assumptions C18_own_plus_children.

Example C18_case :
  reachable_journal j2
  /\ (exists a, get_account (j_master j2) [lit "Assets"] = Some a
      /\ account_total (j_xacts j2) a = Ok [mkAmt (mkDec false 97100 2) (Some (lit "EUR")); mkAmt (mkDec false 10 0) (Some (lit "USD"))])
  /\ fits_amts (amounts_of (posts_below j2 [lit "Assets"]))
  /\ length (posts_below j2 [lit "Assets"]) = 4.
Proof.
  split; [exact j2_reachable|]. split; [eexists; split; [vm_compute; reflexivity|vm_compute; reflexivity]|].
  split; [apply (fits_check_ok 2)|]; vm_compute; reflexivity.
Qed.

(** ** C19: the master total *)
Theorem C19_master_total :
  forall j, reachable_journal j -> fits_amts (amounts_of (all_posts j)) ->
  exists b, account_total (j_xacts j) (j_master j) = Ok b /\ sums_up b (amounts_of (all_posts j)).
Proof. exact master_total. Qed.
Print Assumptions C19_master_total.

Theorem C19_balanced_to_zero :
  forall j c, reachable_journal j -> fits_amts (amounts_of (all_posts j)) ->
  Forall (fun x => total c (amounts_of (x_posts x)) = 0%Z) (j_xacts j) ->
  exists b, account_total (j_xacts j) (j_master j) = Ok b /\ holds b c = 0%Z.
Proof. exact master_zero. Qed.
Print Assumptions C19_balanced_to_zero.

Example C19_case :
  reachable_journal jA /\ fits_amts (amounts_of (all_posts jA))
  /\ forallb (fun x => total (Some (lit "EUR")) (amounts_of (x_posts x)) =? 0)%Z (j_xacts jA) = true
  /\ account_total (j_xacts jA) (j_master jA)
     = Ok [mkAmt (mkDec false 0 0) None; mkAmt (mkDec false 0 0) (Some (lit "EUR"))].
Proof.
  split; [exact jA_reachable|]. split; [apply (fits_check_ok 0)|split]; vm_compute; reflexivity.
Qed.

(** ** C20: the balance report *)
Theorem C20_report_shape :
  forall j lines, reachable_journal j -> balance_report j = Ok lines ->
  exists ps, in_order (j_master j) ps
    /\ Forall2 (fun p line => exists a b, get_account (j_master j) p = Some a /\ account_total (j_xacts j) a = Ok b
         /\ line = lit "Account " ++ fullname p ++ lit " has balance "
                   ++ concat (map (fun x => d_to_string (a_q x) ++ match a_c x with Some s => 32%N :: s | None => [] end) b)) ps lines.
Proof. exact report_shape. Qed.
Print Assumptions C20_report_shape.

Theorem C20_report_succeeds :
  forall j, reachable_journal j -> fits_amts (amounts_of (all_posts j)) -> exists lines, balance_report j = Ok lines.
Proof. exact report_succeeds. Qed.
Print Assumptions C20_report_succeeds.

(** Neither report depends on the order in which the children of an account are held. *)
Theorem C20_order_independent :
  forall j j', wf_tree (j_master j) -> wf_tree (j_master j') -> ac_name (j_master j) = ac_name (j_master j') ->
  same_tree (j_master j) (j_master j') -> j_xacts j = j_xacts j' ->
  balance_report j = balance_report j' /\ report_accounts j = report_accounts j'.
Proof. exact report_order_independent. Qed.
Print Assumptions C20_order_independent.

Example C20_case :
  reachable_journal j2 /\ map ac_name (ac_children (j_master j2)) = [lit "Expenses"; lit "Assets"; lit "Income"]
  /\ balance_report j2 = Ok [
      lit "Account  has balance -9.00 EUR10 USD";
      lit "Account Assets has balance 971.00 EUR10 USD";
      lit "Account Assets:Bank has balance 971.00 EUR";
      lit "Account Assets:Cash has balance 10 USD";
      lit "Account Expenses has balance 20.00 EUR";
      lit "Account Expenses:Food has balance 12.50 EUR";
      lit "Account Expenses:Household has balance 7.50 EUR";
      lit "Account Income has balance -1000 EUR";
      lit "Account Income:Salary has balance -1000 EUR"].
Proof. split; [exact j2_reachable|]. split; vm_compute; reflexivity. Qed.

Example C20_order_case :
  let m' := Acct [] (rev (ac_children (j_master j2))) (ac_posts (j_master j2)) in
  wf_tree (j_master j2) /\ wf_tree m' /\ same_tree (j_master j2) m' /\ j_master j2 <> m'
  /\ balance_report (mkJournal m' (j_pool j2) (j_xacts j2)) = balance_report j2.
Proof.
  cbv zeta. pose proof (JournalFacts.i_tree _ _ (JournalFacts.reachable_inv _ j2_reachable)) as W. split; [exact W|].
  assert (S : wf_tree (Acct [] (rev (ac_children (j_master j2))) (ac_posts (j_master j2)))
              /\ same_tree (j_master j2) (Acct [] (rev (ac_children (j_master j2))) (ac_posts (j_master j2)))).
  { apply (ReportFacts.shuffled [] (ac_children (j_master j2)) _ (ac_posts (j_master j2))); [exact W|apply Permutation_rev]. }
  split; [apply S|]. split; [apply S|]. split; [vm_compute; discriminate|]. vm_compute. reflexivity.
Qed.

(** ** C21: the text determines the balance *)
Theorem C21_text_refuted :
  ~ (forall j j' q a a' b b',
       reachable_journal j -> reachable_journal j' ->
       get_account (j_master j) q = Some a -> get_account (j_master j') q = Some a' ->
       account_total (j_xacts j) a = Ok b -> account_total (j_xacts j') a' = Ok b' ->
       account_line (fullname q) b = account_line (fullname q) b' ->
       forall c, holds b c = holds b' c).
Proof. exact text_refuted. Qed.
Print Assumptions C21_text_refuted.

(** It does when every amount has a commodity and no symbol has a digit, a point or a minus sign. *)
Theorem C21_text_partial :
  forall b1 b2, Forall wf_amt b1 -> Forall wf_amt b2 -> Forall plain_symbol b1 -> Forall plain_symbol b2 ->
  balance_text b1 = balance_text b2 ->
  Forall2 (fun a a' => a_c a = a_c a' /\ aunits a = aunits a' /\ d_s (a_q a) = d_s (a_q a')) b1 b2.
Proof. exact balance_text_injective. Qed.
Print Assumptions C21_text_partial.

Example C21_case :
  let b := [mkAmt (mkDec true 9 1) (Some (lit "EUR")); mkAmt (mkDec false 10 0) (Some (lit "US $"))] in
  Forall wf_amt b /\ Forall plain_symbol b /\ balance_text b = lit "-0.9 EUR10 US $".
Proof.
  cbv zeta. split; [repeat (apply Forall_cons || apply Forall_nil); apply wf_check_ok; reflexivity|].
  split; [|vm_compute; reflexivity].
  repeat (apply Forall_cons || apply Forall_nil); eexists; (split; [reflexivity|]);
    apply Forall_forall; intros c Hc; unfold quantity_char; vm_compute in Hc; repeat (destruct Hc as [<-|Hc]; [lia|]); destruct Hc.
Qed.

(** ** C22: the accounts report *)
Theorem C22_accounts_command :
  forall depth cwd fs verb rest files j,
  read_journal_files depth cwd fs files = Ok j ->
  exists ps lines, in_order (j_master j) ps
    /\ execute_command depth cwd fs ((97%N :: verb) :: rest) files = Ok lines
    /\ Permutation lines (map (fun p => last p []) ps)
    /\ StronglySorted (fun a b => str_lt a b \/ a = b) lines.
Proof. exact accounts_command. Qed.
Print Assumptions C22_accounts_command.

(** The function behind the command lists them in the order of the balance report. *)
Theorem C22_accounts_shape :
  forall j, reachable_journal j ->
  exists ps, in_order (j_master j) ps /\ report_accounts j = map (fun p => last p []) ps.
Proof. exact accounts_shape. Qed.
Print Assumptions C22_accounts_shape.

Example C22_case :
  execute_command 3 [] (fun f => if str_eqb f (lit "a.ledger") then Some (text_source text1) else None) [lit "accounts"] [lit "a.ledger"]
  = Ok (map lit [""; "Assets"; "Bank"; "Cash"; "Expenses"; "Food"; "Household"]%string).
Proof. vm_compute. reflexivity. Qed.
