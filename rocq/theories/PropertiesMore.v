(** Properties of smaller parts: C57 (taking an amount from a balance), C58 (the number of transactions
    read), C59 (the earlier balance report), C60 (reading one amount). *)
From Coq Require Import String List NArith ZArith Bool Lia Sorted Permutation.
From Verif Require Import Base Decimal Dates Amount Balance Scanner History Pool Account Journal Xact Parser Report OldReport.
From Verif Require Import SpecDecimal SpecAmount SpecPool SpecAccount SpecJournal SpecText SpecReading SpecScan SpecWhole SpecReport SpecMore.
From Verif Require Import ArithProofs DemoXact DemoJournal DemoScan DemoWhole MoreProofs DemoMore.
From Verif Require ModelTests.
Import ListNotations.
Open Scope list_scope.
Open Scope nat_scope.

(** ** C57: taking an amount from a balance *)
Theorem C57_refuted :
  ~ (forall b a, NoDup (map a_c b) -> Forall wf_amt b -> wf_amt a -> representable (holds b (a_c a) - aunits a) ->
       exists b', bal_sub b a = Ok b' /\ NoDup (map a_c b') /\ Forall wf_amt b' /\ forall c, holds b' c = less b a c).
Proof. exact sub_refuted. Qed.
Print Assumptions C57_refuted.

(** It holds if the balance has an entry in that commodity, or the amount is not negative. *)
Theorem C57_sub_partial :
  forall b a, NoDup (map a_c b) -> Forall wf_amt b -> wf_amt a -> representable (holds b (a_c a) - aunits a) ->
  In (a_c a) (map a_c b) \/ (0 <= aunits a)%Z ->
  exists b', bal_sub b a = Ok b' /\ NoDup (map a_c b') /\ Forall wf_amt b' /\ forall c, holds b' c = less b a c.
Proof. exact bal_sub_partial. Qed.
Print Assumptions C57_sub_partial.

Example C57_case :
  NoDup (map a_c holdings) /\ Forall wf_amt holdings /\ wf_amt (usd 725 2) /\ representable (holds holdings (Some (lit "USD")) - aunits (usd 725 2))
  /\ In (a_c (usd 725 2)) (map a_c holdings) /\ bal_sub holdings (usd 725 2) = Ok [eur 1000 2; usd (-225) 2].
Proof.
  split; [constructor; [intros [H|[]]; discriminate|constructor; [intros []|constructor]]|]. split; [apply amounts_ok; vm_compute; reflexivity|].
  split; [apply wf_check_ok; vm_compute; reflexivity|]. split; [exists (mkDec true 225 2); split; [wf_lit|vm_compute; reflexivity]|].
  split; [right; left; reflexivity|]. vm_compute. reflexivity.
Qed.

(** ** C58: the number of transactions read *)
Theorem C58_refuted :
  ~ (forall depth cwd fs src j j' n new, reachable_journal j -> journal_read depth cwd fs src j = Ok (j', n) ->
       j_xacts j' = j_xacts j ++ new -> n = length new).
Proof. exact count_refuted. Qed.
Print Assumptions C58_refuted.

(** The number is that of all transactions in the journal, so it is right for the first reading. *)
Theorem C58_all_partial :
  forall depth cwd fs src j j' n, reachable_journal j -> journal_read depth cwd fs src j = Ok (j', n) ->
  exists new, j_xacts j' = j_xacts j ++ new /\ n = length (j_xacts j) + length new.
Proof. exact read_count. Qed.
Print Assumptions C58_all_partial.
Theorem C58_written_partial :
  forall depth cwd fs t lines ws, lines_of t lines -> writes_journal lines ws -> Forall well_formed ws ->
  exists j', journal_read depth cwd fs (text_source t) journal_new = Ok (j', length ws).
Proof. exact read_count_written. Qed.
Print Assumptions C58_written_partial.

Example C58_case :
  reachable_journal j1 /\ length (j_xacts j1) = 2
  /\ journal_read 3 [] ModelTests.no_files (text_source text2) j1 = Ok journal2 /\ snd journal2 = 3
  /\ lines_of whole_text whole_lines /\ writes_journal whole_lines [wa; wb] /\ Forall well_formed [wa; wb].
Proof.
  split; [exact j1_reachable|]. split; [vm_compute; reflexivity|]. split; [exact read_again|]. split; [vm_compute; reflexivity|].
  split; [exact whole_lines_of|]. split; [exact whole_written|exact whole_well_formed].
Qed.

(** ** C59: the earlier balance report *)
Theorem C59_own_balances :
  forall j, reachable_journal j -> fits_amts (amounts_of (all_posts j)) ->
  exists ps l, in_order (j_master j) ps /\ get_account_balances j = Ok l
    /\ Forall2 (fun p e => fst e = fullname p /\ sums_up (snd e) (amounts_of (posts_exactly j p))) ps l.
Proof. exact account_balances_sums. Qed.
Print Assumptions C59_own_balances.

Theorem C59_lines :
  forall l, Forall (fun e => Forall wf_amt (snd e)) l ->
  exists es, Permutation l es /\ StronglySorted (fun e e' => str_lt (fst e) (fst e') \/ fst e = fst e') es
    /\ format_balance_report l = map (fun e => lit "Account " ++ fst e ++ lit " has balance " ++ listed (map written_out (snd e))) es.
Proof. exact old_report_lines. Qed.
Print Assumptions C59_lines.

(** Unlike the text of the present report (C21), this text determines the balance. *)
Theorem C59_text_injective :
  forall b b', Forall wf_amt b -> Forall wf_amt b' -> Forall one_word b -> Forall one_word b' ->
  listed (map written_out b) = listed (map written_out b') ->
  Forall2 (fun a a' => a_c a = a_c a' /\ aunits a = aunits a' /\ d_s (a_q a) = d_s (a_q a')) b b'.
Proof. exact listed_injective. Qed.
Print Assumptions C59_text_injective.

Example C59_case :
  reachable_journal j2 /\ fits_amts (amounts_of (all_posts j2)) /\ get_account_balances j2 = Ok old_balances
  /\ Forall (fun e => Forall wf_amt (snd e)) old_balances
  /\ format_balance_report old_balances
     = map (fun s => lit "Account " ++ lit s)
         [" has balance "; "Assets has balance "; "Assets:Bank has balance 971.00 EUR"; "Assets:Cash has balance 10 USD";
          "Expenses has balance "; "Expenses:Food has balance 12.50 EUR"; "Expenses:Household has balance 7.50 EUR";
          "Income has balance "; "Income:Salary has balance -1000 EUR"]%string.
Proof.
  split; [exact j2_reachable|]. split; [apply (fits_check_ok 2); vm_compute; reflexivity|]. split; [vm_compute; reflexivity|].
  split; [|vm_compute; reflexivity]. apply Forall_forall. intros e He.
  assert (F : forallb (fun e => forallb wf_check (snd e)) old_balances = true) by (vm_compute; reflexivity).
  rewrite forallb_forall in F. apply amounts_ok, F, He.
Qed.
Example C59_text_case :
  Forall wf_amt [eur 5 0; usd (-10) 1] /\ Forall one_word [eur 5 0; usd (-10) 1]
  /\ listed (map written_out [eur 5 0; usd (-10) 1]) = lit "5 EUR, -1.0 USD".
Proof.
  split; [apply amounts_ok; vm_compute; reflexivity|]. split; [|vm_compute; reflexivity].
  constructor; [|constructor; [|constructor]]; apply one_word_ok; vm_compute; reflexivity.
Qed.

(** ** C60: reading one amount *)
Theorem C60_parse_amount :
  forall p t q s u k ws rest, spaces ws -> written_amount t q s -> spaces rest -> denotes q u k ->
  exists p' a, parse_amount p (ws ++ t ++ rest) = Ok (p', Some a) /\ amount_is a u k s
    /\ pool_extends p p' /\ (s <> [] -> exists c, pool_find p' s = Some c).
Proof. exact parse_amount_written. Qed.
Print Assumptions C60_parse_amount.

Example C60_case :
  written_amount (lit "$" ++ [] ++ lit "25") (lit "25") (lit "$") /\ denotes (lit "25") (25 * unit1) 0
  /\ option_map (fun a => (d_m (a_q a), a_c a)) (snd (from_ok (pool_new, None) (parse_amount pool_new (lit " $25  ")))) = Some (25%Z, Some (lit "$")).
Proof. split; [apply before_usd; reflexivity|]. split; [exact denotes_25|]. vm_compute. reflexivity. Qed.
