(** C06-C09, C11 and C12: finalising a transaction. *)
From Coq Require Import String List NArith ZArith Bool Lia.
From Verif Require Import Base Decimal Dates Amount Balance Scanner History Pool Account Journal Xact Parser.
From Verif Require Import SpecDecimal SpecAmount SpecDates SpecPool SpecXact XactProofs PriceLogFacts DemoPrices DemoXact.
From Verif Require ModelTests.
Import ListNotations.
Open Scope list_scope.
Open Scope Z_scope.

(** ** C06: the elided amount *)

(** The claim as a user would expect it is false: the sign is wrong when the sum is negative. *)
Theorem C06_elided_refuted :
  ~ (forall d pool posts pool' posts' l1 p l2 c,
       reachable_pool pool -> valid_date d -> one_elided posts l1 p l2 -> Forall wf_post posts ->
       fits_amts (worths posts) -> only_in c (worths posts) ->
       finalize_posts (Some d) pool posts = Ok (pool', posts') ->
       exists a, posts' = l1 ++ mkPost (po_account p) (Some a) (po_cost p) (po_note p) :: l2
                 /\ a_c a = c /\ aunits a = - total c (worths posts)).
Proof. exact elided_refuted. Qed.
Print Assumptions C06_elided_refuted.

(** What is computed is minus the absolute value of the sum; nothing else is changed. *)
Theorem C06_elided_value_partial :
  forall date pool posts pool' posts' l1 p l2,
  one_elided posts l1 p l2 -> fits_amts (worths posts) ->
  finalize_posts date pool posts = Ok (pool', posts') ->
  exists a c, only_in c (worths posts)
    /\ posts' = l1 ++ mkPost (po_account p) (Some a) (po_cost p) (po_note p) :: l2
    /\ a_c a = c /\ wf_amt a /\ aunits a = - Z.abs (total c (worths posts)).
Proof. exact elided_value. Qed.
Print Assumptions C06_elided_value_partial.

(** So the transaction balances exactly when the written postings do not sum to less than zero. *)
Theorem C06_balances_partial :
  forall date pool posts pool' posts' l1 p l2 c,
  one_elided posts l1 p l2 -> fits_amts (worths posts) -> only_in c (worths posts) ->
  finalize_posts date pool posts = Ok (pool', posts') ->
  (balanced posts' <-> 0 <= total c (worths posts)).
Proof. exact elided_balances. Qed.
Print Assumptions C06_balances_partial.

(** Such a transaction is not rejected (here without costs), and the amount filled in has no more
    decimals than the others. *)
Theorem C06_accepted :
  forall date pool posts l1 p l2 c,
  one_elided posts l1 p l2 -> Forall (fun p => po_cost p = None) posts ->
  fits_amts (worths posts) -> only_in c (worths posts) -> (2 <= length posts)%nat ->
  exists a, finalize_posts date pool posts
            = Ok (pool, l1 ++ mkPost (po_account p) (Some a) None (po_note p) :: l2)
    /\ a_c a = c /\ wf_amt a /\ aunits a = - Z.abs (total c (worths posts))
    /\ forall k, Forall (fun x => (d_s (a_q x) <= k)%nat) (worths posts) -> (d_s (a_q a) <= k)%nat.
Proof. exact elided_accepted. Qed.
Print Assumptions C06_accepted.

Example C06_case :
  (exists l1 p l2, one_elided lunch l1 p l2) /\ fits_amts (worths lunch) /\ only_in (Some sEUR) (worths lunch)
  /\ exists pool', finalize_posts None demo_empty lunch
     = Ok (pool', [po "Expenses:Food" (Some (am (dq 1250 2) sEUR)) None; po "Expenses:Tips" (Some (am (dq 1 0) sEUR)) None;
                   po "Assets:Cash" (Some (am (neg 1350 2) sEUR)) None]).
Proof.
  split; [do 3 eexists; exact lunch_elided|]. split; [exact lunch_fits|]. split; [exact lunch_only|].
  eexists. vm_compute. reflexivity.
Qed.

(** The same as text, and the failing case. *)
Example C06_text :
  ModelTests.with_journal "2023-01-01 Employer
    Income:Salary  -100 EUR
    Assets:Bank
" ModelTests.quantities = Ok [Some (lit "-100"); Some (lit "-100")].
Proof. vm_compute. reflexivity. Qed.

(** ** C07: accepted transactions balance *)
Theorem C07_accepted_balance_refuted :
  ~ (forall text j',
       parse_text 1 [] ModelTests.no_files text journal_new = Ok j' ->
       Forall (fun x => balanced (x_posts x)) (j_xacts j')).
Proof. exact balanced_refuted. Qed.
Print Assumptions C07_accepted_balance_refuted.

(** With an elided amount it holds if the others do not sum to less than zero. *)
Theorem C07_elided_partial :
  forall date pool posts pool' posts' l1 p l2 c,
  one_elided posts l1 p l2 -> fits_amts (worths posts) -> only_in c (worths posts) ->
  0 <= total c (worths posts) ->
  finalize_posts date pool posts = Ok (pool', posts') -> balanced posts'.
Proof. intros. eapply elided_balances; eauto. Qed.
Print Assumptions C07_elided_partial.

(** With two commodities and no costs it holds exactly if the two sums have opposite signs (and the
    implied costs need no rounding). *)
Theorem C07_two_commodities_partial :
  forall date pool posts pool' posts' x y rate,
  Forall (fun p => po_cost p = None) posts ->
  complete posts -> Forall wf_post posts -> fits_amts (worths posts) ->
  two_commodities posts x y -> exact_costs posts x y rate ->
  finalize_posts date pool posts = Ok (pool', posts') ->
  (balanced posts' <-> total x (worths posts) * total y (worths posts) < 0).
Proof. exact implied_balances. Qed.
Print Assumptions C07_two_commodities_partial.

(** In all other cases the postings stay as written, balanced or not. *)
Theorem C07_as_written_partial :
  forall date pool posts pool' posts',
  complete posts -> Forall wf_post posts -> fits_amts (worths posts) ->
  (forall x y, ~ two_commodities posts x y) ->
  finalize_posts date pool posts = Ok (pool', posts') -> posts' = posts.
Proof. exact written_kept. Qed.
Print Assumptions C07_as_written_partial.

Example C07_case :
  Forall (fun p => po_cost p = None) trade /\ complete trade /\ Forall wf_post trade /\ fits_amts (worths trade)
  /\ two_commodities trade (Some sEUR) (Some sUSD) /\ exact_costs trade (Some sEUR) (Some sUSD) (dq 25 1)
  /\ exists pool', finalize_posts (Some (mkDate 2023 1 1)) demo_empty trade
     = Ok (pool', [po "Assets:Stocks" (Some (am (dq 10 0) sEUR)) (Some (am (dq 250 1) sUSD));
                   po "Expenses:Fees" (Some (am (dq 2 0) sEUR)) (Some (am (dq 50 1) sUSD));
                   po "Assets:Cash" (Some (am (neg 30 0) sUSD)) None]).
Proof.
  split; [repeat constructor|]. split; [exact trade_complete|]. split; [exact trade_wf|]. split; [exact trade_fits|].
  split; [exact trade_two|]. split; [exact trade_exact|]. eexists. vm_compute. reflexivity.
Qed.

(** ** C08: nothing that was written is changed *)
Theorem C08_frame :
  forall j xi j', finalize j xi = Ok j' ->
  j_master j' = j_master j
  /\ (forall k, k <> xi -> nth_error (j_xacts j') k = nth_error (j_xacts j) k)
  /\ exists x x', nth_error (j_xacts j) xi = Some x /\ nth_error (j_xacts j') xi = Some x'
      /\ x_date x' = x_date x /\ x_aux_date x' = x_aux_date x /\ x_payee x' = x_payee x /\ x_note x' = x_note x
      /\ Forall2 same_posting (x_posts x) (x_posts x').
Proof. exact finalize_keeps. Qed.
Print Assumptions C08_frame.

Example C08_case :
  exists j', finalize (mkJournal (Acct [] [] []) demo_empty [mkXact (Some (mkDate 2023 1 1)) None (lit "P") None trade]) 0 = Ok j'.
Proof. eexists. vm_compute. reflexivity. Qed.

(** ** C09: a written cost is kept *)
Theorem C09_cost_refuted :
  ~ (forall d pool posts pool' posts',
       reachable_pool pool -> valid_date d -> Forall wf_post posts -> fits_amts (worths posts) ->
       finalize_posts (Some d) pool posts = Ok (pool', posts') ->
       Forall2 (fun p p' => forall k, po_cost p = Some k -> po_cost p' = Some k) posts posts').
Proof. exact cost_refuted. Qed.
Print Assumptions C09_cost_refuted.

(** It is kept except in a two-commodity transaction, on a posting in the priced commodity. *)
Theorem C09_cost_kept_partial :
  forall date pool posts pool' posts',
  Forall wf_post posts -> fits_amts (worths posts) ->
  finalize_posts date pool posts = Ok (pool', posts') ->
  Forall2 (fun p p' => forall k, po_cost p = Some k ->
             po_cost p' = Some k
             \/ complete posts /\ exists x y a, two_commodities posts x y /\ po_amount p = Some a /\ a_c a = x) posts posts'.
Proof. exact cost_kept. Qed.
Print Assumptions C09_cost_kept_partial.

Example C09_case :
  ModelTests.with_journal "2023-01-01 Trade
    Assets:Stocks  10 VTI @@ 20 EUR
    Assets:Bank  -20 EUR
" ModelTests.costs = Ok [Some (lit "20", Some sEUR); None]
  /\ ModelTests.with_journal "2023-01-01 Trade
    A  10 VTI @@ 20 EUR
    B  5 VTI
" ModelTests.costs = Ok [Some (lit "40", Some sEUR); Some (lit "20", Some sEUR)].
Proof. split; vm_compute; reflexivity. Qed.

(** ** C11: the implied cost *)
Theorem C11_implied_costs :
  forall date pool posts pool' posts' x y,
  complete posts -> Forall wf_post posts -> fits_amts (worths posts) -> two_commodities posts x y ->
  finalize_posts date pool posts = Ok (pool', posts') ->
  exists q, rounded (total y (worths posts) * unit1) (total x (worths posts)) q
    /\ Forall2 (fun p p' => exists a, po_amount p = Some a
         /\ (a_c a <> x -> p' = p)
         /\ (a_c a = x -> exists k, p' = mkPost (po_account p) (Some a) (Some k) (po_note p)
              /\ a_c k = y /\ rounded (Z.abs (units q) * aunits a) unit1 (a_q k))) posts posts'.
Proof. exact implied_costs. Qed.
Print Assumptions C11_implied_costs.

Example C11_case :
  complete trade /\ Forall wf_post trade /\ fits_amts (worths trade) /\ two_commodities trade (Some sEUR) (Some sUSD)
  /\ exists r, finalize_posts (Some (mkDate 2023 1 1)) demo_empty trade = Ok r.
Proof.
  split; [exact trade_complete|]. split; [exact trade_wf|]. split; [exact trade_fits|]. split; [exact trade_two|].
  eexists. vm_compute. reflexivity.
Qed.

(** ** C12: prices recorded *)
Theorem C12_prices_recorded :
  forall d pool posts pool' posts',
  reachable_pool pool -> valid_date d -> Forall wf_post posts ->
  finalize_posts (Some d) pool posts = Ok (pool', posts') ->
  exists rs, price_records (mkDT d (mkTime 0 0 0)) posts' rs /\ recorded_on pool rs pool'.
Proof. exact finalize_records. Qed.
Print Assumptions C12_prices_recorded.

Example C12_case :
  reachable_pool demo_pool /\ exists pool' posts',
  finalize_posts (Some (mkDate 2023 5 1)) demo_pool trade = Ok (pool', posts')
  /\ price_on pool' sEUR sUSD (day 2023 5 1) (dq 25 1) /\ price_on pool' sEUR sUSD (day 2023 2 1) (dq 109 2).
Proof.
  split; [exact demo_pool_reachable|]. do 2 eexists. split; [vm_compute; reflexivity|].
  split; do 2 eexists; (split; [vm_compute; reflexivity|]); (split; [vm_compute; reflexivity|]); vm_compute; tauto.
Qed.
