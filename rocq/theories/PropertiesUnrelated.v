(** C105: prices that do not change a lookup. *)
From Coq Require Import String List NArith ZArith Bool Lia.
From Verif Require Import Base Decimal Dates Amount Balance Scanner History Pool Account Journal Xact Parser Lib.
From Verif Require Import SpecDecimal SpecAmount SpecDates SpecText SpecPool SpecJournal SpecTogether SpecQuote SpecUnrelated.
From Verif Require Import BaseFacts DatesFacts PoolFacts PriceFacts PriceProofs QuoteProofs UnrelatedProofs DemoXact DemoPrices DemoQuote.
Import ListNotations.
Open Scope list_scope.
Open Scope nat_scope.

(** Only the chains and the newest prices along the shortest one count. *)
Theorem C105_chain :
  forall astar astar' p p' s t now moment oldest moment' oldest',
  shortest_paths astar -> shortest_paths astar' -> reachable_pool p -> reachable_pool p' -> valid_dt now ->
  (pool_find p s <> None <-> pool_find p' s <> None) -> (pool_find p t <> None <-> pool_find p' t <> None) ->
  (forall path, price_chain p s path t <-> price_chain p' s path t) ->
  (forall path x, shortest_chain p s path t -> newest_along p s path x -> newest_along p' s path x) -> one_way p s t ->
  pool_find_price astar p (Some s) (Some t) now moment oldest = pool_find_price astar' p' (Some s) (Some t) now moment' oldest'.
Proof. exact chain_lookup. Qed.
Print Assumptions C105_chain.
(** Recording a price for an earlier moment than that of another price of the same pair changes no lookup. *)
Theorem C105_older :
  forall astar astar' p p' u v w q w1 q1 s t now moment oldest moment' oldest',
  shortest_paths astar -> shortest_paths astar' -> reachable_pool p -> valid_dt w -> wf_dec q -> valid_dt now ->
  pool_add_price p (Some u) w (mkAmt q (Some v)) = Ok p' -> price_on p u v w1 q1 -> before w w1 -> one_way p s t ->
  pool_find_price astar p (Some s) (Some t) now moment oldest = pool_find_price astar' p' (Some s) (Some t) now moment' oldest'.
Proof. exact older_lookup. Qed.
Print Assumptions C105_older.
(** Nor does recording a price of [u] in [v], if no prices lead from the source to [u], or none from [v] to the target. *)
Theorem C105_unrelated :
  forall astar astar' p p' u v w q s t now moment oldest moment' oldest',
  shortest_paths astar -> shortest_paths astar' -> reachable_pool p -> valid_dt w -> wf_dec q -> valid_dt now ->
  pool_add_price p (Some u) w (mkAmt q (Some v)) = Ok p' -> ~ (leads p s u /\ leads p v t) -> one_way p s t ->
  pool_find_price astar p (Some s) (Some t) now moment oldest = pool_find_price astar' p' (Some s) (Some t) now moment' oldest'.
Proof. exact unrelated_lookup. Qed.
Print Assumptions C105_unrelated.

Definition rates : pool := j_pool (quoted (q1 ++ q2)).
Definition with_price (u v : str) (w : datetime) (q : dec) : pool :=
  match pool_add_price rates (Some u) w (mkAmt q (Some v)) with Ok p => p | _ => pool_new end.
Definition ask (p : pool) (s t : str) := pool_find_price bfs p (Some s) (Some t) (day 2025 1 1) (day 2025 1 1) (day 2000 1 1).
(** The price of EUR in USD in 2024 is followed by one for 2023, which does not count for EUR in AUD. *)
Example C105_older_case :
  reachable_pool rates /\ valid_dt (day 2023 12 31) /\ wf_dec (dq 9 0)
  /\ pool_add_price rates (Some sEUR) (day 2023 12 31) (mkAmt (dq 9 0) (Some sUSD)) = Ok (with_price sEUR sUSD (day 2023 12 31) (dq 9 0))
  /\ price_on rates sEUR sUSD (day 2024 1 1) (dq 11 1) /\ before (day 2023 12 31) (day 2024 1 1) /\ one_way rates sEUR sAUD
  /\ ask rates sEUR sAUD = Ok (Some (day 2024 1 1, mkAmt (dq 165 2) (Some sAUD)))
  /\ ask (with_price sEUR sUSD (day 2023 12 31) (dq 9 0)) sEUR sAUD = Ok (Some (day 2024 1 1, mkAmt (dq 165 2) (Some sAUD)))
  /\ ask (with_price sEUR sUSD (day 2024 12 31) (dq 9 0)) sEUR sAUD = Ok (Some (day 2024 1 2, mkAmt (dq 135 1) (Some sAUD))).
Proof.
  split; [apply (quoted_ok (q1 ++ q2)); vm_compute; reflexivity|].
  split; [apply day_valid; vm_compute; reflexivity|]. split; [unfold dq, d_make, wf_dec; cbn [d_m d_s andb negb Z.eqb]; lia|].
  split; [vm_compute; reflexivity|]. split.
  { unfold price_on. eexists _, _. split; [vm_compute; reflexivity|]. split; [vm_compute; reflexivity|]. vm_compute. left. reflexivity. }
  split; [vm_compute; tauto|]. split; [exact demo_one_way|]. split; [vm_compute; reflexivity|]. split; vm_compute; reflexivity.
Qed.
(** No prices lead from AUD to USD, so a newer price of USD in AUD does not count for EUR in USD. A price of EUR in AUD
    does count for EUR in AUD: both conditions are needed. *)
Example C105_unrelated_case :
  ~ leads rates sAUD sUSD /\ one_way rates sEUR sUSD
  /\ pool_add_price rates (Some sUSD) (day 2024 6 1) (mkAmt (dq 9 0) (Some sAUD)) = Ok (with_price sUSD sAUD (day 2024 6 1) (dq 9 0))
  /\ ask rates sEUR sUSD = Ok (Some (day 2024 1 1, mkAmt (dq 11 1) (Some sUSD)))
  /\ ask (with_price sUSD sAUD (day 2024 6 1) (dq 9 0)) sEUR sUSD = Ok (Some (day 2024 1 1, mkAmt (dq 11 1) (Some sUSD)))
  /\ ask (with_price sEUR sAUD (day 2024 6 1) (dq 9 0)) sEUR sAUD = Ok (Some (day 2024 6 1, mkAmt (dq 9 0) (Some sAUD))).
Proof.
  assert (W : wf_pool rates) by (apply q_wf; vm_compute; reflexivity).
  split.
  { intros [path C]. destruct path as [|x path]; [revert C; vm_compute; discriminate|]. destruct C as [P _].
    apply (priced_pair rates _ _ W) in P. assert (E : pairs rates = [(sEUR, sUSD); (sUSD, sAUD)]) by (vm_compute; reflexivity). rewrite E in P.
    destruct P as [P|[P|[]]]; apply (f_equal fst) in P; revert P; vm_compute; discriminate. }
  split.
  { apply direct_one_way; [vm_compute; discriminate|]. exists (day 2024 1 1), (dq 11 1).
    eexists _, _. split; [vm_compute; reflexivity|]. split; [vm_compute; reflexivity|]. vm_compute. left. reflexivity. }
  split; [vm_compute; reflexivity|]. split; [vm_compute; reflexivity|]. split; vm_compute; reflexivity.
Qed.
