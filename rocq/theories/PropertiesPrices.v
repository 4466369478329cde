(** C30-C35, C38, C47: the commodity pool, the price history, unit costs and dates. *)
From Coq Require Import String List NArith ZArith Bool Lia.
From Verif Require Import Base Decimal Dates Amount Balance Scanner History Pool Account Journal Xact Parser.
From Verif Require Import SpecDecimal SpecAmount SpecDates SpecPool SpecText DatesFacts PriceFacts PriceProofs ArithProofs DemoPrices.
Import ListNotations.
Open Scope nat_scope.

(** ** C30: one commodity per symbol with a stable index *)
Theorem C30_pool_consistent :
  forall p, reachable_pool p ->
  (forall s c, pool_find p s = Some c ->
     c_symbol c = s /\ pool_find_index p s = Ok (Some (c_index c))
     /\ pool_get_by_index p (c_index c) = Ok c)
  /\ (forall i c, pool_get_by_index p i = Ok c -> c_index c = i /\ pool_find p (c_symbol c) = Some c)
  /\ (forall s t c d, pool_find p s = Some c -> pool_find p t = Some d -> c_index c = c_index d -> s = t)
  /\ (forall s, pool_find p s = None -> exists q, pool_find_index p s = Panic q).
Proof. exact pool_consistent. Qed.
Print Assumptions C30_pool_consistent.

Theorem C30_find_or_create :
  forall p s a, reachable_pool p -> s <> [] ->
  let '(p', r) := pool_find_or_create p s a in
  r = Some s
  /\ (exists c, pool_find p' s = Some c /\ c_symbol c = s
                /\ forall d, pool_find p s = Some d -> c = d)
  /\ (forall t, t <> s -> pool_find p' t = pool_find p t)
  /\ (forall x y w v, price_on p' x y w v <-> price_on p x y w v)
  /\ fst (pool_find_or_create p' s None) = p'.
Proof. exact find_or_create_spec. Qed.
Print Assumptions C30_find_or_create.

Theorem C30_stable_index :
  forall p p' s c, reachable_from p p' -> pool_find p s = Some c ->
  pool_find p' s = Some c /\ index_of p' s = index_of p s.
Proof. exact stable_index. Qed.
Print Assumptions C30_stable_index.

Example C30_case :
  reachable_pool demo_pool
  /\ map (index_of demo_pool) [sEUR; sUSD; sAUD; sBAM; lit "XYZ"] = [Some 0; Some 1; Some 2; Some 3; None].
Proof. split; [exact demo_pool_reachable|vm_compute; reflexivity]. Qed.

(** [create] (public, but called by the library only for new symbols) breaks this when called for a
    known symbol: the index changes, and the old prices are no longer found. *)
Example C30_create_twice :
  index_of (pool_create demo_pool sEUR None) sEUR = Some 4
  /\ direct_price demo_pool sEUR sUSD <> None
  /\ direct_price (pool_create demo_pool sEUR None) sEUR sUSD = None.
Proof. repeat split; vm_compute; congruence. Qed.

(** ** C31: the direct price is the newest one recorded *)
Theorem C31_newest_recorded :
  forall p rs p' s t w v,
  reachable_pool p -> (forall s t, ~ priced p s t) -> valid_records rs ->
  record_all p rs = Ok p' ->
  (direct_price p' s t = Some (w, v) <->
   exists r1 r2, records_for s t rs = r1 ++ (w, v) :: r2
                 /\ Forall (fun r => not_after (fst r) w) r1
                 /\ Forall (fun r => before (fst r) w) r2).
Proof. exact newest_recorded. Qed.
Print Assumptions C31_newest_recorded.

Theorem C31_none_recorded :
  forall p rs p' s t,
  reachable_pool p -> (forall s t, ~ priced p s t) -> valid_records rs ->
  record_all p rs = Ok p' -> (direct_price p' s t = None <-> records_for s t rs = []).
Proof. exact none_recorded. Qed.
Print Assumptions C31_none_recorded.

Example C31_case :
  reachable_pool demo_empty /\ (forall s t, ~ priced demo_empty s t)
  /\ valid_records demo_records /\ record_all demo_empty demo_records = Ok demo_pool
  /\ direct_price demo_pool sEUR sUSD = Some (day 2023 3 1, dq 12 1)
  /\ direct_price demo_pool sUSD sEUR = None.
Proof.
  split; [exact demo_empty_reachable|]. split; [exact demo_empty_unpriced|].
  split; [exact demo_records_valid|]. split; [exact demo_pool_ok|]. split; vm_compute; reflexivity.
Qed.

(** ** C32: price lookup respects the requested moment *)
(** False: the moment and the oldest date asked for are ignored. *)
Theorem C32_moment_refuted :
  ~ (forall astar p s t now moment oldest d amt,
       shortest_paths astar -> reachable_pool p ->
       valid_dt now -> valid_dt moment -> valid_dt oldest -> s <> t ->
       (exists c, pool_find p s = Some c) -> (exists c, pool_find p t = Some c) ->
       pool_find_price astar p (Some s) (Some t) now moment oldest = Ok (Some (d, amt)) ->
       not_after d moment /\ not_after oldest d).
Proof. exact moment_refuted. Qed.
Print Assumptions C32_moment_refuted.

(** It holds when every price of the history lies in the requested range anyway. *)
Theorem C32_moment_partial :
  forall astar p s t now moment oldest d amt,
  shortest_paths astar -> reachable_pool p ->
  valid_dt now -> valid_dt moment -> valid_dt oldest -> s <> t ->
  (exists c, pool_find p s = Some c) -> (exists c, pool_find p t = Some c) ->
  (forall a b w v, price_on p a b w v -> not_after w moment /\ not_after oldest w) ->
  not_after oldest now ->
  pool_find_price astar p (Some s) (Some t) now moment oldest = Ok (Some (d, amt)) ->
  not_after d moment /\ not_after oldest d.
Proof. exact moment_kept. Qed.
Print Assumptions C32_moment_partial.
(** All prices of the demonstration pool lie in 2023; with a range of twenty years the hypotheses hold. *)
Example C32_range :
  reachable_pool demo_pool
  /\ (forall a b w v, price_on demo_pool a b w v -> not_after w (day 2024 1 1) /\ not_after (day 2004 1 1) w)
  /\ pool_find_price bfs demo_pool (Some sEUR) (Some sAUD) (day 2024 1 1) (day 2024 1 1) (day 2004 1 1)
     = Ok (Some (day 2023 1 1, mkAmt (dq 180 2) (Some sAUD))).
Proof.
  split; [exact demo_pool_reachable|]. split; [|vm_compute; reflexivity].
  intros a b w v (x & y & _ & _ & I).
  assert (F : Forall (fun e => Forall (fun q : datetime * dec => not_after (fst q) (day 2024 1 1) /\ not_after (day 2004 1 1) (fst q)) (snd e)) (g_edges (p_hist demo_pool))).
  { vm_compute. repeat (apply Forall_cons || apply Forall_nil); cbn; split; left; tauto. }
  revert F I. unfold points. generalize (g_edges (p_hist demo_pool)). induction l as [|[[x' y'] m] l IH]; cbn [find_edge]; intros F I; [destruct I|].
  inversion F as [|? ? F1 F2]; subst. destruct ((x' =? x) && (y' =? y)).
  - cbn [snd] in F1. rewrite Forall_forall in F1. exact (F1 _ I).
  - exact (IH F2 I).
Qed.

(** ** C33: indirect rates are products along a shortest chain *)
(** [shortest_paths] is the contract of petgraph's A*; breadth-first search satisfies it. *)
Theorem C33_contract_satisfiable : shortest_paths bfs.
Proof. exact bfs_shortest. Qed.
Print Assumptions C33_contract_satisfiable.

Theorem C33_rate_of_chain :
  forall astar p s t now moment oldest d amt,
  shortest_paths astar -> reachable_pool p -> valid_dt now -> s <> t ->
  (exists c, pool_find p s = Some c) -> (exists c, pool_find p t = Some c) ->
  pool_find_price astar p (Some s) (Some t) now moment oldest = Ok (Some (d, amt)) ->
  a_c amt = Some t /\
  exists path prices,
    price_chain p s path t
    /\ (forall other, price_chain p s other t -> length path <= length other)
    /\ newest_along p s path prices
    /\ (length path = 1 -> prices = [(d, a_q amt)])
    /\ (length path <> 1 -> earliest now (map fst prices) d
                            /\ (exists one, units one = unit1 /\ rounded_products one (map snd prices) (a_q amt))
                            /\ forall r, exact_product unit1 (map snd prices) r -> aunits amt = r).
Proof. exact rate_of_chain. Qed.
Print Assumptions C33_rate_of_chain.

(** 1.2 USD per EUR (2023-03-01) and 1.5 AUD per USD (2023-01-01): 1.80 AUD per EUR. *)
Example C33_case :
  pool_find_price bfs demo_pool (Some sEUR) (Some sAUD) (day 2024 1 1) (day 2024 1 1) (day 2000 1 1)
  = Ok (Some (day 2023 1 1, mkAmt (dq 180 2) (Some sAUD))).
Proof. vm_compute. reflexivity. Qed.

(** ** C34: price lookup is total on known commodities *)
Theorem C34_lookup_total :
  forall astar p s t now moment oldest,
  shortest_paths astar -> reachable_pool p -> valid_dt now -> s <> t ->
  (exists c, pool_find p s = Some c) -> (exists c, pool_find p t = Some c) ->
  let r := pool_find_price astar p (Some s) (Some t) now moment oldest in
  ((exists path, price_chain p s path t) -> (exists x, r = Ok (Some x)) \/ r = Panic PArith)
  /\ ((forall path, ~ price_chain p s path t) -> r = Ok None)
  /\ (priced p s t -> exists x, r = Ok (Some x)).
Proof. exact lookup_total. Qed.
Print Assumptions C34_lookup_total.

Example C34_case :
  pool_find_price bfs demo_pool (Some sAUD) (Some sEUR) (day 2024 1 1) (day 2024 1 1) (day 2000 1 1) = Ok None
  /\ (exists c, pool_find demo_pool sAUD = Some c).
Proof. split; [|eexists]; vm_compute; reflexivity. Qed.

(** ** C35: price directives record the stated price *)
(** False in a journal: there a [P] line panics. *)
Theorem C35_journal_refuted :
  forall depth cwd fs,
  ~ (forall date time sym qty sym2 d t q,
       word date -> word sym -> word qty -> word sym2 ->
       match time with Some x => word x /\ starts_digit x = true | None => starts_digit sym = false end ->
       parse_date_opt date = Some d ->
       match time with Some x => parse_time_opt x = Some t | None => t = (mkTime 0 0 0) end ->
       d_from_str qty = Some q -> sym <> sym2 ->
       exists j, parse_text depth cwd fs (price_line date time sym qty sym2 ++ nl) journal_new = Ok j
                 /\ price_on (j_pool j) sym sym2 (mkDT d t) q).
Proof. exact journal_price_refuted. Qed.
Print Assumptions C35_journal_refuted.

(** The function behind it, called on the pool, does record exactly the stated price. *)
Theorem C35_directive_partial :
  forall p date time sym qty sym2 d t q,
  reachable_pool p -> word date -> word sym -> word qty -> word sym2 ->
  match time with Some x => word x /\ starts_digit x = true | None => starts_digit sym = false end ->
  parse_date_opt date = Some d ->
  match time with Some x => parse_time_opt x = Some t | None => t = (mkTime 0 0 0) end ->
  d_from_str qty = Some q -> sym <> sym2 ->
  exists p', parse_price_directive p (price_line date time sym qty sym2) = Ok p'
    /\ pool_extends p p'
    /\ (forall y, pool_find p' y <> None <-> pool_find p y <> None \/ y = sym \/ y = sym2)
    /\ forall a b w v, price_on p' a b w v <->
         a = sym /\ b = sym2 /\ w = mkDT d t /\ v = q
         \/ ~ (a = sym /\ b = sym2 /\ w = mkDT d t) /\ price_on p a b w v.
Proof. exact directive_effect. Qed.
Print Assumptions C35_directive_partial.

Example C35_case :
  price_line (lit "2022-03-03") (Some (lit "13:00:00")) (lit "EUR") (lit "1.12") (lit "USD")
  = lit "P 2022-03-03 13:00:00 EUR 1.12 USD"
  /\ parse_date_opt (lit "2022-03-03") = Some (mkDate 2022 3 3)
  /\ parse_time_opt (lit "13:00:00") = Some (mkTime 13 0 0)
  /\ d_from_str (lit "1.12") = Some (dq 112 2).
Proof. repeat split; vm_compute; reflexivity. Qed.

(** ** C38: exchange breakdown *)
Theorem C38_exchange_partial :
  forall p amt cost pu moment bd np,
  reachable_pool p -> wf_amt amt -> wf_amt cost ->
  exchange p amt cost pu moment = Ok (bd, np) ->
  bd_amount bd = amt
  /\ (pu = false -> bd_final_cost bd = cost)
  /\ (pu = true -> a_c (bd_final_cost bd) = comm_or (a_c cost) (a_c amt)
        /\ rounded (aunits cost * Z.abs (aunits amt)) unit1 (a_q (bd_final_cost bd)))
  /\ (lot_of p amt = None -> bd_basis_cost bd = bd_final_cost bd)
  /\ (forall a ap, lot_of p amt = Some a -> an_price a = Some ap ->
        a_c (bd_basis_cost bd) = comm_or (a_c ap) (a_c amt)
        /\ rounded (aunits ap * aunits amt) unit1 (a_q (bd_basis_cost bd)))
  /\ exists u, unit_cost cost amt pu u
      /\ (np = None <-> u = 0%Z \/ a_c amt = a_c cost)
      /\ (forall pr, np = Some pr ->
           pr_commodity pr = a_c amt /\ pr_when pr = moment
           /\ a_c (pr_price pr) = a_c cost /\ aunits (pr_price pr) = u /\ wf_amt (pr_price pr)).
Proof. exact exchange_breakdown. Qed.
Print Assumptions C38_exchange_partial.

(** What is missing: a lot annotation without a price should leave the basis at the final cost, but
    makes it zero. *)
Theorem C38_basis_refuted :
  ~ (forall p amt cost pu moment bd np,
       reachable_pool p -> wf_amt amt -> wf_amt cost ->
       exchange p amt cost pu moment = Ok (bd, np) ->
       (forall a, lot_of p amt = Some a -> an_price a = None) ->
       bd_basis_cost bd = bd_final_cost bd).
Proof. exact basis_refuted. Qed.
Print Assumptions C38_basis_refuted.

Example C38_case :
  exchange demo_pool (mkAmt (dq 10 0) (Some sEUR)) (mkAmt (dq 12 0) (Some sUSD)) false (day 2023 5 1)
  = Ok (mkBd (mkAmt (dq 10 0) (Some sEUR)) (mkAmt (dq 12 0) (Some sUSD)) (mkAmt (dq 12 0) (Some sUSD)),
        Some (mkPrice (Some sEUR) (day 2023 5 1) (mkAmt (dq 12 1) (Some sUSD)))).
Proof. vm_compute. reflexivity. Qed.

(** ** C47: dates *)
Theorem C47_date_text :
  forall y m d,
  forallb is_digit y = true -> forallb is_digit m = true -> forallb is_digit d = true ->
  length y = 4 -> length m = 2 -> length d = 2 ->
  forall r, parse_date_opt (y ++ 45%N :: m ++ 45%N :: d) = Some r <->
            r = mkDate (number y) (number m) (number d)
            /\ valid_date (mkDate (number y) (number m) (number d)).
Proof. exact date_text. Qed.
Print Assumptions C47_date_text.

(** Whatever the text, what is accepted is a day of the calendar. *)
Theorem C47_accepted_valid : forall s r, parse_date_opt s = Some r -> valid_date r.
Proof. exact parse_date_valid. Qed.
Print Assumptions C47_accepted_valid.

(** Exactly which texts are accepted, and as which day or time. *)
Theorem C47_accepted_texts : forall s r, parse_date_opt s = Some r <-> denotes_date s r.
Proof. exact parse_date_iff. Qed.
Print Assumptions C47_accepted_texts.
Theorem C47_accepted_times : forall s r, parse_time_opt s = Some r <-> denotes_time s r.
Proof. exact parse_time_iff. Qed.
Print Assumptions C47_accepted_times.
(** The same texts are accepted where a day is needed, and as the start of that day where a moment is needed. *)
Theorem C47_days_and_moments :
  forall s, (forall r, parse_date s = Ok r <-> denotes_date s r)
  /\ (parse_date s = Panic PUnwrap <-> ~ exists r, denotes_date s r)
  /\ forall t, parse_datetime s = Some t <-> denotes_date s (dt_date t) /\ dt_time t = mkTime 0 0 0.
Proof.
  intros s.
  unfold parse_date, parse_datetime. split; [|split].
  - intros r. rewrite <- parse_date_iff. destruct (parse_date_opt s); cbn; split; intros H; try discriminate; congruence.
  - split.
    + intros H [r D]. apply parse_date_iff in D. rewrite D in H. discriminate.
    + intros H. destruct (parse_date_opt s) eqn:E; [|reflexivity]. exfalso. apply H. eexists. apply parse_date_iff, E.
  - intros t. rewrite <- parse_date_iff. destruct (parse_date_opt s) as [d|]; cbn; split; intros H.
    + injection H as <-. split; reflexivity.
    + destruct t as [d' tm]. cbn in H. destruct H as [H ->]. injection H as ->. reflexivity.
    + discriminate.
    + destruct H. discriminate.
Qed.
Print Assumptions C47_days_and_moments.
Example C47_moments_case :
  parse_datetime (lit "2024-02-29") = Some (mkDT (mkDate 2024 2 29) (mkTime 0 0 0)) /\ parse_datetime (lit "2024-02-30") = None
  /\ parse_date (lit "2024-02-30") = Panic PUnwrap.
Proof. repeat split; vm_compute; reflexivity. Qed.
Example C47_texts_case :
  denotes_date (lit "2024- 2-9") (mkDate 2024 2 9) /\ denotes_date (lit "+12024-02-29") (mkDate 12024 2 29)
  /\ parse_date_opt (lit "2024-02-29x") = None /\ parse_date_opt (lit "12024-02-29") = None /\ parse_date_opt (lit "2024 -02-29") = None
  /\ denotes_time (lit "9:05:60") (mkTime 9 5 60) /\ parse_time_opt (lit "9:05") = None.
Proof.
  split; [apply parse_date_iff; vm_compute; reflexivity|]. split; [apply parse_date_iff; vm_compute; reflexivity|].
  split; [vm_compute; reflexivity|]. split; [vm_compute; reflexivity|]. split; [vm_compute; reflexivity|].
  split; [apply parse_time_iff; vm_compute; reflexivity|vm_compute; reflexivity].
Qed.

Theorem C47_order :
  forall t1 t2, valid_dt t1 -> valid_dt t2 ->
  (dt_key t1 < dt_key t2 <-> before t1 t2)%Z /\ (dt_key t1 = dt_key t2 <-> t1 = t2).
Proof. exact order_chronological. Qed.
Print Assumptions C47_order.

Example C47_case :
  parse_date_opt (lit "2024-02-29") = Some (mkDate 2024 2 29)
  /\ parse_date_opt (lit "1900-02-29") = None /\ parse_date_opt (lit "2023-04-31") = None.
Proof. repeat split; vm_compute; reflexivity. Qed.
