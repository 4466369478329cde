(** Concrete pools used by the examples in PropertiesPrices.v. *)
From Coq Require Import String List NArith ZArith Bool Lia.
From Verif Require Import Base BaseFacts Decimal Dates Amount Balance Scanner History Pool Account Journal Xact Parser.
From Verif Require Import SpecDecimal SpecAmount SpecDates SpecPool SpecText DatesFacts PoolFacts PriceFacts PriceProofs ArithProofs.
Import ListNotations.
Open Scope nat_scope.

Definition sEUR := lit "EUR".
Definition sUSD := lit "USD".
Definition sAUD := lit "AUD".
Definition sBAM := lit "BAM".
Definition day (y m d : Z) : datetime := mkDT (mkDate y m d) midnight.
Definition dq (m : Z) (s : nat) : dec := d_make false m s.

(** The four commodities, no prices. *)
Definition demo_empty : pool :=
  fold_left (fun p s => fst (pool_find_or_create p s None)) [sEUR; sUSD; sAUD; sBAM] pool_new.
Definition demo_records : list record :=
  [(sEUR, sUSD, day 2023 2 1, dq 109 2); (sEUR, sUSD, day 2023 3 1, dq 110 2);
   (sUSD, sAUD, day 2023 1 1, dq 15 1); (sEUR, sUSD, day 2023 1 1, dq 108 2);
   (sEUR, sUSD, day 2023 3 1, dq 12 1)].
Definition demo_pool : pool :=
  match record_all demo_empty demo_records with Ok p => p | _ => pool_new end.

Lemma demo_empty_reachable : reachable_pool demo_empty.
Proof. unfold demo_empty; cbn [fold_left]. repeat apply rp_find_or_create; try (intros ? ? H; discriminate). constructor. Qed.
Lemma day_valid y m d : from_ymd y m d = Some (mkDate y m d) -> valid_dt (day y m d).
Proof. intros H. split; [apply from_ymd_spec in H; apply H|apply midnight_valid]. Qed.
Lemma demo_records_valid : valid_records demo_records.
Proof.
  unfold demo_records, valid_records. repeat (apply Forall_cons || apply Forall_nil);
  (split; [apply day_valid; vm_compute; reflexivity|unfold dq, d_make, wf_dec; cbn [d_m d_s andb negb Z.eqb]; lia]).
Qed.
Lemma demo_pool_ok : record_all demo_empty demo_records = Ok demo_pool.
Proof. vm_compute. reflexivity. Qed.
Lemma record_all_reachable rs : forall p p', reachable_pool p -> valid_records rs ->
  record_all p rs = Ok p' -> reachable_pool p'.
Proof.
  induction rs as [|[[[s t] w] v] rs IH] using rev_ind; intros p p' R V H; unfold valid_records in *.
  - injection H as <-. exact R.
  - rewrite record_all_snoc in H. inv_bind H.
    apply Forall_app in V as [V1 V2]. inversion V2 as [|? ? Vr _]; subst. cbv beta iota in Vr.
    eapply rp_add_price; [eapply IH; eauto| | |exact H]; apply Vr.
Qed.
Lemma demo_pool_reachable : reachable_pool demo_pool.
Proof. eapply record_all_reachable; [apply demo_empty_reachable|apply demo_records_valid|apply demo_pool_ok]. Qed.
Lemma demo_empty_unpriced s t : ~ priced demo_empty s t.
Proof. intros (w & v & a & b & _ & _ & H). vm_compute in H. exact H. Qed.

Lemma moment_refuted :
  ~ (forall astar p s t now moment oldest d amt,
       shortest_paths astar -> reachable_pool p ->
       valid_dt now -> valid_dt moment -> valid_dt oldest -> s <> t ->
       (exists c, pool_find p s = Some c) -> (exists c, pool_find p t = Some c) ->
       pool_find_price astar p (Some s) (Some t) now moment oldest = Ok (Some (d, amt)) ->
       not_after d moment /\ not_after oldest d).
Proof.
  intros H.
  destruct (H bfs demo_pool sEUR sUSD (day 2024 1 1) (day 2023 2 10) (day 2000 1 1) (day 2023 3 1) (mkAmt (dq 12 1) (Some sUSD)))
    as [A _].
  - exact bfs_shortest.
  - exact demo_pool_reachable.
  - apply day_valid; vm_compute; reflexivity.
  - apply day_valid; vm_compute; reflexivity.
  - apply day_valid; vm_compute; reflexivity.
  - vm_compute. discriminate.
  - eexists. vm_compute. reflexivity.
  - eexists. vm_compute. reflexivity.
  - vm_compute. reflexivity.
  - destruct A as [A|A]; [|discriminate]. cbn in A. lia.
Qed.

Lemma journal_price_refuted :
  forall depth cwd fs,
  ~ (forall date time sym qty sym2 d t q,
       word date -> word sym -> word qty -> word sym2 ->
       match time with Some x => word x /\ starts_digit x = true | None => starts_digit sym = false end ->
       parse_date_opt date = Some d ->
       match time with Some x => parse_time_opt x = Some t | None => t = midnight end ->
       d_from_str qty = Some q -> sym <> sym2 ->
       exists j, parse_text depth cwd fs (price_line date time sym qty sym2 ++ nl) journal_new = Ok j
                 /\ price_on (j_pool j) sym sym2 (mkDT d t) q).
Proof.
  intros depth cwd fs H. destruct (H (lit "2023-01-01") None (lit "EUR") (lit "1.2") (lit "USD") (mkDate 2023 1 1) midnight (dq 12 1))
    as (j & E & _); try (vm_compute; repeat split; congruence).
  vm_compute in E. discriminate.
Qed.

(** A commodity with a lot date but no lot price. *)
Definition lot_pool : pool :=
  fst (pool_find_or_create demo_empty (lit "VTI") (Some (mkAnn None (Some (mkDate 2023 1 1))))).
Lemma basis_refuted :
  ~ (forall p amt cost pu moment bd np,
       reachable_pool p -> wf_amt amt -> wf_amt cost ->
       exchange p amt cost pu moment = Ok (bd, np) ->
       (forall a, lot_of p amt = Some a -> an_price a = None) ->
       bd_basis_cost bd = bd_final_cost bd).
Proof.
  intros H.
  assert (E : exists bd np, exchange lot_pool (mkAmt (dq 10 0) (Some (lit "VTI"))) (mkAmt (dq 12 0) (Some sUSD)) false
                              (day 2023 5 1) = Ok (bd, np) /\ bd_basis_cost bd <> bd_final_cost bd).
  { eexists. eexists. split; [vm_compute; reflexivity|vm_compute; discriminate]. }
  destruct E as (bd & np & E & N). apply N. eapply (H lot_pool); [| | |exact E|].
  - apply rp_find_or_create; [exact demo_empty_reachable|]. intros x pr [= <-] Hp. discriminate.
  - unfold dq, d_make; wf_lit.
  - unfold dq, d_make; wf_lit.
  - intros a Ha. vm_compute in Ha. injection Ha as <-. reflexivity.
Qed.
