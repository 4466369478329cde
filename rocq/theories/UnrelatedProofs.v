(** Proofs for C105: prices that do not change a lookup. *)
From Coq Require Import String List NArith ZArith Bool Lia Arith.
From Verif Require Import Base Decimal Dates Amount Balance History Pool.
From Verif Require Import SpecDecimal SpecAmount SpecDates SpecPool SpecQuote SpecUnrelated.
From Verif Require Import BaseFacts BalanceFacts DecimalFacts DatesFacts PoolFacts PriceFacts PriceProofs QuoteProofs.
Import ListNotations.
Open Scope list_scope.
Open Scope nat_scope.

Lemma along_same p : wf_pool p -> forall path s x y, newest_along p s path x -> newest_along p s path y -> x = y.
Proof.
  intros W path. induction path as [|u path IH]; intros s x y Hx Hy.
  - destruct x; [|destruct Hx]. destruct y; [reflexivity|destruct Hy].
  - destruct x as [|[w v] x]; [destruct Hx|]. destruct y as [|[w' v'] y]; [destruct Hy|].
    destruct Hx as [N Hx], Hy as [N' Hy]. rewrite (newest_unique p _ _ _ _ _ _ W N N'). f_equal. eapply IH; eauto.
Qed.
(** What a lookup depends on: the chains and the newest prices along the shortest one. *)
Theorem chain_lookup astar astar' p p' s t now moment oldest moment' oldest' :
  shortest_paths astar -> shortest_paths astar' -> reachable_pool p -> reachable_pool p' -> valid_dt now ->
  (pool_find p s <> None <-> pool_find p' s <> None) -> (pool_find p t <> None <-> pool_find p' t <> None) ->
  (forall path, price_chain p s path t <-> price_chain p' s path t) ->
  (forall path x, shortest_chain p s path t -> newest_along p s path x -> newest_along p' s path x) -> one_way p s t ->
  pool_find_price astar p (Some s) (Some t) now moment oldest = pool_find_price astar' p' (Some s) (Some t) now moment' oldest'.
Proof.
  intros A A' R R' Vn Ks Kt C NE U. apply reachable_wf in R as W. apply reachable_wf in R' as W'.
  destruct (list_eq_dec N.eq_dec s t) as [->|Hst].
  { unfold pool_find_price. destruct (comm_eqb_spec (Some t) (Some t)) as [_|E]; [reflexivity|congruence]. }
  destruct (pool_find p s) as [cs|] eqn:Fs.
  2:{ unfold pool_find_price. destruct (comm_eqb_spec (Some s) (Some t)) as [E|_]; [congruence|]. cbn [deref]. rewrite Fs.
      destruct (pool_find p' s) as [c|] eqn:X; [exfalso; apply (proj2 Ks); congruence|]. reflexivity. }
  destruct (pool_find p' s) as [cs'|] eqn:Fs'; [|exfalso; apply (proj1 Ks); congruence].
  destruct (pool_find p t) as [ct|] eqn:Ft.
  2:{ unfold pool_find_price. destruct (comm_eqb_spec (Some s) (Some t)) as [E|_]; [congruence|]. cbn [deref]. rewrite Fs, Fs', Ft.
      destruct (pool_find p' t) as [c|] eqn:X; [exfalso; apply (proj2 Kt); congruence|]. reflexivity. }
  destruct (pool_find p' t) as [ct'|] eqn:Ft'; [|exfalso; apply (proj1 Kt); congruence].
  destruct (find_price_cases astar p s t now moment oldest A W Hst Vn (ex_intro _ _ Fs) (ex_intro _ _ Ft))
    as [[E N]|(path & prices & P & M & NA & F & E)];
  destruct (find_price_cases astar' p' s t now moment' oldest' A' W' Hst Vn (ex_intro _ _ Fs') (ex_intro _ _ Ft'))
    as [[E' N']|(path' & prices' & P' & M' & NA' & F' & E')].
  - rewrite E, E'. reflexivity.
  - exfalso. apply (N path'), C, P'.
  - exfalso. apply (N' path), C, P.
  - assert (path = path').
    { apply U; [split; assumption|]. split; [apply C, P'|]. intros other Ho. apply M', C, Ho. }
    subst path'. assert (prices = prices').
    { apply (along_same p' W' path s); [apply NE; [split; assumption|exact NA]|exact NA']. }
    subst prices'. rewrite E, E'. reflexivity.
Qed.

Section Recorded.
  Variables (p p' : pool) (u v : str) (w : datetime) (q : dec).
  Hypothesis W : wf_pool p.
  Hypothesis Vw : valid_dt w.
  Hypothesis H : pool_add_price p (Some u) w (mkAmt q (Some v)) = Ok p'.

  Lemma rec_known s : pool_find p' s = pool_find p s.
  Proof. apply add_price_inv in H as (? & ? & ? & ? & _ & _ & _ & _ & _ & ->). reflexivity. Qed.
  Lemma rec_other s t : ~ (s = u /\ t = v) -> forall w' x, price_on p' s t w' x <-> price_on p s t w' x.
  Proof.
    intros N w' x. rewrite (add_price_effect p _ _ _ p' W Vw H). cbn [a_c]. destruct (comm_dec (Some s) (Some u)) as [E|_]; [|tauto].
    destruct (comm_dec (Some t) (Some v)) as [E'|_]; [|tauto]. exfalso. apply N. split; congruence.
  Qed.
  Lemma rec_same w' x : price_on p' u v w' x <-> w' = w /\ x = q \/ w' <> w /\ price_on p u v w' x.
  Proof.
    rewrite (add_price_effect p _ _ _ p' W Vw H). cbn [a_c a_q]. destruct (comm_dec (Some u) (Some u)) as [_|E]; [|congruence].
    destruct (comm_dec (Some v) (Some v)) as [_|E]; [|congruence]. tauto.
  Qed.
  Lemma pair_dec (s t : str) : s = u /\ t = v \/ ~ (s = u /\ t = v).
  Proof. destruct (list_eq_dec N.eq_dec s u); [|tauto]. destruct (list_eq_dec N.eq_dec t v); tauto. Qed.
  Lemma rec_priced s t : priced p s t -> priced p' s t.
  Proof.
    intros (w' & x & P). destruct (pair_dec s t) as [[-> ->]|N]; [|exists w', x; apply rec_other; assumption].
    exists w, q. apply rec_same. auto.
  Qed.
  Lemma rec_unpriced s t : ~ (s = u /\ t = v) -> priced p' s t -> priced p s t.
  Proof. intros N (w' & x & P). exists w', x. apply (rec_other s t N), P. Qed.
  Lemma rec_chain path : forall s t, price_chain p s path t -> price_chain p' s path t.
  Proof. induction path as [|x path IH]; intros s t C; [exact C|]. destruct C as [P C]. split; [apply rec_priced, P|apply IH, C]. Qed.
  Lemma rec_newest s t w' x : ~ (s = u /\ t = v) -> newest_price p s t w' x -> newest_price p' s t w' x.
  Proof. intros N [P M]. split; [apply (rec_other s t N), P|]. intros w1 x1 P1. eapply M, (rec_other s t N), P1. Qed.

  Lemma leads_cons s x t : priced p s x -> leads p x t -> leads p s t.
  Proof. intros P [path C]. exists (x :: path). split; assumption. Qed.
  Lemma unrelated_chain path : forall s t, price_chain p' s path t -> price_chain p s path t \/ leads p s u /\ leads p v t.
  Proof.
    induction path as [|x path IH]; intros s t C; [left; exact C|]. destruct C as [P C]. destruct (pair_dec s x) as [[-> ->]|N].
    - right. split; [exists []; reflexivity|]. destruct (IH _ _ C) as [C'|[_ L]]; [exists path; exact C'|exact L].
    - apply (rec_unpriced s x N) in P. destruct (IH _ _ C) as [C'|[L1 L2]]; [left; split; assumption|right].
      split; [eapply leads_cons; eauto|exact L2].
  Qed.
  Lemma unrelated_along path : forall s t x, ~ (leads p s u /\ leads p v t) -> price_chain p s path t -> newest_along p s path x -> newest_along p' s path x.
  Proof.
    induction path as [|y path IH]; intros s t x N C NA; [exact NA|]. destruct x as [|[w' x'] x]; [destruct NA|]. destruct NA as [NP NA]. destruct C as [P C].
    split.
    - apply rec_newest; [|exact NP]. intros [-> ->]. apply N. split; [exists []; reflexivity|exists path; exact C].
    - eapply IH; [|exact C|exact NA]. intros [L1 L2]. apply N. split; [eapply leads_cons; eauto|exact L2].
  Qed.
  Lemma older_newest w1 x1 s t w' x : price_on p u v w1 x1 -> before w w1 -> newest_price p s t w' x -> newest_price p' s t w' x.
  Proof.
    intros P1 B NP. destruct (pair_dec s t) as [[-> ->]|N]; [|apply rec_newest; assumption]. destruct NP as [P M].
    pose proof (M _ _ P1) as L. pose proof (price_on_valid p u v _ _ W P) as V'. pose proof (price_on_valid p u v _ _ W P1) as V1.
    apply dt_key_le in L; auto. apply dt_key_lt in B; auto.
    split.
    - apply rec_same. right. split; [|exact P]. intros ->. lia.
    - intros w2 x2 P2. apply rec_same in P2 as [[-> _]|[_ P2]]; [|eapply M, P2]. apply dt_key_le; auto. lia.
  Qed.
  Lemma older_chain w1 x1 path : price_on p u v w1 x1 -> forall s t, price_chain p' s path t -> price_chain p s path t.
  Proof.
    intros P1. induction path as [|x path IH]; intros s t C; [exact C|]. destruct C as [P C]. split; [|apply IH, C].
    destruct (pair_dec s x) as [[-> ->]|N]; [exists w1, x1; exact P1|apply (rec_unpriced s x N), P].
  Qed.
  Lemma older_along w1 x1 path : price_on p u v w1 x1 -> before w w1 -> forall s x, newest_along p s path x -> newest_along p' s path x.
  Proof.
    intros P1 B. induction path as [|y path IH]; intros s x NA; [exact NA|]. destruct x as [|[w' x'] x]; [destruct NA|]. destruct NA as [NP NA].
    split; [eapply older_newest; eauto|apply IH, NA].
  Qed.
End Recorded.

Theorem older_lookup astar astar' p p' u v w q w1 q1 s t now moment oldest moment' oldest' :
  shortest_paths astar -> shortest_paths astar' -> reachable_pool p -> valid_dt w -> wf_dec q -> valid_dt now ->
  pool_add_price p (Some u) w (mkAmt q (Some v)) = Ok p' -> price_on p u v w1 q1 -> before w w1 -> one_way p s t ->
  pool_find_price astar p (Some s) (Some t) now moment oldest = pool_find_price astar' p' (Some s) (Some t) now moment' oldest'.
Proof.
  intros A A' R Vw Wq Vn H P1 B U. apply reachable_wf in R as W.
  assert (R' : reachable_pool p') by exact (rp_add_price _ p (Some u) w (mkAmt q (Some v)) p' R Vw Wq H).
  apply chain_lookup; auto; try (rewrite (rec_known p p' u v w q H); tauto).
  - intros path. split; [apply (rec_chain p p' u v w q W Vw H)|exact (older_chain p p' u v w q W Vw H w1 q1 path P1 s t)].
  - intros path x _. exact (older_along p p' u v w q W Vw H w1 q1 path P1 B s x).
Qed.
Theorem unrelated_lookup astar astar' p p' u v w q s t now moment oldest moment' oldest' :
  shortest_paths astar -> shortest_paths astar' -> reachable_pool p -> valid_dt w -> wf_dec q -> valid_dt now ->
  pool_add_price p (Some u) w (mkAmt q (Some v)) = Ok p' -> ~ (leads p s u /\ leads p v t) -> one_way p s t ->
  pool_find_price astar p (Some s) (Some t) now moment oldest = pool_find_price astar' p' (Some s) (Some t) now moment' oldest'.
Proof.
  intros A A' R Vw Wq Vn H N U. apply reachable_wf in R as W.
  assert (R' : reachable_pool p') by exact (rp_add_price _ p (Some u) w (mkAmt q (Some v)) p' R Vw Wq H).
  apply chain_lookup; auto; try (rewrite (rec_known p p' u v w q H); tauto).
  - intros path. split; [apply (rec_chain p p' u v w q W Vw H)|]. intros C. destruct (unrelated_chain p p' u v w q W Vw H path s t C) as [C'|L]; [exact C'|contradiction].
  - intros path x [C _]. exact (unrelated_along p p' u v w q W Vw H path s t x N C).
Qed.
