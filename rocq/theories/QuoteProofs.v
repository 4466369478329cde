(** Proofs for C104: what a price lookup depends on. *)
From Coq Require Import String List NArith ZArith Bool Lia Arith.
From Verif Require Import Base Decimal Dates Amount Balance Scanner History Pool Account Journal Xact Parser Report Lib.
From Verif Require Import SpecAmount SpecDates SpecAccount SpecXact SpecPool SpecJournal SpecReport SpecValue SpecTogether SpecQuote.
From Verif Require Import BaseFacts PriceLookupProofs JournalFacts BalanceFacts DecimalFacts DatesFacts PoolFacts PriceFacts PriceProofs JournalProofs TogetherProofs.
Import ListNotations.
Open Scope list_scope.
Open Scope nat_scope.

Lemma quotes_sym p p' : same_quotes p p' -> same_quotes p' p.
Proof. intros [K P]. split; [intros s; rewrite K; tauto|intros s t w v; rewrite P; tauto]. Qed.
Lemma quotes_priced p p' s t : same_quotes p p' -> priced p s t -> priced p' s t.
Proof. intros Q (w & v & H). exists w, v. apply (sq_prices _ _ Q), H. Qed.
Lemma quotes_chain p p' path : forall s t, same_quotes p p' -> price_chain p s path t -> price_chain p' s path t.
Proof.
  induction path as [|x path IH]; intros s t Q H; [exact H|]. destruct H as [H C]. split; [eapply quotes_priced; eauto|apply IH; auto].
Qed.
Lemma quotes_shortest p p' s path t : same_quotes p p' -> shortest_chain p s path t -> shortest_chain p' s path t.
Proof.
  intros Q [C M]. split; [eapply quotes_chain; eauto|]. intros other Ho. apply M. eapply quotes_chain; [apply quotes_sym, Q|exact Ho].
Qed.
Lemma quotes_newest p p' s t w v : same_quotes p p' -> newest_price p s t w v -> newest_price p' s t w v.
Proof. intros Q [H M]. split; [apply (sq_prices _ _ Q), H|]. intros w' v' H'. eapply M, (sq_prices _ _ Q), H'. Qed.
Lemma newest_unique p s t w v w' v' : wf_pool p -> newest_price p s t w v -> newest_price p s t w' v' -> (w, v) = (w', v').
Proof.
  intros W N N'. pose proof N as [(a & b & Ia & Ib & _) _].
  apply (newest_direct p s t a b W Ia Ib) in N. apply (newest_direct p s t a b W Ia Ib) in N'. congruence.
Qed.
Lemma along_unique p p' path : wf_pool p' -> same_quotes p p' -> forall s x y, newest_along p s path x -> newest_along p' s path y -> x = y.
Proof.
  intros W Q. induction path as [|u path IH]; intros s x y Hx Hy.
  - destruct x; [|destruct Hx]. destruct y; [reflexivity|destruct Hy].
  - destruct x as [|[w v] x]; [destruct Hx|]. destruct y as [|[w' v'] y]; [destruct Hy|].
    destruct Hx as [N Hx], Hy as [N' Hy]. apply (quotes_newest p p' _ _ _ _ Q) in N.
    rewrite (newest_unique p' _ _ _ _ _ _ W N N'). f_equal. eapply IH; eauto.
Qed.
Lemma known_some (p : pool) s : (exists c, pool_find p s = Some c) <-> pool_find p s <> None.
Proof. destruct (pool_find p s) as [c|]; split; try congruence; [intros _; exists c; reflexivity|intros [c H]; discriminate H]. Qed.

Theorem quotes_lookup astar astar' p p' s t now moment oldest moment' oldest' :
  shortest_paths astar -> shortest_paths astar' -> reachable_pool p -> reachable_pool p' -> valid_dt now -> same_quotes p p' -> one_way p s t ->
  pool_find_price astar p (Some s) (Some t) now moment oldest = pool_find_price astar' p' (Some s) (Some t) now moment' oldest'.
Proof.
  intros A A' R R' Vn Q U. apply reachable_wf in R as W. apply reachable_wf in R' as W'.
  destruct (list_eq_dec N.eq_dec s t) as [->|Hst].
  { unfold pool_find_price. destruct (comm_eqb_spec (Some t) (Some t)) as [_|E]; [reflexivity|congruence]. }
  pose proof (sq_known _ _ Q s) as Ks. pose proof (sq_known _ _ Q t) as Kt.
  destruct (pool_find p s) as [cs|] eqn:Fs.
  2:{ unfold pool_find_price. destruct (comm_eqb_spec (Some s) (Some t)) as [E|_]; [congruence|]. cbn [deref]. rewrite Fs.
      destruct (pool_find p' s) as [c|] eqn:X; [exfalso; apply (proj2 Ks); congruence|]. reflexivity. }
  destruct (pool_find p' s) as [cs'|] eqn:Fs'; [|exfalso; apply (proj1 Ks); congruence].
  destruct (pool_find p t) as [ct|] eqn:Ft.
  2:{ unfold pool_find_price. destruct (comm_eqb_spec (Some s) (Some t)) as [E|_]; [congruence|]. cbn [deref]. rewrite Fs, Fs', Ft.
      destruct (pool_find p' t) as [c|] eqn:X; [exfalso; apply (proj2 Kt); congruence|]. reflexivity. }
  destruct (pool_find p' t) as [ct'|] eqn:Ft'; [|exfalso; apply (proj1 Kt); congruence].
  destruct (find_price_cases astar p s t now moment oldest A W Hst Vn (ex_intro _ _ Fs) (ex_intro _ _ Ft))
    as [[E N]|(path & prices & P & M & NA & F & E)];
  destruct (find_price_cases astar' p' s t now moment' oldest' A' W' Hst Vn (ex_intro _ _ Fs') (ex_intro _ _ Ft'))
    as [[E' N']|(path' & prices' & P' & M' & NA' & F' & E')].
  - rewrite E, E'. reflexivity.
  - exfalso. apply (N path'). eapply quotes_chain; [apply quotes_sym, Q|exact P'].
  - exfalso. apply (N' path). eapply quotes_chain; [exact Q|exact P].
  - assert (path = path').
    { apply U; [split; assumption|]. apply (quotes_shortest p' p); [apply quotes_sym, Q|]. split; assumption. }
    subst path'. assert (prices = prices') by (eapply along_unique; eauto). subst prices'. rewrite E, E'. reflexivity.
Qed.

Theorem quotes_found astar astar' p p' s t now moment oldest moment' oldest' :
  shortest_paths astar -> shortest_paths astar' -> reachable_pool p -> reachable_pool p' -> valid_dt now -> same_quotes p p' ->
  (pool_find_price astar p (Some s) (Some t) now moment oldest = Ok None <-> pool_find_price astar' p' (Some s) (Some t) now moment' oldest' = Ok None).
Proof.
  intros A A' R R' Vn Q.
  assert (H : forall f f' q q' m o m' o', shortest_paths f -> shortest_paths f' -> reachable_pool q -> reachable_pool q' -> same_quotes q q' ->
    pool_find_price f q (Some s) (Some t) now m o = Ok None -> pool_find_price f' q' (Some s) (Some t) now m' o' = Ok None).
  { clear A A' R R' Q. intros f f' q q' m o m' o' A A' R R' Q. apply reachable_wf in R as W. apply reachable_wf in R' as W'.
    pose proof (sq_known _ _ Q s) as Ks. pose proof (sq_known _ _ Q t) as Kt. intros E.
    assert (Hst : s <> t).
    { intros ->. unfold pool_find_price in E. destruct (comm_eqb_spec (Some t) (Some t)) as [_|X]; [discriminate E|congruence]. }
    assert (D : pool_find q s <> None /\ pool_find q t <> None).
    { unfold pool_find_price in E. destruct (comm_eqb_spec (Some s) (Some t)) as [X|_]; [congruence|]. cbn [deref] in E.
      destruct (pool_find q s); [|discriminate E]. cbn [bind] in E. destruct (pool_find q t); [|discriminate E]. split; discriminate. }
    destruct D as [Ds Dt].
    destruct (find_price_cases f q s t now m o A W Hst Vn (proj2 (known_some q s) Ds) (proj2 (known_some q t) Dt))
      as [[_ N]|(path & prices & P & M & NA & F & E1)].
    - destruct (find_price_cases f' q' s t now m' o' A' W' Hst Vn (proj2 (known_some q' s) (proj1 Ks Ds)) (proj2 (known_some q' t) (proj1 Kt Dt)))
        as [[E' _]|(path & prices & P & _)]; [exact E'|]. exfalso. apply (N path). eapply quotes_chain; [apply quotes_sym, Q|exact P].
    - exfalso. rewrite E1 in E. destruct (length path =? 1); [destruct prices as [|[w v] prices]; discriminate E|].
      destruct (fold_outcome d_mul (map snd prices) d_one) as [r| |]; discriminate E. }
  split; apply H; auto. apply quotes_sym, Q.
Qed.

Theorem quotes_direct p p' s t : reachable_pool p -> reachable_pool p' -> same_quotes p p' -> direct_price p s t = direct_price p' s t.
Proof.
  intros R R' Q. apply reachable_wf in R as W. apply reachable_wf in R' as W'.
  assert (H : forall q q' w v, wf_pool q -> wf_pool q' -> same_quotes q q' -> direct_price q s t = Some (w, v) -> direct_price q' s t = Some (w, v)).
  { clear. intros q q' w v W W' Q H. unfold direct_price in H.
    destruct (index_of q s) as [a|] eqn:Ia; [|discriminate H]. destruct (index_of q t) as [b|] eqn:Ib; [|discriminate H].
    apply (newest_direct q s t a b W Ia Ib) in H. apply (quotes_newest q q' _ _ _ _ Q) in H.
    pose proof H as [(a' & b' & Ia' & Ib' & _) _]. unfold direct_price. rewrite Ia', Ib'. apply (newest_direct q' s t a' b' W' Ia' Ib'), H. }
  destruct (direct_price p s t) as [[w v]|] eqn:E; [symmetry; eapply H; [exact W|exact W'|exact Q|exact E]|].
  destruct (direct_price p' s t) as [[w v]|] eqn:E'; [|reflexivity].
  rewrite (H p' p w v W' W (quotes_sym _ _ Q) E') in E. discriminate E.
Qed.

Theorem direct_one_way p s t : s <> t -> priced p s t -> one_way p s t.
Proof.
  intros N P. assert (C : price_chain p s [t] t) by (split; [exact P|reflexivity]).
  assert (H : forall x, shortest_chain p s x t -> x = [t]).
  { intros x [Cx M]. specialize (M _ C). destruct x as [|u [|u' x]]; [exfalso; exact (N Cx)| |cbn in M; lia]. destruct Cx as [_ E]. cbn in E. congruence. }
  intros x y Hx Hy. rewrite (H x Hx), (H y Hy). reflexivity.
Qed.

Lemma price_decided p s t w : (exists v, price_on p s t w v) \/ forall v, ~ price_on p s t w v.
Proof.
  unfold price_on, index_of. destruct (pool_find p s) as [cs|]; [|right; intros u (x & y & X & _); discriminate].
  destruct (pool_find p t) as [ct|]; [|right; intros u (x & y & _ & X & _); discriminate]. cbn [option_map].
  destruct (in_dec dt_dec w (map fst (points (p_hist p) (c_index cs) (c_index ct)))) as [I|I].
  - apply in_map_iff in I as ([w' u] & <- & Hu). left. exists u, (c_index cs), (c_index ct). auto.
  - right. intros u (x & y & X & Y & Hu). injection X as <-. injection Y as <-. apply I. apply (in_map fst) in Hu. exact Hu.
Qed.

Lemma together_prices j1 j2 j : together j1 j2 j -> prices_agree (j_pool j1) (j_pool j2) ->
  forall s t w v, price_on (j_pool j) s t w v <-> price_on (j_pool j1) s t w v \/ price_on (j_pool j2) s t w v.
Proof.
  intros T G s t w v. rewrite (tg_prices _ _ _ T). split; [tauto|]. intros [H|H]; [|auto].
  destruct (price_decided (j_pool j2) s t w) as [[u Hu]|D]; [|auto]. left. rewrite (G _ _ _ _ _ H Hu). exact Hu.
Qed.

Theorem files_quotes depth cwd fs f1 f2 j1 j2 j j' :
  read_journal_files depth cwd fs f1 = Ok j1 -> read_journal_files depth cwd fs f2 = Ok j2 ->
  read_journal_files depth cwd fs (f1 ++ f2) = Ok j -> read_journal_files depth cwd fs (f2 ++ f1) = Ok j' ->
  prices_agree (j_pool j1) (j_pool j2) -> reachable_pool (j_pool j) /\ reachable_pool (j_pool j') /\ same_quotes (j_pool j) (j_pool j').
Proof.
  intros H1 H2 H H' G. pose proof (files_together _ _ _ _ _ _ _ _ H1 H2 H) as T. pose proof (files_together _ _ _ _ _ _ _ _ H2 H1 H') as T'.
  assert (Rd : forall f k, read_journal_files depth cwd fs f = Ok k -> reachable_pool (j_pool k)).
  { intros f k Hk. assert (Rk : reachable_journal k) by (revert Hk; apply files_reachable, rj_new). apply reachable_inv in Rk. apply Rk. }
  split; [eapply Rd; eauto|]. split; [eapply Rd; eauto|]. split.
  - intros s. rewrite (tg_commodities _ _ _ T), (tg_commodities _ _ _ T'). tauto.
  - assert (G' : prices_agree (j_pool j2) (j_pool j1)) by (intros s t w v1 v2 A B; symmetry; eapply G; eauto).
    intros s t w v. rewrite (together_prices _ _ _ T G), (together_prices _ _ _ T' G'). tauto.
Qed.

Lemma last_key (l : list (datetime * dec)) w v : In (w, v) l -> (forall v', In (w, v') l -> v' = v) ->
  exists r1 r2, l = r1 ++ (w, v) :: r2 /\ Forall (fun r => fst r <> w) r2.
Proof.
  induction l as [|[w' v'] l IH] using rev_ind; intros I U; [destruct I|].
  destruct (dt_dec w' w) as [->|N].
  - exists l, []. rewrite (U v'); [|apply in_or_app; right; left; reflexivity]. split; [reflexivity|constructor].
  - apply in_app_or in I as [I|[I|[]]]; [|exfalso; apply N; congruence].
    destruct IH as (r1 & r2 & E & F); [exact I|intros u Hu; apply U, in_or_app; left; exact Hu|].
    exists r1, (r2 ++ [(w', v')]). split; [rewrite E, <- app_assoc; reflexivity|]. apply Forall_app. split; [exact F|]. constructor; [exact N|constructor].
Qed.
Lemma record_all_comms rs : forall p p', record_all p rs = Ok p' -> p_comms p' = p_comms p.
Proof.
  induction rs as [|[[[s t] w] v] rs IH] using rev_ind; intros p p' H; [injection H as <-; reflexivity|].
  rewrite record_all_snoc in H. inv_bind H. apply IH in EQ. apply add_price_inv in H as (? & ? & ? & ? & _ & _ & _ & _ & _ & ->). exact EQ.
Qed.
Lemma recorded_prices p rs p' : wf_pool p -> valid_records rs -> records_agree rs -> record_all p rs = Ok p' ->
  forall s t w v, price_on p' s t w v <-> In (s, t, w, v) rs \/ price_on p s t w v /\ forall v', ~ In (s, t, w, v') rs.
Proof.
  intros W V G H s t w v. destruct (record_all_prices p rs p' W V H) as (_ & _ & P). rewrite P.
  assert (N : Forall (fun r => fst r <> w) (records_for s t rs) <-> forall v', ~ In (s, t, w, v') rs).
  { rewrite Forall_forall. split.
    - intros F v' I. apply in_records in I. exact (F _ I eq_refl).
    - intros F [w' v'] I E. cbn in E. subst w'. apply in_records in I. exact (F _ I). }
  rewrite N. split.
  - intros [(r1 & r2 & E & _)|D]; [left|right; exact D]. apply in_records. rewrite E. apply in_or_app. right. left. reflexivity.
  - intros [I|D]; [left|right; exact D]. apply last_key; [apply in_records, I|]. intros v' I'. apply in_records in I'. eapply G; eauto.
Qed.
Theorem records_quotes p rs1 rs2 p1 p2 : reachable_pool p -> valid_records rs1 -> records_agree rs1 -> (forall r, In r rs1 <-> In r rs2) ->
  record_all p rs1 = Ok p1 -> record_all p rs2 = Ok p2 -> same_quotes p1 p2.
Proof.
  intros R V G S H1 H2. apply reachable_wf in R as W.
  assert (V2 : valid_records rs2) by (unfold valid_records in *; rewrite Forall_forall in *; intros r I; apply V, S, I).
  assert (G2 : records_agree rs2) by (intros s t w v1 v2 A B; apply S in A; apply S in B; eapply G; eauto).
  split.
  - intros s. unfold pool_find. rewrite (record_all_comms _ _ _ H1), (record_all_comms _ _ _ H2). tauto.
  - intros s t w v. rewrite (recorded_prices _ _ _ W V G H1), (recorded_prices _ _ _ W V2 G2 H2). rewrite S.
    assert (E : (forall v', ~ In (s, t, w, v') rs1) <-> forall v', ~ In (s, t, w, v') rs2) by (split; intros F v' I; apply S in I; exact (F _ I)).
    rewrite E. tauto.
Qed.

Definition recordable (p : pool) (r : record) : Prop :=
  let '(s, t, _, _) := r in pool_find p s <> None /\ pool_find p t <> None /\ s <> t.
Lemma recordable_comms p p' r : p_comms p' = p_comms p -> recordable p r -> recordable p' r.
Proof. destruct r as [[[s t] w] v]. unfold recordable, pool_find. intros ->. auto. Qed.
Lemma record_all_recordable rs : forall p p', wf_pool p -> valid_records rs -> record_all p rs = Ok p' -> Forall (recordable p) rs.
Proof.
  induction rs as [|[[[s t] w] v] rs IH] using rev_ind; intros p p' W V H; [constructor|].
  rewrite record_all_snoc in H. inv_bind H. unfold valid_records in V. apply Forall_app in V as [V1 _]. apply Forall_app. split; [eapply IH; eauto|].
  destruct (record_all_prices _ _ _ W V1 EQ) as (W' & _). constructor; [|constructor]. eapply recordable_comms; [symmetry; eapply record_all_comms; exact EQ|].
  apply add_price_inv in H as (s' & t' & cs & ct & E1 & E2 & F1 & F2 & N & _). injection E1 as <-. cbn [a_c] in E2. injection E2 as <-.
  destruct (wp_comm _ W' _ _ F1) as [E _]. rewrite E in N. unfold recordable. split; [congruence|]. split; [congruence|exact N].
Qed.
Lemma recordable_record_all rs : forall p, wf_pool p -> valid_records rs -> Forall (recordable p) rs -> exists p', record_all p rs = Ok p'.
Proof.
  induction rs as [|[[[s t] w] v] rs IH] using rev_ind; intros p W V F; [exists p; reflexivity|].
  unfold valid_records in V. apply Forall_app in V as [V1 _]. apply Forall_app in F as [F1 F2]. destruct (IH p W V1 F1) as [p' H].
  destruct (record_all_prices _ _ _ W V1 H) as (W' & _). inversion F2 as [|? ? F _]; subst.
  apply (recordable_comms p p') in F; [|eapply record_all_comms; exact H]. destruct F as (Fs & Ft & N).
  destruct (pool_find p' s) as [cs|] eqn:Es; [|congruence]. destruct (pool_find p' t) as [ct|] eqn:Et; [|congruence].
  rewrite record_all_snoc, H. cbn [bind].
  unfold pool_add_price. cbn [deref a_c]. rewrite Es. cbn [bind]. destruct (wp_comm _ W' _ _ Es) as [-> _].
  destruct (comm_eqb_spec (Some s) (Some t)) as [E|_]; [congruence|]. cbn [deref]. rewrite Et. cbn [bind]. eexists. reflexivity.
Qed.
Theorem records_any_order p rs1 rs2 p1 : reachable_pool p -> valid_records rs1 -> records_agree rs1 -> (forall r, In r rs1 <-> In r rs2) ->
  record_all p rs1 = Ok p1 -> exists p2, record_all p rs2 = Ok p2 /\ same_quotes p1 p2.
Proof.
  intros R V G S H1. apply reachable_wf in R as W.
  assert (V2 : valid_records rs2) by (unfold valid_records in *; rewrite Forall_forall in *; intros r I; apply V, S, I).
  destruct (recordable_record_all rs2 p W V2) as [p2 H2].
  - pose proof (record_all_recordable rs1 p p1 W V H1) as F. rewrite Forall_forall in *. intros r I. apply F, S, I.
  - exists p2. split; [exact H2|]. exact (records_quotes p rs1 rs2 p1 p2 R V G S H1 H2).
Qed.

(** The pairs with a price, for checking concrete pools. *)
Definition pairs (p : pool) : list (str * str) :=
  map (fun e => (nth (fst (fst e)) (g_nodes (p_hist p)) [], nth (snd (fst e)) (g_nodes (p_hist p)) [])) (g_edges (p_hist p)).
Lemma priced_pair p s t : wf_pool p -> priced p s t -> In (s, t) (pairs p).
Proof.
  intros W (w & v & a & b & Ia & Ib & I). unfold points in I. destruct (find_edge (g_edges (p_hist p)) a b) as [m|] eqn:F; [|destruct I].
  apply find_edge_in in F; [|apply W]. unfold pairs. apply in_map_iff. exists (a, b, m). split; [|exact F]. cbn [fst snd].
  assert (X : forall u i, index_of p u = Some i -> nth i (g_nodes (p_hist p)) [] = u).
  { intros u i Hi. unfold index_of in Hi. destruct (pool_find p u) as [c|] eqn:E; [|discriminate Hi]. injection Hi as <-.
    destruct (wp_comm _ W _ _ E) as [_ Nt]. apply nth_error_nth, Nt. }
  rewrite (X _ _ Ia), (X _ _ Ib). reflexivity.
Qed.
