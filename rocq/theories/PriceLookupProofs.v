(** Proofs for PropertiesPriceLookup.v. *)
From Coq Require Import String List NArith ZArith Bool Lia.
From Verif Require Import Base BaseFacts Decimal Dates Amount Balance Scanner History Pool Account Journal Xact Parser Lib.
From Verif Require Import SpecDecimal SpecAmount SpecDates SpecPool SpecText SpecReading SpecXact SpecJournal SpecFull SpecOutline SpecPriceLog SpecPriceLookup.
From Verif Require Import DatesFacts PoolFacts PriceFacts PriceProofs JournalFacts FullProofs OutlineProofs HeapReport.
Import ListNotations.
Open Scope nat_scope.

Lemma in_records s t w v rs : In (w, v) (records_for s t rs) <-> In (s, t, w, v) rs.
Proof.
  unfold records_for. rewrite in_flat_map. split.
  - intros ([[[s' t'] w'] v'] & I & J). destruct (comm_dec (Some s') (Some s)) as [E|]; [|contradiction].
    destruct (comm_dec (Some t') (Some t)) as [E'|]; [|contradiction]. destruct J as [J|[]]. congruence.
  - intros I. exists (s, t, w, v). split; [exact I|]. destruct (comm_dec (Some s) (Some s)); [|contradiction].
    destruct (comm_dec (Some t) (Some t)); [|contradiction]. left. reflexivity.
Qed.

Lemma records_for_app s t a b : records_for s t (a ++ b) = records_for s t a ++ records_for s t b.
Proof. apply flat_map_app. Qed.
Lemma records_for_here s t w v rs : records_for s t ((s, t, w, v) :: rs) = (w, v) :: records_for s t rs.
Proof.
  cbn [records_for flat_map]. destruct (comm_dec (Some s) (Some s)); [|contradiction].
  destruct (comm_dec (Some t) (Some t)); [|contradiction]. reflexivity.
Qed.
Lemma records_split s t rs : forall r1 w v r2, records_for s t rs = r1 ++ (w, v) :: r2 ->
  exists q1 q2, rs = q1 ++ (s, t, w, v) :: q2 /\ records_for s t q1 = r1 /\ records_for s t q2 = r2.
Proof.
  induction rs as [|[[[s' t'] w'] v'] rs IH]; intros r1 w v r2 E; [destruct r1; discriminate|].
  change ((s', t', w', v') :: rs) with ([(s', t', w', v')] ++ rs) in E. rewrite records_for_app in E.
  assert (C : (s' = s /\ t' = t) \/ records_for s t [(s', t', w', v')] = []).
  { cbn [records_for flat_map]. destruct (comm_dec (Some s') (Some s)) as [A|]; [|auto].
    destruct (comm_dec (Some t') (Some t)) as [B|]; [|auto]. left. split; congruence. }
  destruct C as [[-> ->]|C].
  - rewrite records_for_here in E. cbn [records_for flat_map app] in E. destruct r1 as [|x r1].
    + injection E as -> -> E. exists [], rs. repeat split; exact E.
    + injection E as <- E. destruct (IH _ _ _ _ E) as (q1 & q2 & -> & <- & <-). exists ((s, t, w', v') :: q1), q2.
      split; [reflexivity|]. split; [apply records_for_here|reflexivity].
  - pose proof C as C'. rewrite C in E. cbn [app] in E. destruct (IH _ _ _ _ E) as (q1 & q2 & -> & <- & <-).
    exists ((s', t', w', v') :: q1), q2. split; [reflexivity|]. split; [|reflexivity].
    change ((s', t', w', v') :: q1) with ([(s', t', w', v')] ++ q1). rewrite records_for_app, C'. reflexivity.
Qed.

Lemma last_with s t w1 rs : (exists v, In (s, t, w1, v) rs) ->
  exists v2 a b, records_for s t rs = a ++ (w1, v2) :: b /\ Forall (fun r : datetime * dec => fst r <> w1) b.
Proof.
  intros [v1 I]. apply in_records in I. revert I. generalize (records_for s t rs).
  induction l as [|[x y] l IH] using rev_ind; [intros []|]. intros J.
  assert (Dx : {x = w1} + {x <> w1}) by (repeat decide equality). destruct Dx as [->|Dx].
  - exists y, l, []. auto.
  - apply in_app_or in J as [J|[J|[]]]; [|congruence]. destruct (IH J) as (v2 & a & b & -> & F).
    exists v2, a, (b ++ [(x, y)]). rewrite <- app_assoc. split; [reflexivity|].
    apply Forall_app. split; [exact F|]. constructor; [exact Dx|constructor].
Qed.

Section AFTER.
  Variables (p : pool) (rs : list record).
  Hypothesis R : reachable_pool p.
  Hypothesis P : forall s t w v, price_on p s t w v <->
    exists r1 r2, records_for s t rs = r1 ++ (w, v) :: r2 /\ Forall (fun r => fst r <> w) r2.

  Lemma priced_said s t : priced p s t <-> said rs s t.
  Proof.
    split.
    - intros (w & v & H). apply P in H as (r1 & r2 & E & _). exists w, v. apply in_records. rewrite E.
      apply in_or_app. right. left. reflexivity.
    - intros (w & v & H). destruct (last_with s t w rs) as (v2 & a & b & E & F); [eauto|].
      exists w, v2. apply P. eauto.
  Qed.
  Lemma chain_said path : forall s t, price_chain p s path t <-> said_chain rs s path t.
  Proof.
    induction path as [|x path IH]; intros s t; cbn [price_chain said_chain]; [reflexivity|].
    rewrite priced_said, IH. reflexivity.
  Qed.
  Lemma newest_is_said s t w v : newest_price p s t w v <-> newest_said rs s t w v.
  Proof.
    apply reachable_wf in R as W.
    assert (V : forall w v, In (s, t, w, v) rs -> valid_dt w).
    { intros w0 v0 I. destruct (last_with s t w0 rs) as (v2 & a & b & E & F); [eauto|].
      eapply price_on_valid; [exact W|]. apply P. eauto. }
    split.
    - intros [H M]. pose proof H as H0. apply P in H as (r1 & r2 & E & F).
      destruct (records_split _ _ _ _ _ _ _ E) as (q1 & q2 & Er & E1 & E2).
      assert (A : forall w' v', In (s, t, w', v') rs -> not_after w' w).
      { intros w' v' I. destruct (last_with s t w' rs) as (v2 & a & b & E' & F'); [eauto|].
        apply (M w' v2), P. eauto. }
      exists q1, q2. split; [exact Er|]. split.
      + intros w' v' I. apply (A w' v'). rewrite Er. apply in_or_app. auto.
      + intros w' v' I. apply not_after_neq_before.
        * apply (A w' v'). rewrite Er. apply in_or_app. right. right. exact I.
        * rewrite Forall_forall in F. apply (F (w', v')). rewrite <- E2. apply in_records. exact I.
    - intros (q1 & q2 & Er & A & B). split.
      + apply P. exists (records_for s t q1), (records_for s t q2). split.
        * rewrite Er, records_for_app, records_for_here. reflexivity.
        * apply Forall_forall. intros [w' v'] I N. cbn [fst] in N. subst w'. apply in_records in I.
          apply B in I as I'. apply before_irrefl in I'; [exact I'|]. apply (V w v'). rewrite Er. apply in_or_app. right. right. exact I.
      + intros w' v' H. apply P in H as (r1 & r2 & E & _).
        assert (I : In (s, t, w', v') rs). { apply in_records. rewrite E. apply in_or_app. right. left. reflexivity. }
        rewrite Er in I. apply in_app_or in I as [I|[I|I]]; [exact (A _ _ I)|right; congruence|left; exact (B _ _ I)].
  Qed.
  Lemma along_said path : forall s prices, newest_along p s path prices <-> newest_said_along rs s path prices.
  Proof.
    induction path as [|x path IH]; intros s [|[w v] prices]; cbn [newest_along newest_said_along]; try reflexivity.
    rewrite newest_is_said, IH. reflexivity.
  Qed.
End AFTER.

Lemma new_no_price s t w v : ~ price_on (j_pool journal_new) s t w v.
Proof. intros (a & b & A & _). discriminate. Qed.

Lemma recorded_app its1 xs1 rs1 its2 xs2 rs2 : recorded its1 xs1 rs1 -> recorded its2 xs2 rs2 -> recorded (its1 ++ its2) (xs1 ++ xs2) (rs1 ++ rs2).
Proof.
  intros H1 H2. induction H1; cbn [app]; [exact H2| |].
  - rewrite <- app_assoc. constructor; assumption.
  - constructor; assumption.
Qed.
Lemma files_prices depth cwd fs files : forall j j', reachable_journal j ->
  fold_outcome (fun j f => parse_file depth cwd fs f j) files j = Ok j' ->
  exists its new rs, files_outline cwd fs files its /\ j_xacts j' = j_xacts j ++ new /\ recorded its new rs /\ prices_after (j_pool j) rs (j_pool j').
Proof.
  induction files as [|f files IH]; intros j j' R H; cbn [fold_outcome] in H.
  - injection H as <-. exists [], [], []. split; [exists []; split; [constructor|reflexivity]|]. rewrite app_nil_r.
    split; [reflexivity|]. split; [constructor|apply after_nothing].
  - inv_bind H. rename v into j1. unfold parse_file in EQ. destruct (fs f) as [src|] eqn:E; [|discriminate].
    assert (R1 := rj_read _ _ _ _ _ _ R EQ). destruct (read_prices _ _ _ _ _ _ R EQ) as (its & new & rs & O & X & T & A).
    destruct (IH j1 j' R1 H) as (its2 & new2 & rs2 & (itss & C2 & ->) & X2 & T2 & A2).
    exists (its ++ concat itss), (new ++ new2), (rs ++ rs2).
    split; [exists (its :: itss); split; [constructor; [exists src; auto|exact C2]|reflexivity]|].
    split; [rewrite X2, X, app_assoc; reflexivity|]. split; [apply recorded_app; assumption|eapply after_app; eassumption].
Qed.

Lemma priced_known p s t : priced p s t -> (exists c, pool_find p s = Some c) /\ (exists c, pool_find p t = Some c).
Proof.
  intros (w & v & a & b & A & B & _). unfold index_of in *.
  destruct (pool_find p s); [|discriminate]. destruct (pool_find p t); [|discriminate]. eauto.
Qed.
Lemma chain_known p path : forall s t, s <> t -> price_chain p s path t -> (exists c, pool_find p s = Some c) /\ (exists c, pool_find p t = Some c).
Proof.
  induction path as [|x path IH]; intros s t N H; [contradiction|]. destruct H as [H1 H2].
  apply priced_known in H1 as [A B]. split; [exact A|]. destruct (comm_dec (Some x) (Some t)) as [E|E]; [injection E as <-; exact B|].
  apply (IH x t); [congruence|exact H2].
Qed.

Theorem lookup_files depth cwd fs files j : read_journal_files depth cwd fs files = Ok j ->
  exists its rs, files_outline cwd fs files its /\ recorded its (j_xacts j) rs
    /\ forall astar s t now moment oldest, shortest_paths astar -> valid_dt now -> s <> t ->
       let r := pool_find_price astar (j_pool j) (Some s) (Some t) now moment oldest in
       ((exists path, said_chain rs s path t) ->
          (exists d amt, r = Ok (Some (d, amt)) /\ lookup_says rs s t now d amt)
          \/ r = Panic PArith /\ ~ said rs s t)
       /\ ((forall path, ~ said_chain rs s path t) ->
          (exists c, pool_find (j_pool j) s = Some c) -> (exists c, pool_find (j_pool j) t = Some c) -> r = Ok None).
Proof.
  intros H. assert (Rj := files_reachable _ _ _ _ _ H). assert (R := i_pool _ _ (reachable_inv _ Rj)).
  destruct (files_prices _ _ _ _ _ _ rj_new H) as (its & new & rs & O & X & T & A). cbn [j_xacts journal_new app] in X. subst new.
  exists its, rs. split; [exact O|]. split; [exact T|]. intros astar s t now moment oldest S V N r.
  assert (P : forall s t w v, price_on (j_pool j) s t w v <->
    exists r1 r2, records_for s t rs = r1 ++ (w, v) :: r2 /\ Forall (fun r => fst r <> w) r2).
  { intros s0 t0 w v. rewrite (A s0 t0 w v). split; [intros [Y|[Y _]]; [exact Y|]|auto]. exfalso. exact (new_no_price _ _ _ _ Y). }
  split.
  - intros [path C]. apply (chain_said _ _ P) in C. destruct (chain_known _ _ _ _ N C) as [Ks Kt].
    destruct (lookup_total astar (j_pool j) s t now moment oldest S R V N Ks Kt) as (L1 & _ & L3).
    destruct (L1 (ex_intro (fun q => price_chain (j_pool j) s q t) path C)) as [[[d amt] E]|E].
    + left. exists d, amt. split; [exact E|].
      destruct (rate_of_chain astar (j_pool j) s t now moment oldest d amt S R V N Ks Kt E) as (Ea & pa & pr & C1 & C2 & C3 & C4).
      split; [exact Ea|]. exists pa, pr. split; [apply (chain_said _ _ P); exact C1|].
      split; [intros other Ho; apply C2, (chain_said _ _ P); exact Ho|].
      split; [apply (along_said _ _ R P); exact C3|exact C4].
    + right. split; [exact E|]. intros D. apply (priced_said _ _ P) in D. destruct (L3 D) as [x Ex]. congruence.
  - intros C Ks Kt. apply (lookup_total astar (j_pool j) s t now moment oldest S R V N Ks Kt).
    intros path Hp. apply (C path), (chain_said _ _ P). exact Hp.
Qed.
