(** Proofs of C30-C35, C38 and C47. *)
From Coq Require Import String List NArith ZArith Bool Lia ZifyBool ZifyNat ZifyN.
From Verif Require Import Base BaseFacts Decimal Dates Amount Scanner History Pool SpecDecimal
  SpecAmount SpecDates SpecPool SpecText DecimalFacts RoundFacts DatesFacts BalanceFacts PoolFacts PriceFacts.
Import ListNotations.
Open Scope nat_scope.

(** ** C30 *)
Lemma pool_consistent p :
  reachable_pool p ->
  (forall s c, pool_find p s = Some c ->
     c_symbol c = s /\ pool_find_index p s = Ok (Some (c_index c))
     /\ pool_get_by_index p (c_index c) = Ok c)
  /\ (forall i c, pool_get_by_index p i = Ok c -> c_index c = i /\ pool_find p (c_symbol c) = Some c)
  /\ (forall s t c d, pool_find p s = Some c -> pool_find p t = Some d -> c_index c = c_index d -> s = t)
  /\ (forall s, pool_find p s = None -> exists q, pool_find_index p s = Panic q).
Proof.
  intros R. apply reachable_wf in R as W. split; [|split; [|split]].
  - intros s c H. destruct (wp_comm _ W _ _ H) as [E N]. split; [exact E|]. split.
    + unfold pool_find_index. rewrite H. reflexivity.
    + unfold pool_get_by_index, get_commodity. rewrite N. cbn. rewrite H. reflexivity.
  - intros i c H. unfold pool_get_by_index, get_commodity in H. inv_bind H. apply unwrap_ok in EQ.
    destruct (wp_node _ W _ _ EQ) as (d & F & I). cbn [deref] in H. rewrite F in H. injection H as ->.
    split; [exact I|]. destruct (wp_comm _ W _ _ F) as [-> _]. exact F.
  - intros s t c d. apply index_inj, W.
  - intros s H. unfold pool_find_index. rewrite H. eexists. reflexivity.
Qed.
Lemma find_or_create_spec p s a :
  reachable_pool p -> s <> [] ->
  let '(p', r) := pool_find_or_create p s a in
  r = Some s
  /\ (exists c, pool_find p' s = Some c /\ c_symbol c = s
                /\ forall d, pool_find p s = Some d -> c = d)
  /\ (forall t, t <> s -> pool_find p' t = pool_find p t)
  /\ (forall x y w v, price_on p' x y w v <-> price_on p x y w v)
  /\ fst (pool_find_or_create p' s None) = p'.
Proof.
  intros R Hs. apply reachable_wf in R as W.
  pose proof (foc_comm p s a) as C. pose proof (foc_finds p s a Hs) as [c F].
  pose proof (foc_extends p s a) as X. pose proof (foc_prices p s a) as PR.
  pose proof (foc_cases p s a) as K.
  destruct (pool_find_or_create p s a) as [p' r] eqn:E. cbn [fst snd] in *.
  destruct s as [|k s]; [contradiction|]. split; [exact C|]. split; [|split; [|split]].
  - exists c. split; [exact F|]. split.
    + assert (W' : wf_pool p \/ True) by auto.
      destruct (pool_find p (k :: s)) as [d|] eqn:Fp.
      * rewrite (X _ _ Fp) in F. injection F as <-. apply (wp_comm _ W _ _ Fp).
      * cbn [is_empty] in K. injection K as -> _. rewrite create_find in F by exact Fp.
        rewrite str_eqb_refl in F. injection F as <-. reflexivity.
    + intros d Hd. apply X in Hd. congruence.
  - intros t Ht. cbn [is_empty] in K. injection K as -> _.
    destruct (pool_find p (k :: s)) as [d|] eqn:Fp.
    + destruct a; [destruct (lookup (k :: s) (p_ann p))|]; reflexivity.
    + rewrite create_find by exact Fp. rewrite (proj2 (str_eqb_neq t (k :: s)) Ht). reflexivity.
  - intros x y w v. apply PR, W.
  - eapply foc_known; eauto.
Qed.
Lemma stable_index p p' s c :
  reachable_from p p' -> pool_find p s = Some c ->
  pool_find p' s = Some c /\ index_of p' s = index_of p s.
Proof.
  intros R H. apply reachable_extends in R. pose proof (R _ _ H) as H'. split; [exact H'|].
  unfold index_of. rewrite H, H'. reflexivity.
Qed.

(** ** C31 *)
Lemma record_all_snoc p rs s t w v :
  record_all p (rs ++ [(s, t, w, v)])
  = let* p1 := record_all p rs in pool_add_price p1 (Some s) w (mkAmt v (Some t)).
Proof.
  unfold record_all. rewrite fold_outcome_app.
  match goal with |- bind ?x _ = _ => destruct x as [p1| |] end; cbn [bind fold_outcome]; try reflexivity.
  destruct (pool_add_price p1 (Some s) w (mkAmt v (Some t))); reflexivity.
Qed.
Lemma records_for_app s t r1 r2 : records_for s t (r1 ++ r2) = records_for s t r1 ++ records_for s t r2.
Proof. apply flat_map_app. Qed.


Lemma record_all_prices p rs : forall p',
  wf_pool p -> valid_records rs -> record_all p rs = Ok p' ->
  wf_pool p' /\ pool_extends p p' /\
  forall s t w v, price_on p' s t w v <->
    (exists r1 r2, records_for s t rs = r1 ++ (w, v) :: r2 /\ Forall (fun r => fst r <> w) r2)
    \/ price_on p s t w v /\ Forall (fun r => fst r <> w) (records_for s t rs).
Proof.
  induction rs as [|[[[s0 t0] w0] v0] rs IH] using rev_ind; intros p' W V H.
  - injection H as <-. split; [exact W|]. split; [apply extends_refl|]. intros s t w v. cbn. split.
    + intros P. right. auto.
    + intros [(r1 & r2 & E & _)|[P _]]; [destruct r1; discriminate|exact P].
  - rewrite record_all_snoc in H. inv_bind H. unfold valid_records in V. apply Forall_app in V as [V1 V2].
    inversion V2 as [|? ? Vx _]; subst. cbv beta iota in Vx. destruct Vx as [Vw Vv]. destruct (IH _ W V1 EQ) as (W1 & X1 & P1). clear IH.
    split; [exact (wf_add_price _ _ _ (mkAmt v0 (Some t0)) _ W1 Vw Vv H)|]. split.
    { eapply extends_trans; [exact X1|]. eapply add_price_extends; eauto. }
    intros s t w v'. rewrite (add_price_effect _ _ _ _ _ W1 Vw H s t w v'). cbn [a_c a_q].
    rewrite records_for_app. cbn [records_for flat_map]. rewrite app_nil_r.
    destruct (comm_dec (Some s) (Some s0)) as [E|E];
      [injection E as ->; destruct (comm_dec (Some t) (Some t0)) as [E|E]; [injection E as ->|]|].
    + destruct (comm_dec (Some s0) (Some s0)) as [_|N]; [|contradiction].
      destruct (comm_dec (Some t0) (Some t0)) as [_|N]; [|contradiction]. rewrite P1. split.
      * intros [[-> ->]|[Hn [(r1 & r2 & Er & Fr)|[Hp Fr]]]].
        -- left. exists (records_for s0 t0 rs), []. auto.
        -- left. exists r1, (r2 ++ [(w0, v0)]). rewrite Er. rewrite <- app_assoc. split; [reflexivity|].
           apply Forall_app. split; [exact Fr|]. constructor; [cbn; congruence|constructor].
        -- right. split; [exact Hp|]. apply Forall_app. split; [exact Fr|]. constructor; [cbn; congruence|constructor].
      * intros [(r1 & r2 & Er & Fr)|[Hp Fr]].
        -- destruct (exists_last (l := (w, v') :: r2)) as (q & z & Ez); [discriminate|].
           rewrite Ez in Er. rewrite app_assoc in Er. apply app_inj_tail in Er as [Er <-].
           destruct r2 as [|e r2].
           ++ destruct q as [|? q]; [|destruct q; discriminate]. injection Ez as -> ->. auto.
           ++ destruct q as [|q1 q]; [discriminate|]. injection Ez as <- Ez. right.
              assert (In (w0, v0) (e :: r2)) as I by (rewrite Ez; apply in_or_app; right; left; reflexivity).
              rewrite Forall_forall in Fr. pose proof (Fr _ I) as Hn. cbn in Hn. split; [congruence|].
              left. exists r1, q. split; [exact Er|]. apply Forall_forall. intros r Hr. apply Fr. rewrite Ez.
              apply in_or_app. auto.
        -- apply Forall_app in Fr as [Fr Fr2]. inversion Fr2; subst. cbn in *. right. split; [congruence|]. auto.
    + destruct (comm_dec (Some s0) (Some s0)) as [_|N]; [|contradiction].
      destruct (comm_dec (Some t0) (Some t)) as [N|_]; [congruence|]. rewrite app_nil_r. apply P1.
    + destruct (comm_dec (Some s0) (Some s)) as [N|_]; [congruence|]. rewrite app_nil_r. apply P1.
Qed.

Lemma not_after_trans a b c :
  valid_dt a -> valid_dt b -> valid_dt c -> not_after a b -> not_after b c -> not_after a c.
Proof. intros Va Vb Vc. rewrite <- !dt_key_le by assumption. lia. Qed.
Lemma before_or a b : valid_dt a -> valid_dt b -> before a b \/ a = b \/ before b a.
Proof.
  intros Va Vb. rewrite <- !dt_key_lt by assumption.
  destruct (Z.lt_trichotomy (dt_key a) (dt_key b)) as [H|[H|H]]; auto.
  right. left. apply dt_key_eq; assumption.
Qed.
Lemma not_after_neq_before a b : not_after a b -> a <> b -> before a b.
Proof. intros [H|H] N; [exact H|contradiction]. Qed.
Lemma records_valid s t rs :
  valid_records rs -> Forall (fun r => valid_dt (fst r) /\ wf_dec (snd r)) (records_for s t rs).
Proof.
  unfold valid_records. intros H. apply Forall_forall. intros [w v] I. apply in_flat_map in I as ([[[s' t'] w'] v'] & I & J).
  rewrite Forall_forall in H. apply H in I as [I1 I2].
  destruct (comm_dec (Some s') (Some s)); [|contradiction]. destruct (comm_dec (Some t') (Some t)); [|contradiction].
  destruct J as [J|[]]. injection J as <- <-. auto.
Qed.

Lemma newest_recorded p rs p' s t w v :
  reachable_pool p -> (forall s t, ~ priced p s t) -> valid_records rs ->
  record_all p rs = Ok p' ->
  (direct_price p' s t = Some (w, v) <->
   exists r1 r2, records_for s t rs = r1 ++ (w, v) :: r2
                 /\ Forall (fun r => not_after (fst r) w) r1
                 /\ Forall (fun r => before (fst r) w) r2).
Proof.
  intros R N V H. apply reachable_wf in R as W.
  destruct (record_all_prices _ _ _ W V H) as (W' & X & P).
  pose proof (records_valid s t rs V) as RV.
  assert (P' : forall w v, price_on p' s t w v <->
             exists r1 r2, records_for s t rs = r1 ++ (w, v) :: r2 /\ Forall (fun r => fst r <> w) r2).
  { intros w0 v0. rewrite P. split; [intros [A|[A _]]; [exact A|]|auto]. exfalso. apply (N s t). exists w0, v0. exact A. }
  assert (D : direct_price p' s t = Some (w, v) <-> newest_price p' s t w v).
  { unfold direct_price. destruct (index_of p' s) as [a|] eqn:Ia; [destruct (index_of p' t) as [b|] eqn:Ib|].
    - apply newest_direct; assumption.
    - split; [discriminate|]. intros [(x & y & Hx & Hy & _) _]. congruence.
    - split; [discriminate|]. intros [(x & y & Hx & Hy & _) _]. congruence. }
  rewrite D. unfold newest_price. rewrite P'. split.
  - intros [(r1 & r2 & E & F) M]. exists r1, r2. split; [exact E|].
    assert (All : Forall (fun r => not_after (fst r) w) (records_for s t rs)).
    { apply Forall_forall. intros [w1 v1] I.
      (* the last record with this moment is in the history *)
      assert (L : exists v2, price_on p' s t w1 v2).
      { clear -I P'. assert (G : forall l, In (w1, v1) l -> exists v2 a b, l = a ++ (w1, v2) :: b /\ Forall (fun r : datetime * dec => fst r <> w1) b).
        { induction l as [|[x y] l IH] using rev_ind; [intros []|]. intros J.
          assert (Dx : {x = w1} + {x <> w1}) by (repeat decide equality). destruct Dx as [->|Dx].
          - exists y, l, []. auto.
          - apply in_app_or in J as [J|[J|[]]]; [|congruence]. destruct (IH J) as (v2 & a & b & -> & F).
            exists v2, a, (b ++ [(x, y)]). rewrite <- app_assoc. split; [reflexivity|].
            apply Forall_app. split; [exact F|]. constructor; [exact Dx|constructor]. }
        destruct (G _ I) as (v2 & a & b & E & F). exists v2. apply P'. eauto. }
      destruct L as [v2 L]. exact (M _ _ L). }
    rewrite E in All. apply Forall_app in All as [A1 A2]. inversion A2 as [|? ? _ A3]; subst.
    split; [exact A1|]. rewrite Forall_forall in *. intros r Hr. apply not_after_neq_before; auto.
  - intros (r1 & r2 & E & F1 & F2). rewrite E in RV. apply Forall_app in RV as [RV1 RV2].
    inversion RV2 as [|? ? [Vw _] RV3]; subst. cbn [fst] in Vw. split.
    + exists r1, r2. split; [exact E|]. rewrite Forall_forall in *. intros r Hr Er. pose proof (F2 _ Hr) as B.
      rewrite Er in B. apply before_irrefl in B; [contradiction|exact Vw].
    + intros w' v'. rewrite P', E. intros (q1 & q2 & Eq & _).
      assert (I : In (w', v') (r1 ++ (w, v) :: r2)) by (rewrite Eq; apply in_or_app; right; left; reflexivity).
      rewrite Forall_forall in *. apply in_app_or in I as [I|[I|I]].
      * exact (F1 _ I).
      * injection I as <- _. right. reflexivity.
      * left. exact (F2 _ I).
Qed.
Lemma none_recorded p rs p' s t :
  reachable_pool p -> (forall s t, ~ priced p s t) -> valid_records rs ->
  record_all p rs = Ok p' -> (direct_price p' s t = None <-> records_for s t rs = []).
Proof.
  intros R N V H. apply reachable_wf in R as W. destruct (record_all_prices _ _ _ W V H) as (W' & X & P).
  assert (Hp : records_for s t rs = [] <-> forall w v, ~ price_on p' s t w v).
  { split.
    - intros E w v Q. apply P in Q as [(r1 & r2 & Er & _)|[Q _]].
      + rewrite E in Er. destruct r1; discriminate.
      + apply (N s t). exists w, v. exact Q.
    - intros Q. destruct (records_for s t rs) as [|r l] eqn:Er; [reflexivity|].
      destruct (exists_last (l := r :: l)) as (q & [w v] & Eq); [discriminate|].
      exfalso. apply (Q w v), P. left. exists q, []. rewrite Er, Eq. auto. }
  rewrite Hp. unfold direct_price. destruct (index_of p' s) as [a|] eqn:Ia; [destruct (index_of p' t) as [b|] eqn:Ib|].
  - pose proof (newest_direct p' s t a b W' Ia Ib) as ND. pose proof (direct_spec p' a b W') as DS.
    destruct (get_direct_price (p_hist p') a b) as [[w v]|].
    + split; [discriminate|]. intros Q. exfalso. apply (Q w v). apply ND. reflexivity.
    + split; [|reflexivity]. intros _ w v (x & y & Hx & Hy & Q). rewrite Ia in Hx. rewrite Ib in Hy.
      injection Hx as <-. injection Hy as <-. rewrite DS in Q. exact Q.
  - split; [|reflexivity]. intros _ w v (x & y & Hx & Hy & Q). congruence.
  - split; [|reflexivity]. intros _ w v (x & y & Hx & Hy & Q). congruence.
Qed.

(** ** C33, C34 *)
Lemma symbols_length p path syms : symbols p path syms -> length path = length syms.
Proof. induction 1; cbn; congruence. Qed.
Lemma price_chain_length astar p s t a b n path :
  shortest_paths astar -> wf_pool p -> index_of p s = Some a -> index_of p t = Some b ->
  astar (p_hist p) a b = Some (n, path) ->
  exists tail syms, path = a :: tail /\ length tail = n /\ chain (p_hist p) a tail b
    /\ symbols p tail syms /\ price_chain p s syms t
    /\ forall other, price_chain p s other t -> length syms <= length other.
Proof.
  intros A W Ia Ib E. pose proof (A (p_hist p) a b) as S. rewrite E in S.
  destruct S as (tail & -> & L & C & M). destruct (chain_symbols p W tail a s b t Ia Ib C) as (syms & Sy & P).
  exists tail, syms. split; [reflexivity|]. split; [exact L|]. split; [exact C|]. split; [exact Sy|]. split; [exact P|].
  intros other Ho. destruct (symbols_chain p W other a s b t Ia Ib Ho) as (q & Sq & Cq).
  rewrite <- (symbols_length _ _ _ Sy), <- (symbols_length _ _ _ Sq), L. apply M, Cq.
Qed.

Lemma find_price_cases astar p s t now moment oldest :
  shortest_paths astar -> wf_pool p -> s <> t -> valid_dt now ->
  (exists c, pool_find p s = Some c) -> (exists c, pool_find p t = Some c) ->
  (pool_find_price astar p (Some s) (Some t) now moment oldest = Ok None
   /\ forall other, ~ price_chain p s other t)
  \/ exists path prices,
      price_chain p s path t /\ (forall other, price_chain p s other t -> length path <= length other)
      /\ newest_along p s path prices
      /\ Forall (fun e => valid_dt (fst e) /\ wf_dec (snd e)) prices
      /\ pool_find_price astar p (Some s) (Some t) now moment oldest
         = if length path =? 1
           then match prices with (w, v) :: _ => Ok (Some (w, mkAmt v (Some t))) | [] => Panic PExplicit end
           else let* r := fold_outcome d_mul (map snd prices) d_one in
                Ok (Some (fold_left min_dt (map fst prices) now, mkAmt r (Some t))).
Proof.
  intros A W Hst Vn [cs Fs] [ct Ft]. unfold pool_find_price, find_price.
  destruct (comm_eqb_spec (Some s) (Some t)) as [E|_]; [congruence|]. cbn [deref]. rewrite Fs, Ft. cbn [bind].
  assert (Ia : index_of p s = Some (c_index cs)) by (unfold index_of; rewrite Fs; reflexivity).
  assert (Ib : index_of p t = Some (c_index ct)) by (unfold index_of; rewrite Ft; reflexivity).
  destruct (wp_comm _ W _ _ Ft) as [-> _].
  destruct (astar (p_hist p) (c_index cs) (c_index ct)) as [[n path]|] eqn:S.
  - right. destruct (price_chain_length _ _ _ _ _ _ _ _ A W Ia Ib S) as (tail & syms & -> & L & C & Sy & P & M).
    destruct (rate_loop_spec p W tail (c_index cs) (c_index ct) now d_one C) as (prices & F & NA & R).
    specialize (NA s syms Ia Sy). exists syms, prices. split; [exact P|]. split; [exact M|]. split; [exact NA|].
    split; [exact F|]. rewrite <- (symbols_length _ _ _ Sy), L.
    destruct (Nat.eqb_spec n 1) as [->|N1].
    + destruct tail as [|x [|? ?]]; try discriminate. destruct C as [Hh C]. cbn in C. subst x.
      inversion Sy as [|? u ? ? Hu Sy']; subst. inversion Sy'; subst.
      destruct prices as [|[w v] prices]; [contradiction|]. destruct NA as [NA _].
      assert (u = t) by (eapply index_of_inj; eauto). subst u.
      apply (newest_direct p s t _ _ W Ia Ib) in NA. rewrite NA. reflexivity.
    + unfold calculate_rate. cbn [rate_loop]. rewrite Nat.eqb_refl. rewrite R.
      destruct (fold_outcome d_mul (map snd prices) d_one) as [r| |]; reflexivity.
  - left. split; [reflexivity|]. intros other Ho. pose proof (A (p_hist p) (c_index cs) (c_index ct)) as N.
    rewrite S in N. destruct (symbols_chain p W other _ s _ t Ia Ib Ho) as (q & _ & Cq). exact (N _ Cq).
Qed.

Lemma price_chain_nonempty p s t : s <> t -> ~ price_chain p s [] t.
Proof. intros N H. exact (N H). Qed.

Lemma units_one : units d_one = unit1.
Proof. vm_compute. reflexivity. Qed.

Lemma rate_of_chain astar p s t now moment oldest d amt :
  shortest_paths astar -> reachable_pool p -> valid_dt now -> s <> t ->
  (exists c, pool_find p s = Some c) -> (exists c, pool_find p t = Some c) ->
  pool_find_price astar p (Some s) (Some t) now moment oldest = Ok (Some (d, amt)) ->
  a_c amt = Some t /\
  exists path prices,
    price_chain p s path t
    /\ (forall other, price_chain p s other t -> length path <= length other)
    /\ newest_along p s path prices
    /\ (length path = 1 -> prices = [(d, a_q amt)])
    /\ (length path <> 1 -> earliest now (map fst prices) d
                            /\ (exists one, units one = unit1 /\ rounded_products one (map snd prices) (a_q amt))
                            /\ forall r, exact_product unit1 (map snd prices) r -> aunits amt = r).
Proof.
  intros A R Vn Hst Fs Ft H. apply reachable_wf in R as W.
  destruct (find_price_cases astar p s t now moment oldest A W Hst Vn Fs Ft)
    as [[E _]|(path & prices & P & M & NA & F & E)]; rewrite E in H; [discriminate|].
  destruct (Nat.eqb_spec (length path) 1) as [L|L].
  - destruct path as [|x [|? ?]]; try discriminate. destruct prices as [|[w v] prices]; [discriminate|].
    injection H as <- <-. split; [reflexivity|]. exists [x], ((w, v) :: prices).
    split; [exact P|]. split; [exact M|]. split; [exact NA|]. split; [|intros X; exfalso; apply X; reflexivity]. intros _.
    destruct prices; [reflexivity|]. destruct NA as [_ []].
  - inv_bind H. injection H as <- <-. split; [reflexivity|]. exists path, prices.
    split; [exact P|]. split; [exact M|]. split; [exact NA|]. split; [intros X; contradiction|]. intros _. split.
    + apply min_dt_spec; [exact Vn|]. rewrite Forall_forall in *. intros w Hw. apply in_map_iff in Hw as (e & <- & He).
      apply F, He.
    + split.
      { exists d_one. split; [exact units_one|]. apply mul_fold_rounded; [apply wf_d_of_int; reflexivity| |exact EQ].
        rewrite Forall_forall in *. intros w Hw. apply in_map_iff in Hw as (e & <- & He). apply F, He. }
      intros r Hr. destruct (mul_fold_exact (map snd prices) d_one r) as (r' & E' & _ & U).
      * apply wf_d_of_int. reflexivity.
      * rewrite Forall_forall in *. intros w Hw. apply in_map_iff in Hw as (e & <- & He). apply F, He.
      * rewrite units_one. exact Hr.
      * rewrite EQ in E'. injection E' as ->. exact U.
Qed.
(** ** C32, what is left of it *)
Lemma price_on_valid p s t w v : wf_pool p -> price_on p s t w v -> valid_dt w.
Proof.
  intros W (a & b & _ & _ & I). destruct (points_valid p a b W) as [V _]. 
  unfold valid_keys in V. rewrite Forall_forall in V. exact (V _ I).
Qed.
Lemma newest_along_in p : forall path s prices w,
  newest_along p s path prices -> In w (map fst prices) ->
  exists a b v, price_on p a b w v.
Proof.
  induction path as [|x path IH]; intros s [|[w0 v0] prices] w H I; cbn in *; try contradiction.
  destruct H as [[H _] H']. destruct I as [<-|I]; [eauto|]. eapply IH; eauto.
Qed.
Lemma newest_along_length p : forall path s prices, newest_along p s path prices -> length prices = length path.
Proof.
  induction path as [|x path IH]; intros s [|[w0 v0] prices] H; cbn in *; try contradiction; [reflexivity|].
  destruct H as [_ H]. f_equal. eapply IH; eauto.
Qed.
Lemma moment_kept astar p s t now moment oldest d amt :
  shortest_paths astar -> reachable_pool p -> valid_dt now -> valid_dt moment -> valid_dt oldest -> s <> t ->
  (exists c, pool_find p s = Some c) -> (exists c, pool_find p t = Some c) ->
  (forall a b w v, price_on p a b w v -> not_after w moment /\ not_after oldest w) ->
  not_after oldest now ->
  pool_find_price astar p (Some s) (Some t) now moment oldest = Ok (Some (d, amt)) ->
  not_after d moment /\ not_after oldest d.
Proof.
  intros SA R Vn Vm Vo N Es Et Hp Ho H.
  destruct (rate_of_chain _ _ _ _ _ _ _ _ _ SA R Vn N Es Et H) as (_ & path & prices & C & _ & NA & L1 & L2).
  pose proof (newest_along_length _ _ _ _ NA) as Ln.
  destruct (Nat.eq_dec (length path) 1) as [E|E].
  - specialize (L1 E). subst prices.
    destruct (newest_along_in _ _ _ _ d NA (or_introl eq_refl)) as (a & b & v & P). exact (Hp _ _ _ _ P).
  - destruct (L2 E) as [[I F] _]. clear L1 L2.
    assert (Hi : forall w, In w (map fst prices) -> not_after w moment /\ not_after oldest w).
    { intros w Iw. destruct (newest_along_in _ _ _ _ w NA Iw) as (a & b & v & P). exact (Hp _ _ _ _ P). }
    assert (Hd : not_after oldest d) by (destruct I as [<-|I]; [exact Ho|apply Hi, I]). split; [|exact Hd].
    destruct prices as [|[w v] prices].
    { destruct path; [|discriminate Ln]. exfalso. exact (N C). }
    inversion F as [|? ? _ F']; subst. inversion F' as [|? ? Fw _]; subst. cbn [fst] in Fw.
    assert (Pw : exists a b v, price_on p a b w v) by (eapply newest_along_in; [exact NA|left; reflexivity]).
    assert (Vw : valid_dt w).
    { destruct Pw as (a & b & v' & P). apply reachable_wf in R. eapply price_on_valid; eauto. }
    assert (Vd : valid_dt d).
    { destruct I as [<-|I]; [exact Vn|]. destruct (newest_along_in _ _ _ _ d NA I) as (a & b & v' & P).
      apply reachable_wf in R. eapply price_on_valid; eauto. }
    eapply not_after_trans; [exact Vd|exact Vw|exact Vm|exact Fw|]. apply Hi. left. reflexivity.
Qed.

Lemma lookup_total astar p s t now moment oldest :
  shortest_paths astar -> reachable_pool p -> valid_dt now -> s <> t ->
  (exists c, pool_find p s = Some c) -> (exists c, pool_find p t = Some c) ->
  let r := pool_find_price astar p (Some s) (Some t) now moment oldest in
  ((exists path, price_chain p s path t) -> (exists x, r = Ok (Some x)) \/ r = Panic PArith)
  /\ ((forall path, ~ price_chain p s path t) -> r = Ok None)
  /\ (priced p s t -> exists x, r = Ok (Some x)).
Proof.
  intros A R Vn Hst Fs Ft. cbv zeta. apply reachable_wf in R as W.
  destruct (find_price_cases astar p s t now moment oldest A W Hst Vn Fs Ft)
    as [[E N]|(path & prices & P & M & NA & F & E)]; rewrite E.
  - split; [|split].
    + intros [path P]. exfalso. exact (N _ P).
    + reflexivity.
    + intros P. exfalso. apply (N [t]). split; [exact P|reflexivity].
  - split; [|split].
    + intros _. destruct (Nat.eqb_spec (length path) 1) as [L|L].
      * destruct path as [|x [|? ?]]; try discriminate. destruct prices as [|[w v] prices]; [contradiction|]. eauto.
      * destruct (mul_fold_no_other (map snd prices) d_one) as [[r ->]| ->]; cbn [bind]; eauto.
    + intros N. exfalso. exact (N _ P).
    + intros Pd. assert (L : length path <= 1) by (apply (M [t]); split; [exact Pd|reflexivity]).
      destruct path as [|x [|? ?]]; [exfalso; exact (Hst P)| |cbn in L; lia].
      destruct prices as [|[w v] prices]; [contradiction|]. cbn. eauto.
Qed.

(** ** C35: the pool-level effect of a price directive *)
Lemma word_starts w rest : word w -> starts_ws (w ++ rest) = false.
Proof.
  intros [N F]. destruct w as [|c w]; [contradiction|]. cbn in *. apply andb_prop in F as [F _].
  apply negb_true_iff, F.
Qed.
Lemma word_no_sep w :
  word w -> forallb (fun c => negb ((c =? 32) || (c =? 9))%N) w = true.
Proof.
  intros [_ F]. rewrite forallb_forall in *. intros c Hc. apply F in Hc. apply negb_true_iff in Hc.
  apply negb_true_iff, orb_false_iff. split; apply N.eqb_neq; intros ->; discriminate.
Qed.
Lemma scan_element w rest :
  word w -> scan_price_element (trim_start (w ++ sp ++ rest)) = (w, sp ++ rest).
Proof.
  intros W. rewrite trim_start_id by (apply word_starts, W). unfold scan_price_element.
  rewrite (find_char_here _ w 32%N rest) by (try reflexivity; apply word_no_sep, W).
  rewrite firstn_app_exact, skipn_app_exact. reflexivity.
Qed.
Lemma scan_last w : word w -> scan_price_element (trim_start w) = (w, []).
Proof.
  intros W. rewrite trim_start_id by (rewrite <- (app_nil_r w); apply word_starts, W). unfold scan_price_element.
  rewrite (proj2 (find_char_none _ _) (word_no_sep _ W)). reflexivity.
Qed.
Lemma trim_sp s : trim_start (sp ++ s) = trim_start s.
Proof. reflexivity. Qed.

Lemma scan_price_line date time sym qty sym2 :
  word date -> word sym -> word qty -> word sym2 ->
  match time with Some t => word t /\ starts_digit t = true | None => starts_digit sym = false end ->
  scan_price_directive (price_line date time sym qty sym2)
  = Ok (date, match time with Some t => t | None => [] end, sym, qty, sym2).
Proof.
  intros Wd Ws Wq W2 Ht. unfold scan_price_directive, price_line.
  match goal with |- context [drop_bytes 1 (lit "P" ++ ?x)] => change (drop_bytes 1 (lit "P" ++ x)) with (Ok x) end.
  cbn [bind]. rewrite trim_sp.
  match goal with |- context [trim_start (date ++ sp ++ ?x)] => rewrite (scan_element date x Wd); set (r := x) end.
  cbv zeta. rewrite trim_sp. destruct time as [t|].
  - destruct Ht as [Wt Dt]. unfold r. rewrite <- app_assoc.
    rewrite trim_start_id by (apply word_starts, Wt).
    destruct t as [|c t]; [discriminate|]. cbn [app]. cbn [starts_digit] in Dt. rewrite Dt.
    match goal with |- context [scan_price_element (c :: t ++ sp ++ ?x)] =>
      change (c :: t ++ sp ++ x) with ((c :: t) ++ sp ++ x);
      rewrite <- (trim_start_id ((c :: t) ++ sp ++ x)) by (apply word_starts, Wt);
      rewrite (scan_element (c :: t) x Wt) end.
    rewrite trim_sp, scan_element by exact Ws. rewrite trim_sp, scan_element by exact Wq.
    rewrite trim_sp, scan_last by exact W2. reflexivity.
  - unfold r. cbn [app]. rewrite trim_start_id by (apply word_starts, Ws).
    destruct sym as [|c sym]; [destruct Ws; contradiction|]. cbn [app]. cbn [starts_digit] in Ht. rewrite Ht.
    match goal with |- context [trim_start (c :: sym ++ sp ++ ?x)] =>
      change (c :: sym ++ sp ++ x) with ((c :: sym) ++ sp ++ x);
      rewrite (scan_element (c :: sym) x Ws) end.
    rewrite trim_sp, scan_element by exact Wq.
    rewrite trim_sp, scan_last by exact W2. reflexivity.
Qed.

Lemma directive_effect p date time sym qty sym2 d t q :
  reachable_pool p -> word date -> word sym -> word qty -> word sym2 ->
  match time with Some x => word x /\ starts_digit x = true | None => starts_digit sym = false end ->
  parse_date_opt date = Some d ->
  match time with Some x => parse_time_opt x = Some t | None => t = midnight end ->
  d_from_str qty = Some q -> sym <> sym2 ->
  exists p', parse_price_directive p (price_line date time sym qty sym2) = Ok p'
    /\ pool_extends p p'
    /\ (forall y, pool_find p' y <> None <-> pool_find p y <> None \/ y = sym \/ y = sym2)
    /\ forall a b w v, price_on p' a b w v <->
         a = sym /\ b = sym2 /\ w = mkDT d t /\ v = q
         \/ ~ (a = sym /\ b = sym2 /\ w = mkDT d t) /\ price_on p a b w v.
Proof.
  intros R Wd Ws Wq W2 Ht Pd Pt Pq Ns. apply reachable_wf in R as W.
  assert (N1 : sym <> []) by apply Ws. assert (N2 : sym2 <> []) by apply W2.
  assert (C1 : comm_of sym = Some sym) by (destruct sym; [contradiction|reflexivity]).
  assert (C2 : comm_of sym2 = Some sym2) by (destruct sym2; [contradiction|reflexivity]).
  set (p1 := fst (pool_find_or_create p sym None)). set (p2 := fst (pool_find_or_create p1 sym2 None)).
  assert (Wp1 : wf_pool p1) by (apply wf_foc; [exact W|intros ? ?; discriminate]).
  assert (Wp2 : wf_pool p2) by (apply wf_foc; [exact Wp1|intros ? ?; discriminate]).
  destruct (foc_finds p sym None N1) as [c1 F1]. fold p1 in F1. pose proof (foc_extends p1 sym2 None _ _ F1) as F1'. fold p2 in F1'.
  destruct (foc_finds p1 sym2 None N2) as [c2 F2]. fold p2 in F2.
  assert (Vd : valid_dt (mkDT d t)).
  { split; [eapply parse_date_valid; eauto|]. destruct time; [eapply parse_time_valid; eauto|]. subst. apply midnight_valid. }
  assert (E : parse_price_directive p (price_line date time sym qty sym2)
              = pool_add_price p2 (Some sym) (mkDT d t) (mkAmt q (Some sym2))).
  { unfold parse_price_directive. rewrite scan_price_line by assumption. cbn [bind]. rewrite Pd. cbn [unwrap bind].
    match goal with |- bind ?x _ = _ => assert (Et : x = Ok t) end.
    { destruct time as [x|]; [|subst; reflexivity]. destruct Ht as [[Nx _] _]. destruct x; [contradiction|]. cbn [is_empty].
      rewrite Pt. reflexivity. }
    rewrite Et. cbn [bind].
    pose proof (foc_comm p sym None) as K1. unfold p2, p1 in *. destruct (pool_find_or_create p sym None) as [q1 k1].
    cbn [fst snd] in *. rewrite Pq. cbn [unwrap bind].
    pose proof (foc_comm q1 sym2 None) as K2. destruct (pool_find_or_create q1 sym2 None) as [q2 k2].
    cbn [fst snd] in *. subst k1 k2. rewrite C1, C2. reflexivity. }
  assert (Es : c_symbol c1 = sym) by (apply (wp_comm _ Wp1 _ _ F1)).
  set (p' := mkPool (p_comms p2) (p_ann p2) (graph_add_price (p_hist p2) (c_index c1) (c_index c2) (mkDT d t) q)).
  assert (E' : pool_add_price p2 (Some sym) (mkDT d t) (mkAmt q (Some sym2)) = Ok p').
  { unfold pool_add_price. cbn [deref]. rewrite F1'. cbn [bind]. rewrite Es. cbn [a_c].
    destruct (comm_eqb_spec (Some sym) (Some sym2)) as [X|_]; [congruence|]. cbn [deref]. rewrite F2. reflexivity. }
  exists p'. rewrite E, E'. split; [reflexivity|]. split; [|split].
  - eapply extends_trans; [apply (foc_extends p sym None)|]. eapply extends_trans; [apply (foc_extends p1 sym2 None)|].
    exact (add_price_extends _ _ _ _ _ E').
  - intros y. change (pool_find p' y) with (pool_find p2 y). unfold p2.
    assert (G : forall p s, s <> [] -> pool_find (fst (pool_find_or_create p s None)) y <> None
                                  <-> pool_find p y <> None \/ y = s).
    { intros p0 s Hs. rewrite foc_cases. destruct s as [|k s]; [contradiction|]. cbn [is_empty fst].
      destruct (pool_find p0 (k :: s)) eqn:Fp.
      - split; [auto|]. intros [X| ->]; [exact X|congruence].
      - rewrite create_find by exact Fp. destruct (str_eqb y (k :: s)) eqn:Ey.
        + apply str_eqb_eq in Ey. split; [auto|discriminate].
        + apply str_eqb_neq in Ey. tauto. }
    pose proof (G p1 sym2 N2) as G2. pose proof (G p sym N1) as G1. fold p1 in G1. tauto.
  - intros a b w v. rewrite (add_price_effect _ _ _ _ _ Wp2 Vd E' a b w v). cbn [a_c a_q].
    pose proof (foc_prices _ sym2 None a b w v Wp1) as P2. pose proof (foc_prices p sym None a b w v W) as P1.
    fold p1 in P1. fold p2 in P2.
    destruct (comm_dec (Some a) (Some sym)) as [Ea|Ea]; [destruct (comm_dec (Some b) (Some sym2)) as [Eb|Eb]|].
    + assert (a = sym) by congruence. assert (b = sym2) by congruence. subst. tauto.
    + assert (b <> sym2) by congruence. tauto.
    + assert (a <> sym) by congruence. tauto.
Qed.

(** ** C38 *)
Lemma exchange_inv p amt cost pu moment bd np :
  wf_pool p -> exchange p amt cost pu moment = Ok (bd, np) ->
  exists sym uq basis,
    a_c amt = Some sym /\ (exists c, pool_find p sym = Some c)
    /\ (pu || amt_is_zero amt = true -> uq = d_set_pos (a_q cost))
    /\ (pu || amt_is_zero amt = false -> exists q, d_div (a_q cost) (a_q amt) = Ok q /\ uq = d_set_pos q)
    /\ np = (if negb (d_is_zero uq) && negb (comm_eqb (a_c amt) (a_c cost))
             then Some (mkPrice (a_c amt) moment (mkAmt uq (a_c cost))) else None)
    /\ (if pu then amt_mul cost (amt_abs amt) = Ok (bd_final_cost bd) else bd_final_cost bd = cost)
    /\ basis = bd_basis_cost bd
    /\ match lot_of p amt with
       | Some a => match an_price a with Some ap => amt_mul ap amt = Ok basis | None => basis = amt_null end
       | None => basis = bd_final_cost bd
       end
    /\ bd_amount bd = amt.
Proof.
  intros W H. unfold exchange in H. inv_bind H. apply unwrap_ok in EQ. rename v into sym.
  inv_bind H. cbn [deref] in EQ0. destruct (pool_find p sym) as [c|] eqn:F; [|discriminate].
  injection EQ0 as <-. destruct (wp_comm _ W _ _ F) as [Es Nn]. inv_bind H.
  assert (v = c).
  { unfold pool_get_by_index, get_commodity in EQ0. rewrite Nn in EQ0. cbn in EQ0. rewrite F in EQ0. congruence. }
  subst v. rewrite Es in H. inv_bind H. rename v into puc. inv_bind H. rename v into fc. inv_bind H. rename v into bc.
  injection H as <- <-. cbn [bd_final_cost bd_basis_cost bd_amount].
  set (pc := match a_c cost with Some _ => puc | None => amt_remove_commodity puc end).
  assert (Epc : pc = mkAmt (a_q puc) (a_c cost)).
  { unfold pc. destruct (a_c cost) eqn:Ec.
    - destruct (pu || amt_is_zero amt).
      + injection EQ1 as <-. unfold amt_abs; cbn. rewrite Ec. reflexivity.
      + inv_bind EQ1. injection EQ1 as <-. unfold amt_div in EQ4. inv_bind EQ4. injection EQ4 as <-.
        unfold amt_abs; cbn. rewrite Ec. reflexivity.
    - reflexivity. }
  exists sym, (a_q puc), bc. split; [exact EQ|]. split; [eauto|]. split; [|split; [|split; [|split; [|split; [|split]]]]].
  - intros E. rewrite E in EQ1. injection EQ1 as <-. reflexivity.
  - intros E. rewrite E in EQ1. inv_bind EQ1. injection EQ1 as <-. unfold amt_div in EQ4. inv_bind EQ4.
    injection EQ4 as <-. cbn. eauto.
  - fold pc. rewrite Epc. cbn [a_c a_q amt_is_zero]. reflexivity.
  - destruct pu; [exact EQ2|]. injection EQ2 as <-. reflexivity.
  - reflexivity.
  - unfold lot_of. rewrite EQ. destruct (lookup sym (p_ann p)) as [a|]; [destruct (an_price a)|].
    + exact EQ3.
    + injection EQ3 as <-. reflexivity.
    + injection EQ3 as <-. reflexivity.
  - reflexivity.
Qed.
Lemma set_pos_units d : wf_dec d -> units (d_set_pos d) = Z.abs (units d) /\ wf_dec (d_set_pos d).
Proof.
  intros W. split; [|exact W]. pose proof (amt_abs_units (mkAmt d None)) as H. apply H. exact W.
Qed.

(** The unit price of an exchange. *)
Lemma exchange_unit p amt cost pu moment bd np :
  wf_pool p -> wf_amt amt -> wf_amt cost ->
  exchange p amt cost pu moment = Ok (bd, np) ->
  exists u, unit_cost cost amt pu u
      /\ (np = None <-> u = 0%Z \/ a_c amt = a_c cost)
      /\ (forall pr, np = Some pr ->
           pr_commodity pr = a_c amt /\ pr_when pr = moment
           /\ a_c (pr_price pr) = a_c cost /\ aunits (pr_price pr) = u /\ wf_amt (pr_price pr)).
Proof.
  intros W Wa Wc H.
  destruct (exchange_inv _ _ _ _ _ _ _ W H) as (sym & uq & basis & Ea & _ & U1 & U2 & Np & Fc & -> & Bc & Am).
  assert (Wu : wf_dec uq).
    { destruct (pu || amt_is_zero amt) eqn:E.
      - rewrite U1 by reflexivity. exact Wc.
      - destruct U2 as (q & D & ->); [reflexivity|]. apply d_div_wf in D; auto. }
    assert (Zu : d_is_zero uq = true <-> units uq = 0%Z) by (apply d_is_zero_units, Wu).
    assert (Za : amt_is_zero amt = true <-> aunits amt = 0%Z) by (apply d_is_zero_units, Wa).
    exists (units uq). split; [|split].
    + split.
      * intros Hc. rewrite U1; [apply set_pos_units, Wc|]. destruct Hc as [->|Hc]; [reflexivity|].
        apply Za in Hc. rewrite Hc. apply orb_true_r.
      * intros -> Hn. destruct U2 as (q & D & ->).
        { cbn. destruct (amt_is_zero amt); [exfalso; apply Hn, Za; reflexivity|reflexivity]. }
        exists q. split; [exact (d_div_rounded _ _ _ Wc Wa D)|]. apply set_pos_units. exact (d_div_wf _ _ _ Wc Wa D).
    + rewrite Np. destruct (d_is_zero uq) eqn:E; cbn [negb andb].
      * split; [intros _; left; apply Zu; reflexivity|reflexivity].
      * destruct (comm_eqb_spec (a_c amt) (a_c cost)) as [E2|E2]; cbn [negb].
        -- split; [auto|reflexivity].
        -- split; [discriminate|]. intros [X|X]; [|contradiction]. apply Zu in X. discriminate.
    + intros pr Hp. rewrite Np in Hp. destruct (_ && _); [|discriminate]. injection Hp as <-. cbn.
      repeat split; auto; apply Wu.
Qed.

Lemma exchange_breakdown p amt cost pu moment bd np :
  reachable_pool p -> wf_amt amt -> wf_amt cost ->
  exchange p amt cost pu moment = Ok (bd, np) ->
  bd_amount bd = amt
  /\ (pu = false -> bd_final_cost bd = cost)
  /\ (pu = true -> a_c (bd_final_cost bd) = comm_or (a_c cost) (a_c amt)
        /\ rounded (aunits cost * Z.abs (aunits amt)) unit1 (a_q (bd_final_cost bd)))
  /\ (lot_of p amt = None -> bd_basis_cost bd = bd_final_cost bd)
  /\ (forall a ap, lot_of p amt = Some a -> an_price a = Some ap ->
        a_c (bd_basis_cost bd) = comm_or (a_c ap) (a_c amt)
        /\ rounded (aunits ap * aunits amt) unit1 (a_q (bd_basis_cost bd)))
  /\ exists u, unit_cost cost amt pu u
      /\ (np = None <-> u = 0%Z \/ a_c amt = a_c cost)
      /\ (forall pr, np = Some pr ->
           pr_commodity pr = a_c amt /\ pr_when pr = moment
           /\ a_c (pr_price pr) = a_c cost /\ aunits (pr_price pr) = u /\ wf_amt (pr_price pr)).
Proof.
  intros R Wa Wc H. apply reachable_wf in R as W.
  destruct (exchange_inv _ _ _ _ _ _ _ W H) as (sym & uq & basis & Ea & _ & U1 & U2 & Np & Fc & -> & Bc & Am).
  split; [exact Am|]. split; [intros ->; exact Fc|]. split; [|split; [|split]].
  - intros ->. split.
    + apply amt_mul_wf in Fc as [_ Fc]. exact Fc.
    + unfold amt_mul in Fc. inv_bind Fc. injection Fc as Fc. rewrite <- Fc. cbn [a_q].
      apply d_mul_rounded in EQ; [|exact Wc|exact (wf_amt_abs _ Wa)]. unfold rounded_product in EQ.
      change (units (a_q (amt_abs amt))) with (aunits (amt_abs amt)) in EQ. rewrite amt_abs_units in EQ by exact Wa. exact EQ.
  - intros E. rewrite E in Bc. exact Bc.
  - intros a ap E1 E2. rewrite E1, E2 in Bc. split.
    + apply amt_mul_wf in Bc as [_ Bc]. exact Bc.
    + assert (Wp : wf_amt ap).
      { unfold lot_of in E1. rewrite Ea in E1. destruct (wp_ann _ W _ _ E1) as [_ Hw]. apply Hw, E2. }
      unfold amt_mul in Bc. inv_bind Bc. injection Bc as Bc. rewrite <- Bc. cbn [a_q].
      apply d_mul_rounded in EQ; [exact EQ|exact Wp|exact Wa].
  - exact (exchange_unit _ _ _ _ _ _ _ W Wa Wc H).
Qed.

(** ** C47 *)
Lemma date_text y m d :
  forallb is_digit y = true -> forallb is_digit m = true -> forallb is_digit d = true ->
  length y = 4 -> length m = 2 -> length d = 2 ->
  forall r, parse_date_opt (y ++ 45%N :: m ++ 45%N :: d) = Some r <->
            r = mkDate (number y) (number m) (number d)
            /\ valid_date (mkDate (number y) (number m) (number d)).
Proof. intros. rewrite parse_date_run by assumption. apply from_ymd_spec. Qed.
Lemma order_chronological t1 t2 :
  valid_dt t1 -> valid_dt t2 ->
  (dt_key t1 < dt_key t2 <-> before t1 t2)%Z /\ (dt_key t1 = dt_key t2 <-> t1 = t2).
Proof.
  intros V1 V2. split; [apply dt_key_lt; assumption|]. split; [apply dt_key_eq; assumption|congruence].
Qed.
