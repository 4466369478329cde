(** Facts about price lookup: chains of prices, breadth-first search, rates. *)
From Coq Require Import List NArith ZArith Bool Lia ListDec ZifyBool ZifyNat ZifyN.
From Verif Require Import Base BaseFacts Decimal Dates Amount Scanner History Pool SpecDecimal
  SpecAmount SpecDates SpecPool DecimalFacts RoundFacts DatesFacts BalanceFacts PoolFacts.
Import ListNotations.
Open Scope nat_scope.

Lemma not_nodup (l : list nat) :
  ~ NoDup l -> exists x l1 l2 l3, l = l1 ++ x :: l2 ++ x :: l3.
Proof.
  induction l as [|a l IH]; intros H; [exfalso; apply H; constructor|].
  destruct (in_dec Nat.eq_dec a l) as [I|I].
  - apply in_split in I as (l2 & l3 & ->). exists a, [], l2, l3. reflexivity.
  - destruct IH as (x & l1 & l2 & l3 & ->).
    + intros N. apply H. constructor; assumption.
    + exists x, (a :: l1), l2, l3. reflexivity.
Qed.

(** ** Breadth-first search finds shortest paths *)
Section Bfs.
  Variable g : graph.

  Lemma chain_app p1 : forall a p2 b,
    chain g a (p1 ++ p2) b <-> exists c, chain g a p1 c /\ chain g c p2 b.
  Proof.
    induction p1 as [|x p1 IH]; intros a p2 b; cbn [app chain].
    - split; [intros H; exists a; auto|]. intros (c & -> & H). exact H.
    - rewrite IH. split.
      + intros (H & c & H1 & H2). exists c. auto.
      + intros (c & (H & H1) & H2). eauto.
  Qed.
  Lemma chain_snoc p a x b : chain g a (p ++ [x]) b <-> exists c, chain g a p c /\ hop g c x /\ x = b.
  Proof. rewrite chain_app. split; intros (c & H1 & H2); exists c; cbn in *; tauto. Qed.

  Lemma successors_hop a b : In b (successors g a) <-> hop g a b.
  Proof.
    unfold successors, hop. rewrite in_map_iff. split.
    - intros ([[x y] m] & E & H). apply filter_In in H as [H1 H2]. cbn in *. apply Nat.eqb_eq in H2.
      subst. eauto.
    - intros [m H]. exists (a, b, m). split; [reflexivity|]. apply filter_In. cbn. rewrite Nat.eqb_refl. auto.
  Qed.

  Definition headed (x : nat) (p : list nat) : Prop := exists r, p = x :: r.
  Definition heads (x : nat) (ps : list (list nat)) : Prop := exists p, In p ps /\ headed x p.

  Lemma existsb_eqb_in b l : existsb (Nat.eqb b) l = true <-> In b l.
  Proof.
    rewrite existsb_exists. split.
    - intros (x & H & E). apply Nat.eqb_eq in E. subst. exact H.
    - intros H. exists b. split; [exact H|apply Nat.eqb_refl].
  Qed.

  Lemma expand_spec fr : forall seen ps seen',
    bfs_expand g fr seen = (ps, seen') ->
    (forall q, In q ps -> exists b p a r, q = b :: p /\ In p fr /\ p = a :: r /\ hop g a b /\ ~ In b seen)
    /\ (forall p a r b, In p fr -> p = a :: r -> hop g a b -> ~ In b seen -> heads b ps)
    /\ (forall x, In x seen' <-> In x seen \/ heads x ps).
  Proof.
    induction fr as [|p fr IH]; intros seen ps seen' H; cbn [bfs_expand] in H.
    - injection H as <- <-. split; [intros q []|]. split; [intros p a r b []|].
      intros x. split; [auto|]. intros [H|(p & [] & _)]; exact H.
    - set (succ := match p with [] => [] | a :: _ => successors g a end) in *.
      set (new := nodup Nat.eq_dec (filter (fun b => negb (existsb (Nat.eqb b) seen)) succ)) in *.
      assert (Hnew : forall b, In b new <-> In b succ /\ ~ In b seen).
      { intros b. unfold new. rewrite nodup_In, filter_In, negb_true_iff.
        destruct (existsb (Nat.eqb b) seen) eqn:X.
        - apply existsb_eqb_in in X. split; [intros [_ H']; discriminate|tauto].
        - assert (~ In b seen) by (rewrite <- existsb_eqb_in; congruence). tauto. }
      destruct (bfs_expand g fr (new ++ seen)) as [qs seen1] eqn:E. injection H as <- <-.
      destruct (IH _ _ _ E) as (I1 & I2 & I3).
      assert (Hs : forall b, In b succ -> exists a r, p = a :: r /\ hop g a b).
      { intros b Hb. unfold succ in Hb. destruct p as [|a r]; [contradiction|].
        exists a, r. split; [reflexivity|]. apply successors_hop, Hb. }
      assert (Hh : forall x, heads x (map (fun b => b :: p) new ++ qs) <-> In x new \/ heads x qs).
      { intros x. unfold heads. split.
        - intros (q & Hq & r & ->). apply in_app_or in Hq as [Hq|Hq].
          + apply in_map_iff in Hq as (b & Eb & Hb). injection Eb as -> _. auto.
          + right. exists (x :: r). split; [exact Hq|]. exists r. reflexivity.
        - intros [Hx|(q & Hq & Hd)].
          + exists (x :: p). split; [apply in_or_app; left; apply in_map_iff; eauto|exists p; reflexivity].
          + exists q. split; [apply in_or_app; auto|exact Hd]. }
      split; [|split].
      + intros q Hq. apply in_app_or in Hq as [Hq|Hq].
        * apply in_map_iff in Hq as (b & <- & Hb). apply Hnew in Hb as [Hb Hb'].
          destruct (Hs b Hb) as (a & r & -> & Hp). exists b, (a :: r), a, r. cbn; auto.
        * destruct (I1 q Hq) as (b & p' & a & r & -> & Hp & -> & Hh' & Hn). exists b, (a :: r), a, r.
          split; [reflexivity|]. split; [right; exact Hp|]. split; [reflexivity|]. split; [exact Hh'|].
          intros Hi. apply Hn, in_or_app. auto.
      + intros p' a r b [Hp|Hp] Ep Hb Hn; apply Hh.
        * left. apply Hnew. split; [|exact Hn]. subst p' p. cbn. apply successors_hop, Hb.
        * destruct (in_dec Nat.eq_dec b new) as [Hi|Hi]; [auto|]. right. eapply I2; eauto.
          intros Hc. apply in_app_or in Hc as [Hc|Hc]; contradiction.
      + intros x. rewrite I3, Hh, in_app_iff. tauto.
  Qed.

  Variables s t : nat.
  Definition reach (k x : nat) : Prop := exists p, length p = k /\ chain g s p x.
  Definition first_at (k x : nat) : Prop := reach k x /\ forall j, j < k -> ~ reach j x.

  Record level (k : nat) (fr : list (list nat)) (seen : list nat) : Prop := {
    lv_paths : forall p, In p fr -> exists x tail, headed x p /\ rev p = s :: tail
                                                   /\ length tail = k /\ chain g s tail x;
    lv_heads : forall x, heads x fr <-> first_at k x;
    lv_seen : forall x, In x seen <-> exists j, j <= k /\ reach j x }.

  Lemma level0 : level 0 [[s]] [s].
  Proof.
    constructor.
    - intros p [<-|[]]. exists s, []. repeat split. exists []. reflexivity.
    - intros x. split.
      + intros (p & [<-|[]] & r & E). injection E as <- <-. split; [exists []; repeat split|lia].
      + intros [(p & L & C) _]. destruct p; [|discriminate]. cbn in C. subst x.
        exists [s]. split; [left; reflexivity|exists []; reflexivity].
    - intros x. cbn. split.
      + intros [<-|[]]. exists 0. split; [lia|]. exists []. split; reflexivity.
      + intros (j & Hj & p & L & C). destruct p; [|cbn in L; lia]. cbn in C. auto.
  Qed.
  Lemma reach_S k x : reach (S k) x <-> exists y, reach k y /\ hop g y x.
  Proof.
    split.
    - intros (p & L & C). destruct (exists_last (l := p)) as (q & z & ->); [destruct p; discriminate|].
      apply chain_snoc in C as (y & C & Hh & ->). rewrite app_length in L. cbn in L.
      exists y. split; [exists q; split; [lia|exact C]|exact Hh].
    - intros (y & (p & L & C) & Hh). exists (p ++ [x]). rewrite app_length. cbn. split; [lia|].
      apply chain_snoc. exists y. auto.
  Qed.

  Lemma level_step k fr seen fr' seen' :
    level k fr seen -> bfs_expand g fr seen = (fr', seen') -> level (S k) fr' seen'.
  Proof.
    intros [Lp Lh Ls] E. destruct (expand_spec _ _ _ _ E) as (E1 & E2 & E3).
    assert (Hh : forall x, heads x fr' <-> first_at (S k) x).
    { intros x. split.
      - intros (q & Hq & r & ->). destruct (E1 _ Hq) as (b & p & a & r' & Eb & Hp & -> & Ha & Hn).
        injection Eb as <- ->. split.
        + apply reach_S. exists a. split; [|exact Ha]. destruct (Lp _ Hp) as (y & tail & (r'' & Ey) & _ & L & C).
          injection Ey as <- _. exists tail. auto.
        + intros j Hj Hr. apply Hn, Ls. exists j. split; [lia|exact Hr].
      - intros [Hr Hm]. apply reach_S in Hr as (y & Hy & Hyx).
        assert (Fy : first_at k y).
        { split; [exact Hy|]. intros j Hj Hr. apply (Hm (S j)); [lia|]. apply reach_S. eauto. }
        apply Lh in Fy as (p & Hp & r & ->). eapply E2; [exact Hp|reflexivity|exact Hyx|].
        intros Hs. apply Ls in Hs as (j & Hj & Hr). apply (Hm j); [lia|exact Hr]. }
    constructor; [|exact Hh|].
    - intros q Hq. destruct (E1 _ Hq) as (b & p & a & r & -> & Hp & -> & Ha & Hn).
      destruct (Lp _ Hp) as (y & tail & (r' & Ey) & Er & L & C). injection Ey as <- _.
      exists b, (tail ++ [b]). split; [exists (a :: r); reflexivity|]. split.
      + change (rev (b :: a :: r)) with (rev (a :: r) ++ [b]). rewrite Er. reflexivity.
      + rewrite app_length. cbn. split; [lia|]. apply chain_snoc. exists a. auto.
    - intros x. rewrite E3, Ls, Hh. split.
      + intros [(j & Hj & Hr)|[Hr _]]; [exists j; split; [lia|exact Hr]|exists (S k); auto].
      + intros (j & Hj & Hr). destruct (le_lt_dec j k) as [L|L]; [left; eauto|].
        assert (j = S k) by lia. subst j.
        destruct (in_dec Nat.eq_dec x seen) as [Hi|Hi]; [left; apply Ls, Hi|].
        right. split; [exact Hr|]. intros i Hi' Hri. apply Hi, Ls. exists i. split; [lia|exact Hri].
  Qed.

  Lemma loop_spec fuel : forall k fr seen,
    level k fr seen -> (forall j, j < k -> ~ reach j t) ->
    match bfs_loop fuel g t fr seen with
    | Some (n, path) => exists tail, path = s :: tail /\ length tail = n /\ chain g s tail t
                                     /\ forall j, j < n -> ~ reach j t
    | None => forall j, j <= k + fuel -> ~ reach j t
    end.
  Proof.
    induction fuel as [|f IH]; intros k fr seen Lv Hk; cbn [bfs_loop];
      destruct (find _ fr) as [p|] eqn:F.
    - apply find_some in F as [Hp Ht]. destruct (lv_paths _ _ _ Lv _ Hp) as (x & tail & (r & ->) & Er & L & C).
      apply Nat.eqb_eq in Ht. subst x. exists tail. rewrite Er.
      assert (length (t :: r) = S (length tail)) by (rewrite <- rev_length, Er; reflexivity).
      cbn [length] in *. split; [reflexivity|]. split; [lia|]. split; [exact C|]. intros j Hj. apply Hk. lia.
    - intros j Hj. destruct (Nat.lt_ge_cases j k) as [Hl|Hl]; [apply Hk, Hl|]. assert (j = k) by lia. subst j.
      intros Hr. assert (Ft : first_at k t) by (split; assumption).
      apply (lv_heads _ _ _ Lv) in Ft as (p & Hp & r & ->).
      pose proof (find_none _ _ F _ Hp) as Hc. cbn in Hc. rewrite Nat.eqb_refl in Hc. discriminate.
    - apply find_some in F as [Hp Ht]. destruct (lv_paths _ _ _ Lv _ Hp) as (x & tail & (r & ->) & Er & L & C).
      apply Nat.eqb_eq in Ht. subst x. exists tail. rewrite Er.
      assert (length (t :: r) = S (length tail)) by (rewrite <- rev_length, Er; reflexivity).
      cbn [length] in *. split; [reflexivity|]. split; [lia|]. split; [exact C|]. intros j Hj. apply Hk. lia.
    - destruct (bfs_expand g fr seen) as [fr' seen'] eqn:E.
      assert (Hk' : forall j, j < S k -> ~ reach j t).
      { intros j Hj. destruct (Nat.lt_ge_cases j k) as [Hl|Hl]; [apply Hk, Hl|]. assert (j = k) by lia. subst j.
        intros Hr. assert (Ft : first_at k t) by (split; assumption).
        apply (lv_heads _ _ _ Lv) in Ft as (p & Hp & r & ->).
        pose proof (find_none _ _ F _ Hp) as Hc. cbn in Hc. rewrite Nat.eqb_refl in Hc. discriminate. }
      pose proof (IH (S k) fr' seen' (level_step _ _ _ _ _ Lv E) Hk') as R.
      destruct (bfs_loop f g t fr' seen') as [[n path]|]; [exact R|].
      intros j Hj. apply R. lia.
  Qed.

  (** A path with the fewest hops visits no node twice and so uses at most every edge once. *)
  Lemma chain_targets p : forall a b, chain g a p b -> incl p (map (fun e => snd (fst e)) (g_edges g)).
  Proof.
    induction p as [|x p IH]; intros a b H; [intros y []|]. destruct H as [[m Hm] H].
    intros y [<-|Hy]; [|eapply IH; eauto]. apply in_map_iff. exists (a, x, m). auto.
  Qed.
  Lemma shortest_bound p :
    chain g s p t -> (forall j, j < length p -> ~ reach j t) -> length p <= length (g_edges g).
  Proof.
    intros C M. destruct (NoDup_dec Nat.eq_dec p) as [N|N].
    - pose proof (NoDup_incl_length N (chain_targets _ _ _ C)) as H. rewrite map_length in H. exact H.
    - exfalso. apply not_nodup in N as (x & l1 & l2 & l3 & E). subst p.
      apply (M (length (l1 ++ x :: l3))).
      + rewrite !app_length. cbn. rewrite app_length. cbn. lia.
      + exists (l1 ++ x :: l3). split; [reflexivity|].
        apply chain_app in C as (c & C1 & [H C2]). apply chain_app in C2 as (d & C2 & [H' C3]).
        apply chain_app. exists c. split; [exact C1|]. split; assumption.
  Qed.
End Bfs.

Lemma minimal_chain g s t n p :
  length p = n -> chain g s p t ->
  exists q, chain g s q t /\ length q <= n /\ forall j, j < length q -> ~ reach g s j t.
Proof.
  revert p. induction n as [n IH] using lt_wf_ind. intros p L C.
  (* either some shorter chain exists, or this one is minimal: decided by bfs *)
  pose proof (loop_spec g s t n 0 _ _ (level0 g s) ltac:(intros; lia)) as H.
  destruct (bfs_loop n g t [[s]] [s]) as [[k path]|].
  - destruct H as (tail & -> & L' & C' & M). subst k. exists tail. split; [exact C'|]. split; [|exact M].
    destruct (Nat.le_gt_cases (length tail) n) as [Hl|Hl]; [exact Hl|]. exfalso. apply (M n Hl). exists p. auto.
  - exfalso. apply (H n); [lia|]. exists p. auto.
Qed.

Lemma bfs_shortest : shortest_paths bfs.
Proof.
  intros g s t. unfold bfs.
  pose proof (loop_spec g s t (length (g_edges g)) 0 _ _ (level0 g s) ltac:(intros; lia)) as H.
  destruct (bfs_loop (length (g_edges g)) g t [[s]] [s]) as [[n path]|].
  - destruct H as (tail & -> & L & C & M). exists tail. split; [reflexivity|]. split; [exact L|]. split; [exact C|].
    intros other Ho. destruct (Nat.le_gt_cases n (length other)) as [Hl|Hl]; [exact Hl|].
    exfalso. apply (M _ Hl). exists other. auto.
  - intros other Ho. destruct (minimal_chain g s t _ other eq_refl Ho) as (q & C & _ & M).
    pose proof (shortest_bound g s t q C M) as B. apply (H (length q)); [lia|]. exists q. auto.
Qed.

(** ** Chains of nodes and chains of symbols *)
Lemma nonempty_points g a b :
  NoDup (map fst (g_edges g)) -> (exists e, In e (points g a b)) -> hop g a b.
Proof.
  intros N [e He]. unfold points in He. destruct (find_edge (g_edges g) a b) as [m|] eqn:F; [|contradiction].
  exists m. apply find_edge_in; assumption.
Qed.
Lemma hop_points p a b : wf_pool p -> hop (p_hist p) a b -> exists e, In e (points (p_hist p) a b).
Proof.
  intros W [m H]. pose proof (wp_edge _ W _ _ _ H) as (_ & _ & _ & Hn & _).
  apply find_edge_in in H; [|apply W]. unfold points. rewrite H. destruct m as [|e m]; [contradiction|].
  exists e. left. reflexivity.
Qed.
Lemma priced_hop p s t :
  wf_pool p -> priced p s t <->
  exists a b, index_of p s = Some a /\ index_of p t = Some b /\ hop (p_hist p) a b.
Proof.
  intros W. split.
  - intros (w & v & a & b & Ha & Hb & H). exists a, b. split; [exact Ha|]. split; [exact Hb|].
    apply nonempty_points; [apply W|eauto].
  - intros (a & b & Ha & Hb & H). apply hop_points in H as [[w v] H]; [|exact W].
    exists w, v, a, b. auto.
Qed.
Lemma node_index p a : wf_pool p -> a < length (g_nodes (p_hist p)) -> exists s, index_of p s = Some a.
Proof.
  intros W H. destruct (nth_error (g_nodes (p_hist p)) a) as [s|] eqn:E.
  - destruct (wp_node _ W _ _ E) as (c & F & I). exists s. unfold index_of. rewrite F. cbn. congruence.
  - apply nth_error_None in E. lia.
Qed.
Lemma index_of_inj p s t a : wf_pool p -> index_of p s = Some a -> index_of p t = Some a -> s = t.
Proof.
  intros W. unfold index_of. destruct (pool_find p s) eqn:F1; [|discriminate].
  destruct (pool_find p t) eqn:F2; [|discriminate]. cbn. intros E1 E2. eapply index_inj; eauto. congruence.
Qed.
Lemma hop_range p a b : wf_pool p -> hop (p_hist p) a b -> a <> b /\ b < length (g_nodes (p_hist p)).
Proof. intros W [m H]. pose proof (wp_edge _ W _ _ _ H) as (N & _ & L & _). auto. Qed.

(** The symbols of a path of nodes. *)
Definition symbols (p : pool) (path : list nat) (syms : list str) : Prop :=
  Forall2 (fun i s => index_of p s = Some i) path syms.
Lemma chain_symbols p : wf_pool p -> forall path a s b t,
  index_of p s = Some a -> index_of p t = Some b -> chain (p_hist p) a path b ->
  exists syms, symbols p path syms /\ price_chain p s syms t.
Proof.
  intros W. induction path as [|x path IH]; intros a s b t Ha Hb C; cbn [chain] in C.
  - subst b. exists []. split; [constructor|]. cbn. eapply index_of_inj; eauto.
  - destruct C as [Hh C]. destruct (hop_range _ _ _ W Hh) as [_ L].
    destruct (node_index _ _ W L) as [u Hu]. destruct (IH x u b t Hu Hb C) as (syms & S & P).
    exists (u :: syms). split; [constructor; assumption|]. cbn. split; [|exact P].
    apply priced_hop; [exact W|]. exists a, x. auto.
Qed.
Lemma symbols_chain p : wf_pool p -> forall syms a s b t,
  index_of p s = Some a -> index_of p t = Some b -> price_chain p s syms t ->
  exists path, symbols p path syms /\ chain (p_hist p) a path b.
Proof.
  intros W. induction syms as [|u syms IH]; intros a s b t Ha Hb C; cbn [price_chain] in C.
  - subst t. exists []. split; [constructor|]. cbn. congruence.
  - destruct C as [Hp C]. apply priced_hop in Hp as (a' & x & Ha' & Hx & Hh); [|exact W].
    rewrite Ha in Ha'. injection Ha' as <-. destruct (IH x u b t Hx Hb C) as (path & S & P).
    exists (x :: path). split; [constructor; assumption|]. cbn. auto.
Qed.

(** ** The newest price *)
Lemma direct_spec p a b :
  wf_pool p ->
  match get_direct_price (p_hist p) a b with
  | None => points (p_hist p) a b = []
  | Some (w, v) => In (w, v) (points (p_hist p) a b)
                   /\ forall w' v', In (w', v') (points (p_hist p) a b) -> not_after w' w
  end.
Proof.
  intros W. destruct (points_valid p a b W) as [V A]. unfold get_direct_price, points in *.
  destruct (find_edge (g_edges (p_hist p)) a b) as [m|]; [|reflexivity]. apply latest_spec; assumption.
Qed.
Lemma points_wf p a b w v :
  wf_pool p -> In (w, v) (points (p_hist p) a b) -> valid_dt w /\ wf_dec v.
Proof.
  intros W H. unfold points in H. destruct (find_edge (g_edges (p_hist p)) a b) as [m|] eqn:F; [|contradiction].
  apply find_edge_in in F; [|apply W]. pose proof (wp_edge _ W _ _ _ F) as (_ & _ & _ & _ & _ & Hf).
  rewrite Forall_forall in Hf. exact (Hf _ H).
Qed.
Lemma newest_direct p s t a b :
  wf_pool p -> index_of p s = Some a -> index_of p t = Some b ->
  forall w v, get_direct_price (p_hist p) a b = Some (w, v) <-> newest_price p s t w v.
Proof.
  intros W Ha Hb w v.
  assert (PO : forall w v, price_on p s t w v <-> In (w, v) (points (p_hist p) a b)).
  { intros w0 v0. split; [|unfold price_on; eauto].
    intros (x & y & Hx & Hy & H). rewrite Ha in Hx. rewrite Hb in Hy. injection Hx as <-. injection Hy as <-. exact H. }
  unfold newest_price. pose proof (direct_spec p a b W) as D.
  destruct (get_direct_price (p_hist p) a b) as [[w0 v0]|].
  - destruct D as [D1 D2]. split.
    + intros H. injection H as <- <-. rewrite PO. split; [exact D1|]. intros w' v'. rewrite PO. apply D2.
    + rewrite PO. intros [H1 H2]. pose proof (D2 _ _ H1) as L1.
      assert (L2 : not_after w0 w) by (eapply H2, PO; exact D1).
      destruct (points_wf _ _ _ _ _ W H1) as [V1 _]. destruct (points_wf _ _ _ _ _ W D1) as [V2 _].
      apply dt_key_le in L1; auto. apply dt_key_le in L2; auto.
      assert (w = w0) by (apply dt_key_eq; auto; lia). subst w0. f_equal. f_equal.
      destruct (points_valid p a b W) as [V A]. eapply ascending_det; eauto.
  - split; [discriminate|]. rewrite PO, D. intros [[] _].
Qed.
Lemma hop_direct p a b : wf_pool p -> hop (p_hist p) a b ->
  exists w v, get_direct_price (p_hist p) a b = Some (w, v) /\ valid_dt w /\ wf_dec v.
Proof.
  intros W H. apply hop_points in H as [e He]; [|exact W]. pose proof (direct_spec p a b W) as D.
  destruct (get_direct_price (p_hist p) a b) as [[w v]|]; [|rewrite D in He; contradiction].
  exists w, v. split; [reflexivity|]. destruct D as [D _]. eapply points_wf; eauto.
Qed.

(** ** Rates along a chain *)
Definition min_dt (l d : datetime) : datetime := if (dt_key d <? dt_key l)%Z then d else l.
Lemma rate_loop_spec p : wf_pool p -> forall path a b least rate,
  chain (p_hist p) a path b ->
  exists prices,
    Forall (fun e => valid_dt (fst e) /\ wf_dec (snd e)) prices
    /\ (forall s syms, index_of p s = Some a -> symbols p path syms -> newest_along p s syms prices)
    /\ rate_loop (p_hist p) a path least rate
       = let* r := fold_outcome d_mul (map snd prices) rate in
         Ok (fold_left min_dt (map fst prices) least, r).
Proof.
  intros W. induction path as [|x path IH]; intros a b least rate C.
  - exists []. split; [constructor|]. split; [|reflexivity]. intros s syms Hs S. inversion S. exact I.
  - destruct C as [Hh C]. destruct (hop_range _ _ _ W Hh) as [N _].
    destruct (hop_direct _ _ _ W Hh) as (w & v & D & Vw & Vv).
    cbn [rate_loop]. destruct (Nat.eqb_spec x a) as [E|_]; [congruence|]. rewrite D. cbn [unwrap bind].
    destruct (d_mul rate v) as [r| |] eqn:M; cbn [bind].
    + destruct (IH x b (min_dt least w) r C) as (prices & F & NA & E). exists ((w, v) :: prices).
      split; [constructor; auto|]. split.
      * intros s syms Hs S. inversion S as [|? u ? syms' Hu S']; subst. cbn. split; [|apply NA; assumption].
        eapply newest_direct; eauto.
      * cbn [map fst snd fold_outcome fold_left]. rewrite M. cbn [bind]. exact E.
    + destruct (IH x b least rate C) as (prices & F & NA & E). exists ((w, v) :: prices).
      split; [constructor; auto|]. split.
      * intros s syms Hs S. inversion S as [|? u ? syms' Hu S']; subst. cbn. split; [|apply NA; assumption].
        eapply newest_direct; eauto.
      * cbn [map fst snd fold_outcome fold_left]. rewrite M. reflexivity.
    + destruct (IH x b least rate C) as (prices & F & NA & E). exists ((w, v) :: prices).
      split; [constructor; auto|]. split.
      * intros s syms Hs S. inversion S as [|? u ? syms' Hu S']; subst. cbn. split; [|apply NA; assumption].
        eapply newest_direct; eauto.
      * cbn [map fst snd fold_outcome fold_left]. rewrite M. reflexivity.
Qed.
Lemma min_dt_spec ws : forall now, valid_dt now -> Forall valid_dt ws ->
  earliest now ws (fold_left min_dt ws now) /\ valid_dt (fold_left min_dt ws now).
Proof.
  induction ws as [|w ws IH]; intros now Vn Vw; cbn [fold_left].
  - split; [|exact Vn]. split; [left; reflexivity|]. constructor; [right; reflexivity|constructor].
  - inversion Vw as [|? ? Vw1 Vw2]; subst.
    assert (Vm : valid_dt (min_dt now w)) by (unfold min_dt; destruct (dt_key w <? dt_key now)%Z; assumption).
    destruct (IH _ Vm Vw2) as [[I F] V]. split; [|exact V]. inversion F as [|? ? F1 F2]; subst. split.
    + destruct I as [I|I]; [|right; right; exact I]. rewrite <- I.
      unfold min_dt. destruct (dt_key w <? dt_key now)%Z; [right; left; reflexivity|left; reflexivity].
    + apply dt_key_le in F1; [|assumption|assumption]. 
      assert (K : (dt_key (min_dt now w) <= dt_key now /\ dt_key (min_dt now w) <= dt_key w)%Z)
        by (unfold min_dt; destruct (Z.ltb_spec (dt_key w) (dt_key now)); lia).
      constructor; [apply dt_key_le; auto; lia|]. constructor; [apply dt_key_le; auto; lia|exact F2].
Qed.
Lemma d_mul_no_other a b : (exists r, d_mul a b = Ok r) \/ d_mul a b = Panic PArith.
Proof.
  unfold d_mul. destruct (_ || _); [eauto|]. destruct (_ && _ && _); [eauto|]. unfold d_reduced.
  destruct (reduce _ _) as [[m s]|]; eauto.
Qed.
Lemma mul_fold_no_other vs : forall r,
  (exists r', fold_outcome d_mul vs r = Ok r') \/ fold_outcome d_mul vs r = Panic PArith.
Proof.
  induction vs as [|v vs IH]; intros r; cbn [fold_outcome]; [eauto|].
  destruct (d_mul_no_other r v) as [[r' ->]| ->]; cbn [bind]; auto.
Qed.
Lemma mul_fold_exact vs : forall r z,
  wf_dec r -> Forall wf_dec vs -> exact_product (units r) vs z ->
  exists r', fold_outcome d_mul vs r = Ok r' /\ wf_dec r' /\ units r' = z.
Proof.
  induction vs as [|v vs IH]; intros r z Wr Wv E; cbn [fold_outcome].
  - cbn in E. exists r. auto.
  - inversion Wv; subst. destruct E as (d & Wd & Ed & E). destruct (d_mul_exact r v d) as (x & X & Wx & Ux); auto.
    rewrite X. cbn [bind]. apply IH; auto. rewrite Ux. exact E.
Qed.

Lemma mul_fold_rounded vs : forall r r',
  wf_dec r -> Forall wf_dec vs -> fold_outcome d_mul vs r = Ok r' -> rounded_products r vs r'.
Proof.
  induction vs as [|v vs IH]; intros r r' Wr Wv E; cbn [fold_outcome] in E.
  - injection E as <-. reflexivity.
  - inversion Wv; subst. inv_bind E. match goal with H : d_mul r v = Ok ?x |- _ => exists x; split; [apply d_mul_rounded; auto|]; apply IH; auto; eapply d_mul_wf; eauto end.
Qed.
