(** Proofs for C96: reading the same lines into different journals. *)
From Coq Require Import String List NArith ZArith Bool Lia Permutation.
From Verif Require Import Base Decimal Dates Amount Balance Scanner History Pool Account Journal Xact Parser Report Lib.
From Verif Require Import SpecAmount SpecDates SpecAccount SpecXact SpecPool SpecJournal SpecReport SpecValue SpecTogether.
From Verif Require Import BaseFacts DecimalFacts DatesFacts BalanceFacts PoolFacts AccountFacts AccountProofs PriceFacts PriceProofs XactFacts XactProofs JournalFacts JournalProofs ReportFacts ReportProofs PriceLogFacts ReadingFacts ReportTextProofs.
Import ListNotations.
Open Scope list_scope.
Open Scope nat_scope.

Lemma uo_bind {A B C D} (R : A -> B -> Prop) (S : C -> D -> Prop) o o' k k' :
  unless_overflow R o o' -> (forall a b, o = Ok a -> o' = Ok b -> R a b -> unless_overflow S (k a) (k' b)) -> unless_overflow S (bind o k) (bind o' k').
Proof.
  intros [->|[->|H]] K; [left; reflexivity|right; left; reflexivity|].
  destruct o as [a|p|], o' as [b|p'|]; cbn in H; try contradiction; cbn [bind].
  - apply K; auto.
  - right. right. exact H.
  - right. right. exact I.
Qed.
Lemma uo_eq {A} (o : outcome A) : unless_overflow eq o o.
Proof. right. right. destruct o; reflexivity. Qed.
Lemma uo_same {A C D} (S : C -> D -> Prop) (o : outcome A) k k' : (forall a, o = Ok a -> unless_overflow S (k a) (k' a)) -> unless_overflow S (bind o k) (bind o k').
Proof. intros K. eapply uo_bind; [apply uo_eq|]. intros a b E _ <-. apply K, E. Qed.
Lemma so_uo {A B} (R : A -> B -> Prop) x y : same_outcome R x y -> unless_overflow R x y.
Proof. right. right. assumption. Qed.
Lemma so_bind {A B C D} (R : A -> B -> Prop) (S : C -> D -> Prop) o o' k k' :
  same_outcome R o o' -> (forall a b, o = Ok a -> o' = Ok b -> R a b -> same_outcome S (k a) (k' b)) -> same_outcome S (bind o k) (bind o' k').
Proof. intros H K. destruct o as [a|p|], o' as [b|p'|]; cbn in H; try contradiction; cbn [bind]; [apply K; auto|exact H|exact I]. Qed.
Lemma so_eq {A} (o : outcome A) : same_outcome eq o o.
Proof. destruct o; reflexivity. Qed.
Lemma so_same {A C D} (S : C -> D -> Prop) (o : outcome A) k k' : (forall a, o = Ok a -> same_outcome S (k a) (k' a)) -> same_outcome S (bind o k) (bind o k').
Proof. intros K. eapply so_bind; [apply so_eq|]. intros a b E _ <-. apply K, E. Qed.
Lemma so_ok {A B} (R : A -> B -> Prop) a b : R a b -> same_outcome R (Ok a) (Ok b).
Proof. intros H. exact H. Qed.
Lemma so_panic {A B} (R : A -> B -> Prop) p : same_outcome R (Panic p) (Panic p).
Proof. reflexivity. Qed.
Lemma so_strengthen {A B} (R S : A -> B -> Prop) o o' : same_outcome R o o' -> (forall a b, o = Ok a -> o' = Ok b -> R a b -> S a b) -> same_outcome S o o'.
Proof. intros H K. destruct o, o'; cbn in *; try contradiction; auto. Qed.
Lemma uo_ok {A B} (R : A -> B -> Prop) a b : R a b -> unless_overflow R (Ok a) (Ok b).
Proof. intros H. right. right. exact H. Qed.
Lemma uo_panic {A B} (R : A -> B -> Prop) p : unless_overflow R (Panic p) (Panic p).
Proof. right. right. reflexivity. Qed.
Lemma uo_diverge {A B} (R : A -> B -> Prop) : unless_overflow R Diverge Diverge.
Proof. right. right. exact I. Qed.

(** What reading does to a pool. *)
Inductive op := Find (s : str) (a : option annotation) | Rec (c : comm) (w : datetime) (x : amount).
Definition act (p : pool) (o : op) : outcome pool :=
  match o with Find s a => Ok (fst (pool_find_or_create p s a)) | Rec c w x => pool_add_price p c w x end.
Definition op_ok (o : op) : Prop := match o with Find _ a => wf_annotation a | Rec _ w x => valid_dt w /\ wf_amt x end.
Lemma fold_snoc {A S} (f : S -> A -> outcome S) l x s : fold_outcome f (l ++ [x]) s = let* s' := fold_outcome f l s in f s' x.
Proof. revert s. induction l as [|a l IH]; intros s; cbn [fold_outcome app bind]; [destruct (f s x); reflexivity|]. destruct (f s a); cbn [bind]; [apply IH|reflexivity|reflexivity]. Qed.
Lemma acts_wf ops : Forall op_ok ops -> forall p p', wf_pool p -> fold_outcome act ops p = Ok p' -> wf_pool p' /\ pool_extends p p'.
Proof.
  induction 1 as [|o ops V _ IH]; intros p p' W H; cbn [fold_outcome] in H.
  - injection H as <-. split; [exact W|apply extends_refl].
  - inv_bind H. assert (X : wf_pool v /\ pool_extends p v).
    { destruct o as [s a|c w x]; cbn [act op_ok] in *.
      - injection EQ as <-. split; [apply wf_foc; assumption|apply foc_extends].
      - destruct V as [V1 V2]. split; [eapply wf_add_price; eassumption|eapply add_price_extends; eassumption]. }
    destruct X as [W1 X1]. destruct (IH _ _ W1 H) as [W2 X2]. split; [exact W2|eapply extends_trans; eassumption].
Qed.

Section Two.
Variables P0 Q0 : pool.
Hypotheses (WP : wf_pool P0) (WQ : wf_pool Q0).
Definition both (p q : pool) : Prop := exists ops, Forall op_ok ops /\ fold_outcome act ops P0 = Ok p /\ fold_outcome act ops Q0 = Ok q.
Lemma both_wf p q : both p q -> wf_pool p /\ wf_pool q.
Proof. intros (ops & V & H1 & H2). split; [exact (proj1 (acts_wf _ V _ _ WP H1))|exact (proj1 (acts_wf _ V _ _ WQ H2))]. Qed.
Lemma both_op p q o p' q' : both p q -> op_ok o -> act p o = Ok p' -> act q o = Ok q' -> both p' q'.
Proof.
  intros (ops & V & H1 & H2) Vo E1 E2. exists (ops ++ [o]). split; [apply Forall_app; auto|].
  rewrite !fold_snoc, H1, H2. auto.
Qed.
Lemma both_find p q s a : both p q -> wf_annotation a -> both (fst (pool_find_or_create p s a)) (fst (pool_find_or_create q s a)).
Proof. intros B V. eapply (both_op _ _ (Find s a)); [exact B|exact V|reflexivity|reflexivity]. Qed.

Lemma deref_known p s : (exists d, pool_find p s = Some d) -> exists c, deref p (Some s) = Ok c /\ pool_find p s = Some c.
Proof. intros [d H]. exists d. unfold deref. rewrite H. auto. Qed.
Lemma index_known p s c : wf_pool p -> pool_find p s = Some c -> pool_get_by_index p (c_index c) = Ok c.
Proof. intros W H. destruct (wp_comm _ W _ _ H) as [_ N]. unfold pool_get_by_index, get_commodity. rewrite N. cbn [unwrap bind]. unfold deref. rewrite H. reflexivity. Qed.
Lemma mul_or a b : (exists c, amt_mul a b = Ok c) \/ amt_mul a b = Panic PArith.
Proof. unfold amt_mul. destruct (d_mul_no_other (a_q a) (a_q b)) as [[r ->]| ->]; cbn [bind]; eauto. Qed.
Lemma exchange_both p q a c w : both p q -> known p (a_c a) -> known q (a_c a) ->
  unless_overflow (fun x y => bd_amount (fst x) = a /\ bd_amount (fst y) = a /\ snd x = snd y) (exchange p a c false w) (exchange q a c false w).
Proof.
  intros B Kp Kq. destruct (both_wf _ _ B) as [Wp Wq]. unfold exchange. destruct (a_c a) as [s|] eqn:Ea; [|apply uo_panic]. cbn [unwrap bind].
  destruct (deref_known p s (Kp s eq_refl)) as (cp & -> & Fp). destruct (deref_known q s (Kq s eq_refl)) as (cq & -> & Fq). cbn [bind].
  rewrite (index_known _ _ _ Wp Fp), (index_known _ _ _ Wq Fq). cbn [bind].
  eapply uo_same. intros u _. cbn [bind].
  assert (G : forall A (o : option annotation), exists r, (match o with Some a0 => match an_price a0 with Some ap => amt_mul ap a | None => Ok amt_null end | None => Ok c end) = r /\ (r = Panic PArith \/ exists b, r = Ok b) /\ A = A :> nat).
  { intros n o. eexists. split; [reflexivity|]. split; [|reflexivity]. destruct o as [x|]; [|eauto]. destruct (an_price x) as [ap|]; [|eauto]. destruct (mul_or ap a) as [H|H]; auto. }
  destruct (G 0 (lookup (c_symbol cp) (p_ann p))) as (r1 & -> & [->|[b1 ->]] & _); [left; reflexivity|].
  destruct (G 0 (lookup (c_symbol cq) (p_ann q))) as (r2 & -> & [->|[b2 ->]] & _); [right; left; reflexivity|].
  cbn [bind]. apply uo_ok. cbn. auto.
Qed.
Lemma add_price_both p q c w x : both p q -> valid_dt w -> wf_amt x -> known p c -> known q c -> known p (a_c x) -> known q (a_c x) ->
  same_outcome (fun p' q' => both p' q' /\ pool_extends p p' /\ pool_extends q q') (pool_add_price p c w x) (pool_add_price q c w x).
Proof.
  intros B Vw Vx Kp Kq Xp Xq.
  assert (G : (exists p' q', pool_add_price p c w x = Ok p' /\ pool_add_price q c w x = Ok q') \/ exists e, pool_add_price p c w x = Panic e /\ pool_add_price q c w x = Panic e).
  { unfold pool_add_price. destruct c as [s|]; [|right; exists PNull; auto].
    destruct (deref_known p s (Kp s eq_refl)) as (cp & -> & Fp). destruct (deref_known q s (Kq s eq_refl)) as (cq & -> & Fq). cbn [bind].
    destruct (both_wf _ _ B) as [Wp Wq]. rewrite (proj1 (wp_comm _ Wp _ _ Fp)), (proj1 (wp_comm _ Wq _ _ Fq)).
    destruct (comm_eqb (Some s) (a_c x)); [right; eauto|]. destruct (a_c x) as [t|]; [|right; eauto].
    destruct (deref_known p t (Xp t eq_refl)) as (dp & -> & _). destruct (deref_known q t (Xq t eq_refl)) as (dq & -> & _). cbn [bind]. left. eauto. }
  destruct G as [(p' & q' & E1 & E2)|(e & -> & ->)]; [|apply so_panic]. rewrite E1, E2. apply so_ok.
  split; [eapply (both_op _ _ (Rec c w x)); [exact B|split; assumption|exact E1|exact E2]|]. split; eapply add_price_extends; eassumption.
Qed.

Lemma price_loop_both d posts : (forall x, d = Some x -> valid_date x) -> Forall wf_post posts -> forall p q, both p q ->
  Forall (post_known p) posts -> Forall (post_known q) posts ->
  unless_overflow (fun x y => both (fst x) (fst y) /\ snd x = snd y) (price_loop d p posts) (price_loop d q posts).
Proof.
  intros Vd. induction 1 as [|po posts [Wa Wc] Wps IH]; intros p q B Kp Kq; cbn [price_loop]; [apply uo_ok; auto|].
  inversion Kp as [|? ? [Ka Kc] Kp']; subst. inversion Kq as [|? ? [La Lc] Kq']; subst.
  eapply (uo_bind (fun x y => both (fst x) (fst y) /\ snd x = snd y /\ pool_extends p (fst x) /\ pool_extends q (fst y))).
  - destruct (po_cost po) as [c|] eqn:C; [|apply uo_ok; repeat split; cbn; auto; apply extends_refl].
    destruct (po_amount po) as [a|] eqn:A; [|apply uo_panic]. destruct (comm_eqb (a_c a) (a_c c)); [apply uo_panic|].
    destruct d as [d|]; [|apply uo_panic]. cbn [unwrap bind].
    eapply uo_bind; [apply exchange_both; [exact B|apply Ka; reflexivity|apply La; reflexivity]|].
    intros [b1 n1] [b2 n2] E1 E2 (H1 & H2 & H3). cbn [fst snd] in *. subst n2.
    destruct (both_wf _ _ B) as [Wp Wq]. destruct (exchange_unit _ _ _ _ _ _ _ Wp (Wa a eq_refl) (Wc c eq_refl) E1) as (u & _ & _ & Hs).
    destruct n1 as [pr|].
    + destruct (Hs pr eq_refl) as (F1 & F2 & F3 & _ & F5). unfold pool_add_price_struct. rewrite F1, F2.
      assert (Vm : valid_dt (mkDT d midnight)) by (split; [apply Vd; reflexivity|apply midnight_valid]).
      eapply uo_bind; [apply so_uo; eapply (add_price_both p q); [exact B|exact Vm|exact F5|apply Ka; reflexivity|apply La; reflexivity| |]|].
      * rewrite F3. apply Kc. reflexivity.
      * rewrite F3. apply Lc. reflexivity.
      * intros p' q' _ _ (B' & X1 & X2). apply uo_ok. cbn [fst snd]. rewrite H1, H2. auto.
    + cbn [bind]. apply uo_ok. cbn [fst snd]. rewrite H1, H2. repeat split; auto; apply extends_refl.
  - intros [p1 po1] [q1 po2] _ _ (B1 & E0 & X1 & X2). cbn [fst snd] in *. subst po2.
    eapply uo_bind; [apply IH; [exact B1| |]|].
    + eapply Forall_impl; [|exact Kp']. intros y. apply post_known_extends, X1.
    + eapply Forall_impl; [|exact Kq']. intros y. apply post_known_extends, X2.
    + intros [p2 l1] [q2 l2] _ _ [B2 E]. cbn [fst snd] in *. subst. apply uo_ok. auto.
Qed.

Lemma infer_known pool posts bal posts1 bal1 : Forall wf_post posts -> Forall (post_known pool) posts ->
  fold_outcome bal_add (worths posts) bal_new = Ok bal -> infer_costs posts bal = Ok (posts1, bal1) ->
  Forall wf_post posts1 /\ Forall (post_known pool) posts1.
Proof.
  intros Wp Kp Hb I. destruct (fold_bal_wf _ _ _ (Forall_nil _) (worths_wf _ Wp) Hb) as [Wb Cb]. cbn [bal_new map app] in Cb.
  assert (Kb : forall x, In x bal -> known pool (a_c x)) by (intros x Hx; eapply worths_comm; eauto).
  apply infer_costs_inv in I as [(-> & _)|(x & y & x0 & y0 & top & r & -> & _ & _ & _ & Hxy & D & I)]; [auto|].
  assert (Kxy : (known pool (a_c x) /\ known pool (a_c y)) /\ wf_amt x /\ wf_amt y).
  { inversion Wb as [|? ? W1 Wb']; subst. inversion Wb' as [|? ? W2 _]; subst.
    pose proof (Kb x0 (or_introl eq_refl)). pose proof (Kb y0 (or_intror (or_introl eq_refl))).
    destruct Hxy as [(-> & -> & _)|(-> & -> & _)]; auto. }
  destruct Kxy as [[Kx Ky] [Wx Wy]]. pose proof (amt_div_wf _ _ _ Wy Wx D) as [_ Cr].
  assert (Kr : known pool (a_c r)) by (rewrite Cr; destruct (a_c y); [exact Ky|exact Kx]).
  clear -I Wp Kp Kr. induction I as [|p p' l l' (a & A & H1 & H2) _ IH]; [auto|].
  inversion Wp as [|? ? [Wa Wc] Wp']; subst. inversion Kp as [|? ? [Ka Kc] Kp']; subst.
  destruct (IH Wp' Kp') as [G1 G2].
  destruct (comm_dec (a_c a) (a_c x)) as [E|E].
  - destruct (H2 E) as (k & M & ->). apply amt_mul_wf in M as [Wk Ck].
    split; constructor; auto; split; cbn; intros z Hz.
    + apply Wa, Hz.
    + injection Hz as <-. exact Wk.
    + apply Ka, Hz.
    + injection Hz as <-. rewrite Ck. cbn [amt_abs a_c]. destruct (a_c r) as [s|] eqn:Er; [exact Kr|]. exact (Ka a A).
  - rewrite (H1 E). split; constructor; auto; split; auto.
Qed.
Lemma finalize_posts_both d posts p q : (forall x, d = Some x -> valid_date x) -> Forall wf_post posts -> both p q ->
  Forall (post_known p) posts -> Forall (post_known q) posts ->
  unless_overflow (fun x y => both (fst x) (fst y) /\ snd x = snd y) (finalize_posts d p posts) (finalize_posts d q posts).
Proof.
  intros Vd Wp B Kp Kq. unfold finalize_posts. eapply uo_same. intros [bal np] Es. destruct (length posts =? 1); [apply uo_panic|].
  apply sum_posts_inv in Es as [Hb _].
  eapply uo_same. intros [posts1 bal1] Ei.
  assert (K1 : Forall wf_post posts1 /\ Forall (post_known p) posts1 /\ Forall (post_known q) posts1).
  { destruct np; [injection Ei as <- _; auto|]. destruct (infer_known p _ _ _ _ Wp Kp Hb Ei) as [A1 A2]. destruct (infer_known q _ _ _ _ Wp Kq Hb Ei) as [_ A3]. auto. }
  destruct K1 as (W1 & K1 & L1).
  eapply uo_bind; [apply price_loop_both; eassumption|]. intros [p1 l1] [q1 l2] _ _ [B1 E]. cbn [fst snd] in *. subst l2.
  destruct np as [i|]; [|apply uo_ok; auto]. destruct bal1 as [|b [|]]; try apply uo_panic. apply uo_ok. auto.
Qed.

Lemma no_ann : wf_annotation None.
Proof. intros x pr. discriminate. Qed.
Lemma parts_both p q s c : both p q ->
  both (fst (parse_amount_parts p s c)) (fst (parse_amount_parts q s c)) /\ snd (parse_amount_parts p s c) = snd (parse_amount_parts q s c).
Proof.
  intros B. pose proof (both_find _ _ c None B no_ann) as G. pose proof (foc_comm p c None) as C1. pose proof (foc_comm q c None) as C2.
  unfold parse_amount_parts. destruct (pool_find_or_create p c None) as [p1 c1], (pool_find_or_create q c None) as [q1 c2]. cbn [fst snd] in *. subst. auto.
Qed.
Lemma annotation_both p q d n c : both p q ->
  same_outcome (fun x y => both (fst x) (fst y) /\ snd x = snd y /\ wf_annotation (Some (snd x))) (annotation_parse p d n c) (annotation_parse q d n c).
Proof.
  intros B. pose proof (both_find _ _ c None B no_ann) as G. pose proof (foc_comm p c None) as C1. pose proof (foc_comm q c None) as C2.
  unfold annotation_parse. destruct (pool_find_or_create p c None) as [p1 c1], (pool_find_or_create q c None) as [q1 c2]. cbn [fst snd] in *. subst.
  eapply so_same. intros dd _. apply so_ok. cbn [fst snd]. split; [exact G|]. split; [reflexivity|].
  intros x pr [= <-] H. cbn in H. destruct (d_from_str n) as [v|] eqn:Q; [|discriminate]. injection H as <-. apply d_from_str_sound in Q. unfold wf_amt; cbn. tauto.
Qed.
Lemma cost_both p q t amt : both p q -> same_outcome (fun x y => both (fst x) (fst y) /\ snd x = snd y) (parse_cost p t amt) (parse_cost q t amt).
Proof.
  intros B. unfold parse_cost. destruct amt as [a|]; [|apply so_ok; auto]. destruct (is_empty (t_cost_quantity t)); [apply so_ok; auto|].
  destruct (parts_both p q (t_cost_quantity t) (t_cost_symbol t) B) as [G E].
  destruct (parse_amount_parts p _ _) as [p1 c1], (parse_amount_parts q _ _) as [q1 c2]. cbn [fst snd] in *. subst c2.
  destruct c1 as [c|]; [|apply so_ok; auto]. destruct (t_is_per_unit t); [|apply so_ok; auto]. eapply so_same. intros c' _. apply so_ok. auto.
Qed.
Lemma directive_both p q line : both p q -> same_outcome both (parse_price_directive p line) (parse_price_directive q line).
Proof.
  intros B. unfold parse_price_directive. eapply so_same. intros [[[[td tt] tc] tq] tp] _. eapply so_same. intros d Ed. apply unwrap_ok in Ed. eapply so_same. intros t Et.
  pose proof (both_find _ _ tc None B no_ann) as G. pose proof (foc_comm p tc None) as C1. pose proof (foc_comm q tc None) as C2.
  pose proof (foc_is_known p tc None) as K1. pose proof (foc_is_known q tc None) as K2.
  destruct (pool_find_or_create p tc None) as [p1 c1], (pool_find_or_create q tc None) as [q1 c2]. cbn [fst snd] in *. subst.
  eapply so_same. intros v Ev. apply unwrap_ok in Ev.
  pose proof (both_find _ _ tp None G no_ann) as G'. pose proof (foc_comm p1 tp None) as C1. pose proof (foc_comm q1 tp None) as C2.
  pose proof (foc_is_known p1 tp None) as L1. pose proof (foc_is_known q1 tp None) as L2.
  pose proof (foc_extends p1 tp None) as X1. pose proof (foc_extends q1 tp None) as X2.
  destruct (pool_find_or_create p1 tp None) as [p2 c1], (pool_find_or_create q1 tp None) as [q2 c2]. cbn [fst snd] in *. subst.
  assert (Vd : valid_dt (mkDT d t)).
  { split; [eapply parse_date_valid; eauto|]. cbn. destruct (is_empty tt); [injection Et as <-; apply midnight_valid|]. eapply parse_time_valid, unwrap_ok, Et. }
  assert (Wx : wf_amt (mkAmt v (comm_of tp))) by (unfold wf_amt; cbn; apply d_from_str_sound in Ev; tauto).
  assert (H := add_price_both _ _ (comm_of tc) _ _ G' Vd Wx (known_extends _ _ _ X1 K1) (known_extends _ _ _ X2 K2) L1 L2).
  destruct (pool_add_price p2 _ _ _), (pool_add_price q2 _ _ _); cbn in *; tauto.
Qed.

(** The journals. *)
Variables X1 X2 : list xact.
Variables M1 M2 : account.
Definition shift (n : nat) (m : mode) : mode := match m with Top => Top | InXact k => InXact (n + k) end.
Definition below (names : list path) (q : path) : Prop := exists a, In a names /\ prefix_of q a = true.
Record related (m : mode) (j1 j2 : journal) (N : list xact) (names : list path) : Prop := {
  r_1 : j_xacts j1 = X1 ++ N;
  r_2 : j_xacts j2 = X2 ++ N;
  r_mode : match m with Top => True | InXact k => length N = S k end;
  r_pool : both (j_pool j1) (j_pool j2);
  r_inv1 : inv (shift (length X1) m) j1;
  r_inv2 : inv (shift (length X2) m) j2;
  r_tree1 : forall q, exists_at (j_master j1) q <-> exists_at M1 q \/ below names q;
  r_tree2 : forall q, exists_at (j_master j2) q <-> exists_at M2 q \/ below names q }.
Definition rel (m : mode) (j1 j2 : journal) : Prop := exists N names, related m j1 j2 N names.
Definition rel_next (n1 n2 : next) : Prop :=
  match n1, n2 with
  | Continue m1 j1, Continue m2 j2 => exists m, m1 = shift (length X1) m /\ m2 = shift (length X2) m /\ rel m j1 j2
  | Stop j1, Stop j2 => rel Top j1 j2
  | _, _ => False
  end.

Lemma current_last m j X N k : inv (shift (length X) m) j -> m = InXact k -> j_xacts j = X ++ N -> length N = S k ->
  exists N' x d, N = N' ++ [x] /\ length N' = k /\ x_date x = Some d /\ valid_date d /\ Forall wf_post (x_posts x) /\ Forall (post_known (j_pool j)) (x_posts x).
Proof.
  intros I -> E L. destruct I as [_ _ _ Q (xs & (Lx & x & d & Ej & Xd & Vd) & _)]. destruct (@exists_last _ N) as (N' & x' & ->); [intros ->; discriminate|].
  rewrite app_length in L. cbn in L. rewrite E, app_assoc in Ej. apply app_inj_tail in Ej as [Ej ->]. exists N', x, d. split; [reflexivity|]. split; [lia|]. split; [exact Xd|]. split; [exact Vd|].
  unfold all_posts in Q. rewrite E, !flat_map_app in Q. apply Forall_app in Q as [_ Q]. apply Forall_app in Q as [_ Q]. cbn in Q. rewrite app_nil_r in Q.
  split; (eapply Forall_impl; [|exact Q]); intros ? [? ?]; assumption.
Qed.
Lemma nth_mid {A} X N (x : A) : nth_error (X ++ N ++ [x]) (length X + length N) = Some x.
Proof. rewrite app_assoc, nth_error_app2 by (rewrite app_length; lia). rewrite app_length, Nat.sub_diag. reflexivity. Qed.
Lemma update_mid {A} f X N (x : A) : update_nth (length X + length N) f (X ++ N ++ [x]) = X ++ N ++ [f x].
Proof. rewrite app_assoc, <- app_length, (update_nth_mid f (X ++ N) x []), <- app_assoc. reflexivity. Qed.
Lemma uo_strengthen {A B} (R S : A -> B -> Prop) o o' : unless_overflow R o o' -> (forall a b, o = Ok a -> o' = Ok b -> R a b -> S a b) -> unless_overflow S o o'.
Proof. intros [H|[H|H]] K; [left; exact H|right; left; exact H|]. right. right. destruct o, o'; cbn in *; try contradiction; auto. Qed.

Lemma finalize_rel k j1 j2 : rel (InXact k) j1 j2 ->
  unless_overflow (rel Top) (finalize j1 (length X1 + k)) (finalize j2 (length X2 + k)).
Proof.
  intros (N & names & [E1 E2 L B I1 I2 T1 T2]).
  destruct (current_last _ _ _ _ _ I1 eq_refl E1 L) as (N' & x & d & -> & Ln & Xd & Vd & Wp & Kp).
  destruct (current_last _ _ _ _ _ I2 eq_refl E2 L) as (N2 & x2 & d2 & En & Ln2 & Xd2 & Vd2 & Wp2 & Kp2).
  apply app_inj_tail in En as [<- <-]. clear Ln2 Wp2 Xd2 Vd2 d2.
  eapply (uo_strengthen (fun a b => exists N, j_xacts a = X1 ++ N /\ j_xacts b = X2 ++ N /\ both (j_pool a) (j_pool b) /\ j_master a = j_master j1 /\ j_master b = j_master j2)).
  - unfold finalize. rewrite E1, E2, <- Ln, !nth_mid. eapply uo_bind.
    + eapply (finalize_posts_both (x_date x)); [|exact Wp|exact B|exact Kp|exact Kp2]. intros y Hy. rewrite Xd in Hy. injection Hy as <-. exact Vd.
    + intros [p1 l1] [p2 l2] _ _ [B' El]. cbn [fst snd] in *. subst l2. apply uo_ok. cbn [j_xacts j_pool j_master]. rewrite !update_mid. eauto 10.
  - intros a b Ha Hb (N & F1 & F2 & F3 & F4 & F5). exists N, names. constructor; auto.
    + eapply inv_final; [exact I1|exact Ha].
    + eapply inv_final; [exact I2|exact Hb].
    + rewrite F4. exact T1.
    + rewrite F5. exact T2.
Qed.

Lemma registered m m1 a names M r m2 : wf_tree m1 ->
  (forall q, posts_at m1 q = match posts_at m q with Some l => Some l | None => if prefix_of q a then Some [] else None end) ->
  exists_at m1 a -> push_post m1 a r = Ok m2 -> (forall q, exists_at m q <-> exists_at M q \/ below names q) ->
  forall q, exists_at m2 q <-> exists_at M q \/ below (a :: names) q.
Proof.
  intros W P X H T q. destruct (push_post_spec m1 a r W X) as (m2' & H' & _ & _ & P2). rewrite H in H'. injection H' as <-.
  assert (G : exists_at m2 q <-> exists_at m1 q).
  { rewrite !posts_at_exists, P2. destruct (list_eq_dec str_eq_dec q a); [|reflexivity]. destruct (posts_at m1 q); cbn; split; congruence. }
  assert (G1 : exists_at m1 q <-> exists_at m q \/ prefix_of q a = true).
  { rewrite !posts_at_exists, P. destruct (posts_at m q); [split; [left|]; congruence|]. destruct (prefix_of q a); split; try congruence; auto. intros [F|F]; congruence. }
  rewrite G, G1, T. unfold below. split.
  - intros [[F|(b & Hb & F)]|F]; [left; exact F|right; exists b; split; [right; exact Hb|exact F]|right; exists a; split; [left; reflexivity|exact F]].
  - intros [F|(b & [<-|Hb] & F)]; [left; left; exact F|right; exact F|left; right; exists b; auto].
Qed.
Lemma post_rel k j1 j2 s : rel (InXact k) j1 j2 ->
  same_outcome (rel (InXact k)) (parse_post j1 (length X1 + k) s) (parse_post j2 (length X2 + k) s).
Proof.
  intros (N & names & [E1 E2 L B I1 I2 T1 T2]).
  destruct (current_last _ _ _ _ _ I1 eq_refl E1 L) as (N' & x & d & -> & Ln & _). pose proof (i_tree _ _ I1) as W1. pose proof (i_tree _ _ I2) as W2.
  eapply (so_strengthen (fun a b => exists N names, j_xacts a = X1 ++ N /\ j_xacts b = X2 ++ N /\ length N = S k /\ both (j_pool a) (j_pool b)
    /\ (forall q, exists_at (j_master a) q <-> exists_at M1 q \/ below names q) /\ (forall q, exists_at (j_master b) q <-> exists_at M2 q \/ below names q))).
  - unfold parse_post. eapply so_same. intros t _.
    eapply (so_bind (fun a b => snd a = components (t_account t) /\ snd b = snd a /\ register_account (j_master j1) (t_account t) = Ok a /\ register_account (j_master j2) (t_account t) = Ok b)).
    { destruct (t_account t) as [|c name] eqn:En; [cbn [register_account]; apply so_panic|]. assert (Nn : c :: name <> []) by discriminate.
      destruct (register_spec _ _ W1 Nn) as (m1 & R1 & _). destruct (register_spec _ _ W2 Nn) as (m2 & R2 & _). rewrite R1, R2. apply so_ok. cbn. auto. }
    intros [m1 a1] [m2 a2] _ _ (Ea & Eb & R1 & R2). cbn [fst snd] in *. rewrite Ea in *. subst a2. clear Ea a1.
    assert (Y1 : exists_at m1 (components (t_account t))) by (apply (register_exists _ _ _ _ _ W1 R1); right; apply prefix_of_refl).
    assert (Y2 : exists_at m2 (components (t_account t))) by (apply (register_exists _ _ _ _ _ W2 R2); right; apply prefix_of_refl).
    destruct (register_ok _ _ _ _ W1 R1) as (_ & _ & V1 & _ & P1 & _). destruct (register_ok _ _ _ _ W2 R2) as (_ & _ & V2 & _ & P2 & _).
    destruct (parts_both _ _ (t_quantity t) (t_symbol t) B) as [B1 Am]. destruct (parse_amount_parts (j_pool j1) _ _) as [p1 amt], (parse_amount_parts (j_pool j2) _ _) as [q1 amt']. cbn [fst snd] in *. subst amt'.
    eapply so_bind; [apply annotation_both, B1|]. intros [p2 ann] [q2 ann'] _ _ (B2 & An & Wa). cbn [fst snd] in *. subst ann'.
    pose proof (both_find _ _ (t_symbol t) (Some ann) B2 Wa) as B3. destruct (pool_find_or_create p2 (t_symbol t) (Some ann)) as [p3 c3], (pool_find_or_create q2 (t_symbol t) (Some ann)) as [q3 c3']. cbn [fst] in B3.
    eapply so_bind; [apply cost_both, B3|]. intros [p4 cost] [q4 cost'] _ _ [B4 Ec]. cbn [fst snd] in *. subst cost'.
    rewrite E1, E2, <- Ln, !nth_mid.
    destruct (push_post_spec m1 (components (t_account t)) (length X1 + length N', length (x_posts x)) V1 Y1) as (m1' & H1 & _).
    destruct (push_post_spec m2 (components (t_account t)) (length X2 + length N', length (x_posts x)) V2 Y2) as (m2' & H2 & _).
    rewrite H1, H2. cbn [bind]. apply so_ok. cbn [j_xacts j_pool j_master]. unfold add_post. rewrite !update_mid.
    eexists; exists (components (t_account t) :: names). split; [reflexivity|]. split; [reflexivity|]. split; [rewrite app_length; cbn; lia|]. split; [exact B4|].
    split; [exact (registered _ _ _ _ _ _ _ V1 P1 Y1 H1 T1)|exact (registered _ _ _ _ _ _ _ V2 P2 Y2 H2 T2)].
  - intros a b Ha Hb (N & nm & F1 & F2 & F3 & F4 & F5 & F6). exists N, nm. constructor; auto.
    + eapply inv_post; [exact I1|exact Ha].
    + eapply inv_post; [exact I2|exact Hb].
Qed.
Lemma note_rel k j1 j2 s : rel (InXact k) j1 j2 ->
  same_outcome (rel (InXact k)) (parse_trailing_note j1 (length X1 + k) s) (parse_trailing_note j2 (length X2 + k) s).
Proof.
  intros (N & names & [E1 E2 L B I1 I2 T1 T2]).
  destruct (current_last _ _ _ _ _ I1 eq_refl E1 L) as (N' & x & d & -> & Ln & _).
  eapply (so_strengthen (fun a b => exists N, j_xacts a = X1 ++ N /\ j_xacts b = X2 ++ N /\ length N = S k /\ j_pool a = j_pool j1 /\ j_pool b = j_pool j2 /\ j_master a = j_master j1 /\ j_master b = j_master j2)).
  - unfold parse_trailing_note. destruct (is_empty _); apply so_ok; [exists (N' ++ [x]); auto 10|]. cbn [set_xacts j_xacts j_pool j_master].
    rewrite E1, E2, <- Ln, !update_mid. eexists. split; [reflexivity|]. split; [reflexivity|]. split; [rewrite app_length; cbn; lia|auto].
  - intros a b Ha Hb (N & F1 & F2 & F3 & F4 & F5 & F6 & F7). exists N, names. constructor; auto.
    + rewrite F4, F5. exact B.
    + eapply inv_note; [exact I1|exact Ha].
    + eapply inv_note; [exact I2|exact Hb].
    + rewrite F6. exact T1.
    + rewrite F7. exact T2.
Qed.
Lemma price_rel j1 j2 l : rel Top j1 j2 ->
  same_outcome (rel Top) (let* p := parse_price_directive (j_pool j1) l in Ok (set_pool j1 p)) (let* p := parse_price_directive (j_pool j2) l in Ok (set_pool j2 p)).
Proof.
  intros (N & names & [E1 E2 L B I1 I2 T1 T2]). eapply so_bind; [apply directive_both, B|]. intros p q Hp Hq B'. apply so_ok. exists N, names.
  constructor; auto; [exact (inv_price _ _ _ I1 Hp)|exact (inv_price _ _ _ I2 Hq)].
Qed.
Lemma create_rel j1 j2 c r : is_digit c = true -> rel Top j1 j2 ->
  same_outcome rel_next (let* j := create_xact j1 (c :: r) in Ok (Continue (InXact (length (j_xacts j1))) j)) (let* j := create_xact j2 (c :: r) in Ok (Continue (InXact (length (j_xacts j2))) j)).
Proof.
  intros D (N & names & [E1 E2 L B I1 I2 T1 T2]).
  eapply (so_bind (fun a b => exists x, a = set_xacts j1 (j_xacts j1 ++ [x]) /\ b = set_xacts j2 (j_xacts j2 ++ [x]))).
  - unfold create_xact. eapply so_same. intros [[[td aux] payee] note] _. eapply so_same. intros x _. apply so_ok. eauto.
  - intros a b Ha Hb (x & Ea & Eb). apply so_ok. exists (InXact (length N)). cbn [shift]. rewrite E1, E2, !app_length. split; [reflexivity|]. split; [reflexivity|].
    exists (N ++ [x]), names. subst a b. constructor; cbn [set_xacts j_xacts j_pool j_master shift].
    + rewrite E1, app_assoc. reflexivity.
    + rewrite E2, app_assoc. reflexivity.
    + rewrite app_length; cbn; lia.
    + exact B.
    + rewrite <- app_length, <- E1. eapply inv_create; eassumption.
    + rewrite <- app_length, <- E2. eapply inv_create; eassumption.
    + exact T1.
    + exact T2.
Qed.

Lemma continue_rel m o o' : unless_overflow (rel m) o o' ->
  unless_overflow rel_next (let* j := o in Ok (Continue (shift (length X1) m) j)) (let* j := o' in Ok (Continue (shift (length X2) m) j)).
Proof. intros H. eapply uo_bind; [exact H|]. intros a b _ _ R. apply uo_ok. exists m. auto. Qed.
Definition inc_rel (inc : str -> journal -> outcome journal) : Prop :=
  forall arg j1 j2, rel Top j1 j2 -> unless_overflow (rel Top) (inc arg j1) (inc arg j2).
Lemma general_rel inc j1 j2 l : inc_rel inc -> rel Top j1 j2 -> unless_overflow (rel Top) (general_directive inc j1 l) (general_directive inc j2 l).
Proof.
  intros I J. unfold general_directive. destruct (take_word l) as [w r]. destruct w as [|c w0]; [apply uo_panic|].
  destruct (N.eq_dec c 105) as [->|Nc].
  - cbv iota. destruct (str_eqb (105%N :: w0) (lit "include")).
    + destruct (fst (take_word r)); [apply uo_panic|]. apply I, J.
    + destruct (str_eqb (105%N :: w0) (lit "import")); [apply uo_panic|]. apply so_uo, price_rel, J.
  - destruct (N.eq_dec c 97) as [->|Na]; [apply uo_panic|].
    destruct c as [|c]; [apply uo_panic|]. do 7 (destruct c as [c|c|]; try apply uo_panic; try (exfalso; congruence)).
Qed.
Lemma step_rel inc m j1 j2 l : inc_rel inc -> rel m j1 j2 -> unless_overflow rel_next (step inc (shift (length X1) m) j1 l) (step inc (shift (length X2) m) j2 l).
Proof.
  intros HI J. assert (St : rel Top j1 j2 -> rel_next (Continue Top j1) (Continue Top j2)) by (intros H; exists Top; auto).
  destruct m as [|k], l as [l|]; cbn [step shift].
  - unfold top_line. destruct (str_eqb l [13%N; 10%N] || str_eqb l [10%N]); [apply uo_ok, St, J|]. destruct l as [|c l]; [apply uo_panic|].
    destruct (_ || _); [apply uo_ok, St, J|]. destruct (c =? 45)%N; [apply uo_ok, St, J|].
    destruct (is_digit c) eqn:D; [apply so_uo, create_rel; assumption|]. destruct (_ || _); [apply uo_panic|].
    apply (continue_rel Top), general_rel; assumption.
  - apply uo_ok. exact J.
  - pose proof (continue_rel Top _ _ (finalize_rel k j1 j2 J)) as Fi. cbn [shift] in Fi.
    assert (Po : forall s, unless_overflow rel_next (let* j := parse_post j1 (length X1 + k) s in Ok (Continue (InXact (length X1 + k)) j)) (let* j := parse_post j2 (length X2 + k) s in Ok (Continue (InXact (length X2 + k)) j)))
      by (intros s; apply (continue_rel (InXact k)), so_uo, post_rel, J).
    assert (No : forall s, unless_overflow rel_next (let* j := parse_trailing_note j1 (length X1 + k) s in Ok (Continue (InXact (length X1 + k)) j)) (let* j := parse_trailing_note j2 (length X2 + k) s in Ok (Continue (InXact (length X2 + k)) j)))
      by (intros s; apply (continue_rel (InXact k)), so_uo, note_rel, J).
    unfold xact_line. destruct l as [|c l]; [apply uo_panic|]. destruct (N.eq_dec c 32) as [->|N32].
    + destruct (trim_start (32%N :: l)) as [|e r]; [exact Fi|]. destruct (N.eq_dec e 59) as [->|N59]; [apply No|].
      destruct e as [|e]; [apply Po|]. do 6 (destruct e as [e|e|]; try apply Po; try (exfalso; congruence)).
    + destruct (N.eq_dec c 13) as [->|N13]; [exact Fi|]. destruct (N.eq_dec c 10) as [->|N10]; [exact Fi|].
      destruct c as [|c]; [apply uo_panic|]. do 6 (destruct c as [c|c|]; try apply uo_panic; try (exfalso; congruence)).
  - apply (continue_rel Top), finalize_rel, J.
Qed.
Lemma parse_lines_rel inc l : inc_rel inc -> forall m j1 j2, rel m j1 j2 ->
  unless_overflow (rel Top) (parse_lines inc (shift (length X1) m) j1 l) (parse_lines inc (shift (length X2) m) j2 l).
Proof.
  intros In. induction l as [|a l IH]; intros m j1 j2 J; cbn [parse_lines].
  - destruct m; cbn [shift]; [apply uo_ok, J|apply finalize_rel, J].
  - eapply uo_bind; [apply step_rel; [exact In|exact J]|]. intros [m1 k1|k1] [m2 k2|k2] _ _ K; cbn in K; try contradiction; [|apply uo_ok, K].
    destruct K as (m' & -> & -> & K). apply IH, K.
Qed.
Lemma include_rel fs cwd : forall depth, inc_rel (include_file depth cwd fs).
Proof.
  induction depth as [|d IH]; intros arg j1 j2 J; cbn [include_file]; [apply uo_diverge|].
  eapply uo_same. intros [s|] _; [|apply uo_ok, J]. apply (parse_lines_rel _ s IH Top), J.
Qed.

(** When the first ends well and the lot prices agree, so does the second. *)
Definition compatible (p : pool) : Prop :=
  forall s x y, lookup s (p_ann p) = Some x -> lookup s (p_ann Q0) = Some y -> an_price y = None \/ an_price y = an_price x.
Hypothesis NP : p_ann P0 = [].
Definition gives (o : op) (s : str) : option annotation :=
  match o with Find t (Some a) => if str_eqb s t && negb (is_empty t) then Some a else None | _ => None end.
Fixpoint first_given (ops : list op) (s : str) : option annotation :=
  match ops with [] => None | o :: ops' => match gives o s with Some a => Some a | None => first_given ops' s end end.
Lemma act_ann p o p' s : wf_pool p -> act p o = Ok p' -> lookup s (p_ann p') = match lookup s (p_ann p) with Some a => Some a | None => gives o s end.
Proof.
  intros W H. destruct o as [t a|c w x]; cbn [act gives] in *.
  - injection H as <-. rewrite foc_cases. destruct t as [|k t]; cbn [is_empty negb fst].
    + destruct a; [rewrite andb_false_r|]; destruct (lookup s (p_ann p)); reflexivity.
    + rewrite andb_true_r. destruct (pool_find p (k :: t)) as [d|] eqn:F.
      * destruct a as [a|]; [|destruct (lookup s (p_ann p)); reflexivity]. destruct (lookup (k :: t) (p_ann p)) as [b|] eqn:L.
        -- destruct (str_eqb s (k :: t)) eqn:E; [apply str_eqb_eq in E; rewrite E, L; reflexivity|]. destruct (lookup s (p_ann p)); reflexivity.
        -- cbn [p_ann]. rewrite lookup_insert. destruct (str_eqb s (k :: t)) eqn:E; [apply str_eqb_eq in E; rewrite E, L; reflexivity|]. destruct (lookup s (p_ann p)); reflexivity.
      * assert (L : lookup (k :: t) (p_ann p) = None).
        { destruct (lookup (k :: t) (p_ann p)) as [b|] eqn:L; [|reflexivity]. destruct (wp_ann _ W _ _ L) as [[c C] _]. congruence. }
        unfold pool_create. destruct (add_commodity (p_hist p) (k :: t)) as [h i]. cbn [p_ann]. destruct a as [a|]; [|destruct (lookup s (p_ann p)); reflexivity].
        rewrite lookup_insert. destruct (str_eqb s (k :: t)) eqn:E; [apply str_eqb_eq in E; rewrite E, L; reflexivity|]. destruct (lookup s (p_ann p)); reflexivity.
  - apply add_price_inv in H as (s0 & t0 & cs & ct & _ & _ & _ & _ & _ & ->). cbn [p_ann]. destruct (lookup s (p_ann p)); reflexivity.
Qed.
Lemma acts_ann ops s : Forall op_ok ops -> forall p p', wf_pool p -> fold_outcome act ops p = Ok p' ->
  lookup s (p_ann p') = match lookup s (p_ann p) with Some a => Some a | None => first_given ops s end.
Proof.
  induction 1 as [|o ops V _ IH]; intros p p' W H; cbn [fold_outcome first_given] in *.
  - injection H as <-. destruct (lookup s (p_ann p)); reflexivity.
  - inv_bind H. assert (W1 : wf_pool v) by (refine (proj1 (acts_wf [o] _ p v W _)); [auto|cbn; rewrite EQ; reflexivity]).
    rewrite (IH _ _ W1 H), (act_ann _ _ _ s W EQ). destruct (lookup s (p_ann p)); reflexivity.
Qed.
Lemma both_agree p q s x y : both p q -> compatible p -> lookup s (p_ann p) = Some x -> lookup s (p_ann q) = Some y -> an_price y = None \/ an_price y = an_price x.
Proof.
  intros (ops & V & H1 & H2) C Lp Lq. pose proof (acts_ann _ s V _ _ WP H1) as A1. pose proof (acts_ann _ s V _ _ WQ H2) as A2. rewrite NP in A1. cbn [lookup] in A1.
  rewrite Lq in A2. destruct (lookup s (p_ann Q0)) as [z|] eqn:L.
  - injection A2 as ->. eapply C; eassumption.
  - right. congruence.
Qed.
Lemma both_some p q s x : both p q -> lookup s (p_ann p) = Some x -> exists y, lookup s (p_ann q) = Some y.
Proof.
  intros (ops & V & H1 & H2) Lp. pose proof (acts_ann _ s V _ _ WP H1) as A1. pose proof (acts_ann _ s V _ _ WQ H2) as A2. rewrite NP in A1. cbn [lookup] in A1.
  destruct (lookup s (p_ann Q0)) as [z|]; [eauto|]. exists x. congruence.
Qed.
Definition annotated (p : pool) (po : post) : Prop := forall a s, po_amount po = Some a -> a_c a = Some s -> lookup s (p_ann p) <> None.
Lemma exchange_fw p q a c w r : both p q -> compatible p -> known p (a_c a) -> known q (a_c a) -> (forall s, a_c a = Some s -> lookup s (p_ann p) <> None) ->
  exchange p a c false w = Ok r -> exists r', exchange q a c false w = Ok r' /\ bd_amount (fst r) = a /\ bd_amount (fst r') = a /\ snd r = snd r'.
Proof.
  intros B C Kp Kq An H. destruct (exchange_both p q a c w B Kp Kq) as [E|[E|E]]; [congruence| |rewrite H in E; destruct (exchange q a c false w) as [r'|?|]; cbn in E; try contradiction; eauto].
  exfalso. destruct (both_wf _ _ B) as [Wp Wq]. unfold exchange in H, E. destruct (a_c a) as [s|] eqn:Ea; [|discriminate]. cbn [unwrap bind] in H, E.
  destruct (deref_known p s (Kp s eq_refl)) as (cp & Dp & Fp). destruct (deref_known q s (Kq s eq_refl)) as (cq & Dq & Fq). rewrite Dp in H. rewrite Dq in E. cbn [bind] in H, E.
  rewrite (index_known _ _ _ Wp Fp) in H. rewrite (index_known _ _ _ Wq Fq) in E. cbn [bind] in H, E.
  rewrite (proj1 (wp_comm _ Wp _ _ Fp)) in H. rewrite (proj1 (wp_comm _ Wq _ _ Fq)) in E.
  cbn [orb] in H, E. destruct (if amt_is_zero a then _ else _) as [u|?|]; [|discriminate H|discriminate H]. cbn [bind] in H, E.
  specialize (An s eq_refl). destruct (lookup s (p_ann p)) as [x|] eqn:Lp; [|congruence]. destruct (both_some _ _ _ _ B Lp) as [y Lq]. rewrite Lq in E.
  destruct (both_agree _ _ _ _ _ B C Lp Lq) as [N|N]; rewrite N in E; [discriminate E|].
  destruct (an_price x) as [ap|]; [|discriminate E]. destruct (amt_mul ap a); discriminate.
Qed.
Lemma rec_compatible p p' c w x : pool_add_price p c w x = Ok p' -> p_ann p' = p_ann p.
Proof. intros H. apply add_price_inv in H as (s0 & t0 & cs & ct & _ & _ & _ & _ & _ & ->). reflexivity. Qed.
Lemma price_loop_fw d posts : (forall x, d = Some x -> valid_date x) -> Forall wf_post posts -> forall p q r, both p q -> compatible p ->
  Forall (post_known p) posts -> Forall (post_known q) posts -> Forall (annotated p) posts ->
  price_loop d p posts = Ok r -> exists q', price_loop d q posts = Ok (q', snd r) /\ both (fst r) q'.
Proof.
  intros Vd. induction 1 as [|po posts [Wa Wc] Wps IH]; intros p q r B C Kp Kq An H; cbn [price_loop] in *; [injection H as <-; cbn; eauto|].
  inversion Kp as [|? ? [Ka Kc] Kp']; subst. inversion Kq as [|? ? [La Lc] Kq']; subst. inversion An as [|? ? An1 An']; subst.
  inv_bind H. destruct v as [p1 po1].
  assert (G : exists q1, match po_cost po with
        | Some cost => match po_amount po with
            | Some amt => if comm_eqb (a_c amt) (a_c cost) then Panic PExplicit
                else let* d := unwrap d in let* (bd, np) := exchange q amt cost false (mkDT d midnight) in
                  let* pool' := match np with Some pr => pool_add_price_struct q pr | None => Ok q end in Ok (pool', set_amount po (bd_amount bd))
            | None => Panic PExplicit end
        | None => Ok (q, po) end = Ok (q1, po1) /\ both p1 q1 /\ pool_extends p p1 /\ pool_extends q q1 /\ p_ann p1 = p_ann p).
  { destruct (po_cost po) as [c|] eqn:Ec; [|injection EQ as <- <-; exists q; repeat split; auto; apply extends_refl].
    destruct (po_amount po) as [a|] eqn:Ea; [|discriminate]. destruct (comm_eqb (a_c a) (a_c c)); [discriminate|].
    destruct d as [d|]; [|discriminate]. cbn [unwrap bind] in *. inv_bind EQ. destruct v as [bd np].
    destruct (exchange_fw _ _ _ _ _ _ B C (Ka a eq_refl) (La a eq_refl) (fun s Hs => An1 a s Ea Hs) EQ0) as ([bd' np'] & -> & H1 & H2 & H3). cbn [fst snd bind] in *. subst np'.
    destruct (both_wf _ _ B) as [Wp Wq]. destruct (exchange_unit _ _ _ _ _ _ _ Wp (Wa a eq_refl) (Wc c eq_refl) EQ0) as (u & _ & _ & Hs).
    destruct np as [pr|].
    + destruct (Hs pr eq_refl) as (F1 & F2 & F3 & _ & F5). unfold pool_add_price_struct in *. inv_bind EQ. injection EQ as <- <-. rewrite F1, F2 in *.
      assert (Vm : valid_dt (mkDT d midnight)) by (split; [apply Vd; reflexivity|apply midnight_valid]).
      assert (G := add_price_both p q (a_c a) (mkDT d midnight) (pr_price pr) B Vm F5 (Ka a eq_refl) (La a eq_refl)). rewrite F3 in G. specialize (G (Kc c eq_refl) (Lc c eq_refl)).
      rewrite EQ1 in G. destruct (pool_add_price q _ _ _) as [q1|?|]; cbn in G; try contradiction. destruct G as (G1 & G2 & G3). exists q1. cbn [bind]. rewrite H1, H2.
      split; [reflexivity|]. split; [exact G1|]. split; [exact G2|]. split; [exact G3|]. eapply rec_compatible, EQ1.
    + cbn [bind] in *. injection EQ as <- <-. exists q. rewrite H1, H2. repeat split; auto; apply extends_refl. }
  destruct G as (q1 & -> & B1 & Y1 & Y2 & A1). cbn [bind]. inv_bind H. destruct v as [p2 l2]. injection H as <-. cbn [fst snd].
  edestruct (IH p1 q1 (p2, l2) B1) as (q2 & -> & B2); [| | | |exact EQ0|].
  - intros s x y. rewrite A1. apply C.
  - eapply Forall_impl; [|exact Kp']. intros z. apply post_known_extends, Y1.
  - eapply Forall_impl; [|exact Kq']. intros z. apply post_known_extends, Y2.
  - eapply Forall_impl; [|exact An']. intros z Hz a s. rewrite A1. apply Hz.
  - cbn [bind fst snd]. eauto.
Qed.
Lemma infer_annotated p posts bal posts1 bal1 : infer_costs posts bal = Ok (posts1, bal1) -> Forall (annotated p) posts -> Forall (annotated p) posts1.
Proof.
  intros I. apply infer_costs_inv in I as [(-> & _)|(x & y & x0 & y0 & top & r & _ & _ & _ & _ & _ & _ & I)]; [auto|].
  induction I as [|po po' l l' (a & A & H1 & H2) _ IH]; intros An; [constructor|]. inversion An as [|? ? An1 An']; subst. constructor; [|auto].
  destruct (comm_dec (a_c a) (a_c x)) as [E|E]; [|rewrite (H1 E); exact An1]. destruct (H2 E) as (k & M & ->). exact An1.
Qed.
Lemma finalize_posts_fw d posts p q r : (forall x, d = Some x -> valid_date x) -> Forall wf_post posts -> both p q -> compatible p ->
  Forall (post_known p) posts -> Forall (post_known q) posts -> Forall (annotated p) posts ->
  finalize_posts d p posts = Ok r -> exists q', finalize_posts d q posts = Ok (q', snd r) /\ both (fst r) q'.
Proof.
  intros Vd Wp B C Kp Kq An H. unfold finalize_posts in *. inv_bind H. destruct v as [bal np]. pose proof EQ as Es. apply sum_posts_inv in Es as [Hb _]. rewrite EQ. cbn [bind]. destruct (length posts =? 1); [discriminate|].
  inv_bind H. destruct v as [posts1 bal1]. rewrite EQ0.
  assert (K1 : Forall wf_post posts1 /\ Forall (post_known p) posts1 /\ Forall (post_known q) posts1 /\ Forall (annotated p) posts1).
  { destruct np; [injection EQ0 as <- _; auto|]. destruct (infer_known p _ _ _ _ Wp Kp Hb EQ0) as [A1 A2]. destruct (infer_known q _ _ _ _ Wp Kq Hb EQ0) as [_ A3]. eauto using infer_annotated. }
  destruct K1 as (W1 & K1 & L1 & A1). cbn [bind]. inv_bind H. destruct v as [p1 l1].
  destruct (price_loop_fw d posts1 Vd W1 _ _ _ B C K1 L1 A1 EQ1) as (q1 & -> & B1). cbn [fst snd bind] in *.
  destruct np as [i|]; [|injection H as <-; eauto]. destruct bal1 as [|b [|]]; try discriminate. injection H as <-. eauto.
Qed.

(** Postings in the making are annotated, and annotations stay. *)
Definition annot (m : mode) (j : journal) : Prop :=
  match m with Top => True | InXact xi => forall x, nth_error (j_xacts j) xi = Some x -> Forall (annotated (j_pool j)) (x_posts x) end.
Definition kept (p0 : pool) (m : mode) (j : journal) : Prop := inv m j /\ annot m j /\ pool_keeps p0 (j_pool j).
Lemma annotated_keeps p p' po : pool_keeps p p' -> annotated p po -> annotated p' po.
Proof. intros (_ & K & _) An a s Ha Hs. specialize (An a s Ha Hs). destruct (lookup s (p_ann p)) as [y|] eqn:L; [|congruence]. rewrite (K _ _ L). discriminate. Qed.
Lemma kept_create p0 j c r j' : kept p0 Top j -> is_digit c = true -> create_xact j (c :: r) = Ok j' -> kept p0 (InXact (length (j_xacts j))) j'.
Proof.
  intros (I & _ & K) D H. split; [eapply inv_create; eassumption|]. apply create_xact_inv in H as (x & d & -> & X & _); [|exact D]. split; [|exact K].
  intros y Hy. cbn in Hy. rewrite nth_error_app2, Nat.sub_diag in Hy by lia. injection Hy as <-. rewrite X. constructor.
Qed.
Lemma cost_keeps p t a p' c : wf_pool p -> parse_cost p t a = Ok (p', c) -> pool_keeps p p'.
Proof.
  intros W H. unfold parse_cost in H. destruct a as [a|]; [|injection H as <- _; apply keeps_refl]. destruct (is_empty _); [injection H as <- _; apply keeps_refl|].
  unfold parse_amount_parts in H. pose proof (foc_keeps p (t_cost_symbol t) None W) as K. destruct (pool_find_or_create p (t_cost_symbol t) None) as [p1 c1]. cbn [fst] in K.
  destruct (option_map _ _) as [k|]; [|injection H as <- _; exact K]. destruct (t_is_per_unit t); [inv_bind H|]; injection H as <- _; exact K.
Qed.
Lemma kept_post p0 j xi s j' : kept p0 (InXact xi) j -> parse_post j xi s = Ok j' -> kept p0 (InXact xi) j'.
Proof.
  intros (I & An & K) H. pose proof (inv_post _ _ _ _ I H) as I'. split; [exact I'|].
  destruct (parse_post_inv _ _ _ _ (i_tree _ _ I) H) as (x & acct & amt & cost & m1 & Ex & E' & R & _).
  assert (Kj : pool_keeps (j_pool j) (j_pool j')) by (apply reachable_keeps; [apply reachable_wf, I|exact R]).
  split; [|eapply keeps_trans; eassumption].
  unfold parse_post in H. inv_bind H. rename v into t. inv_bind H. destruct v as [m1' acct'].
  destruct (parse_amount_parts (j_pool j) (t_quantity t) (t_symbol t)) as [p1 amt'] eqn:E1.
  inv_bind H. destruct v as [p2 ann]. destruct (pool_find_or_create p2 (t_symbol t) (Some ann)) as [p3 c3] eqn:E3.
  inv_bind H. destruct v as [p4 cost']. rewrite Ex in H. inv_bind H. injection H as <-. cbn [j_pool j_xacts] in *. clear E'.
  intros y Hy. cbn [j_xacts] in Hy. unfold add_post in Hy.
  destruct I as [_ Pl _ _ (xs & (Lx & x' & d & Ej & Xd & Vd) & _)]. rewrite Ej, <- Lx in *.
  rewrite (update_nth_mid (fun x => set_posts x (x_posts x ++ [mkPost acct' amt' cost' None])) xs x' []), nth_error_app2, Nat.sub_diag in Hy by lia. injection Hy as <-. cbn [set_posts x_posts].
  apply Forall_app. split.
  - eapply Forall_impl; [intros z; apply annotated_keeps; exact Kj|]. apply An. rewrite Ej, nth_error_app2, Nat.sub_diag by lia. reflexivity.
  - constructor; [|constructor]. intros a z Ha Hz. cbn [po_amount] in Ha. subst amt'.
    unfold parse_amount_parts in E1. pose proof (foc_comm (j_pool j) (t_symbol t) None) as Cm. destruct (pool_find_or_create (j_pool j) (t_symbol t) None) as [pp cc] eqn:Ef. cbn [snd] in Cm. subst cc.
    injection E1 as <- E1. destruct (d_from_str (t_quantity t)); [|discriminate]. injection E1 as <-. cbn [a_c] in Hz.
    pose proof (reachable_wf _ Pl) as W0.
    assert (W1 : wf_pool pp) by (change pp with (fst (pp, comm_of (t_symbol t))); rewrite <- Ef; apply wf_foc; [exact W0|apply no_ann]).
    destruct (annotation_wf _ _ _ _ _ _ W1 EQ1) as [W2 Wa].
    assert (L3 : lookup z (p_ann p3) <> None).
    { rewrite (act_ann p2 (Find (t_symbol t) (Some ann)) p3 z W2) by (cbn [act]; rewrite E3; reflexivity). cbn [gives].
      unfold comm_of in Hz. destruct (t_symbol t) as [|k sy]; [discriminate|]. injection Hz as <-. rewrite str_eqb_refl. cbn. destruct (lookup (k :: sy) (p_ann p2)); discriminate. }
    assert (W3 : wf_pool p3) by (change p3 with (fst (p3, c3)); rewrite <- E3; apply wf_foc; assumption).
    destruct (cost_keeps _ _ _ _ _ W3 EQ2) as (_ & K4 & _). cbn [j_pool]. destruct (lookup z (p_ann p3)) as [b|] eqn:Lb; [|congruence]. rewrite (K4 _ _ Lb). discriminate.
Qed.
Lemma kept_note p0 j xi s j' : kept p0 (InXact xi) j -> parse_trailing_note j xi s = Ok j' -> kept p0 (InXact xi) j'.
Proof.
  intros (I & An & K) H. pose proof (inv_note _ _ _ _ I H) as I'. split; [exact I'|]. destruct I as [_ Pl _ _ (xs & (Lx & x & d & Ej & Xd & Vd) & _)].
  rewrite (journal_eta j), Ej, <- Lx in H. apply note_inv in H as (x' & -> & Y1 & Y2 & Y3). split; [|exact K].
  intros y Hy. cbn [j_xacts] in Hy. rewrite <- Lx, nth_error_app2, Nat.sub_diag in Hy by lia. injection Hy as <-. cbn [j_pool].
  specialize (Y3 (fun ac => annotated (j_pool j) (mkPost [] (fst ac) (snd ac) None))). rewrite !Forall_map in Y3. eapply Forall_impl; [|apply Y3].
  - intros z Hz. exact Hz.
  - eapply Forall_impl; [|apply (An x)]; [intros z Hz; exact Hz|]. rewrite Ej, <- Lx, nth_error_app2, Nat.sub_diag by lia. reflexivity.
Qed.
Lemma kept_final p0 j xi j' : kept p0 (InXact xi) j -> finalize j xi = Ok j' -> kept p0 Top j'.
Proof.
  intros (I & An & K) H. pose proof (inv_final _ _ _ I H) as I'. split; [exact I'|]. split; [exact Logic.I|]. eapply keeps_trans; [exact K|].
  destruct I as [T Pl Li Q D]. destruct D as (xs & (Lx & x & d & Ej & Xd & Vd) & F).
  unfold finalize in H. rewrite Ej, nth_error_app2, <- Lx, Nat.sub_diag in H by lia. cbn [nth_error] in H.
  inv_bind H. destruct v as [pool' posts']. injection H as <-. cbn [j_pool]. apply reachable_keeps; [apply reachable_wf, Pl|].
  assert (Q2 : Forall (fun p => wf_post p /\ post_known (j_pool j) p) (x_posts x)) by (rewrite (journal_eta j), Ej, all_posts_snoc in Q; apply Forall_app in Q; apply Q).
  rewrite Xd in EQ. eapply finalize_pool; [exact Pl|exact Vd| | |exact EQ]; (eapply Forall_impl; [|exact Q2]; intros ? [? ?]; assumption).
Qed.
Lemma kept_price p0 j line p : kept p0 Top j -> parse_price_directive (j_pool j) line = Ok p -> kept p0 Top (set_pool j p).
Proof.
  intros (I & _ & K) H. split; [eapply inv_price; eassumption|]. split; [exact Logic.I|]. eapply keeps_trans; [exact K|]. eapply directive_keeps; [apply reachable_wf, I|exact H].
Qed.
Lemma kept_start m j : inv m j -> annot m j -> kept (j_pool j) m j.
Proof. intros I A. split; [exact I|]. split; [exact A|apply keeps_refl]. Qed.
Lemma compatible_back p p' : pool_keeps p p' -> compatible p' -> compatible p.
Proof. intros (_ & K & _) C s x y Lp Lq. eapply C; [apply K, Lp|exact Lq]. Qed.

(** The second goes on as long as the first does. *)
Definition fw {A B} (pool_of : A -> pool) (R : A -> B -> Prop) (o : outcome A) (o' : outcome B) : Prop :=
  forall a, o = Ok a -> compatible (pool_of a) -> exists b, o' = Ok b /\ R a b.
Definition next_pool (n : next) : pool := match n with Continue _ j => j_pool j | Stop j => j_pool j end.
Lemma so_fw {A B} (f : A -> pool) (R : A -> B -> Prop) o o' : same_outcome R o o' -> fw f R o o'.
Proof. intros H a E _. rewrite E in H. destruct o' as [b|?|]; cbn in H; try contradiction. eauto. Qed.
Lemma finalize_fw k j1 j2 : rel (InXact k) j1 j2 -> annot (InXact (length X1 + k)) j1 ->
  fw j_pool (rel Top) (finalize j1 (length X1 + k)) (finalize j2 (length X2 + k)).
Proof.
  intros R An a H C. destruct (finalize_rel _ _ _ R) as [E|[E|E]]; [congruence| |rewrite H in E; destruct (finalize j2 _) as [b|?|]; cbn in E; try contradiction; eauto].
  exfalso. assert (I0 : inv (shift (length X1) (InXact k)) j1) by (destruct R as (? & ? & R); apply R).
  assert (C1 : compatible (j_pool j1)) by (eapply compatible_back; [|exact C]; apply (kept_final _ _ _ _ (kept_start _ _ I0 An) H)).
  destruct R as (N & names & [E1 E2 L B I1 I2 T1 T2]).
  destruct (current_last _ _ _ _ _ I1 eq_refl E1 L) as (N' & x & d & -> & Ln & Xd & Vd & Wp & Kp).
  destruct (current_last _ _ _ _ _ I2 eq_refl E2 L) as (N2 & x2 & d2 & En & Ln2 & Xd2 & Vd2 & Wp2 & Kp2).
  apply app_inj_tail in En as [<- <-]. specialize (An x). unfold finalize in H, E. rewrite E1, <- Ln, nth_mid in *. rewrite E2, nth_mid in E.
  inv_bind H. destruct (finalize_posts_fw (x_date x) (x_posts x) _ _ _ ltac:(intros y Hy; rewrite Xd in Hy; injection Hy as <-; exact Vd) Wp B C1 Kp Kp2 (An eq_refl) EQ) as (q' & Eq & _).
  rewrite Eq in E. discriminate.
Qed.
Lemma continue_fw m o o' : fw j_pool (rel m) o o' ->
  fw next_pool rel_next (let* j := o in Ok (Continue (shift (length X1) m) j)) (let* j := o' in Ok (Continue (shift (length X2) m) j)).
Proof. intros H a E C. inv_bind E. injection E as <-. destruct (H _ EQ C) as (b & -> & R). cbn [bind]. eexists. split; [reflexivity|]. exists m. auto. Qed.
Definition inc_fw (inc : str -> journal -> outcome journal) : Prop := forall arg j1 j2, rel Top j1 j2 -> fw j_pool (rel Top) (inc arg j1) (inc arg j2).
Lemma panic_fw {A B} (f : A -> pool) (R : A -> B -> Prop) p o : fw f R (Panic p) o.
Proof. intros a H. discriminate. Qed.
Lemma general_fw inc j1 j2 l : inc_fw inc -> rel Top j1 j2 -> fw j_pool (rel Top) (general_directive inc j1 l) (general_directive inc j2 l).
Proof.
  intros I J. unfold general_directive. destruct (take_word l) as [w r]. destruct w as [|c w0]; [apply panic_fw|].
  destruct (N.eq_dec c 105) as [->|Nc].
  - cbv iota. destruct (str_eqb (105%N :: w0) (lit "include")).
    + destruct (fst (take_word r)); [apply panic_fw|]. apply I, J.
    + destruct (str_eqb (105%N :: w0) (lit "import")); [apply panic_fw|]. apply so_fw, price_rel, J.
  - destruct (N.eq_dec c 97) as [->|Na]; [apply panic_fw|].
    destruct c as [|c]; [apply panic_fw|]. do 7 (destruct c as [c|c|]; try apply panic_fw; try (exfalso; congruence)).
Qed.
Lemma step_fw inc m j1 j2 l : inc_fw inc -> rel m j1 j2 -> annot (shift (length X1) m) j1 -> fw next_pool rel_next (step inc (shift (length X1) m) j1 l) (step inc (shift (length X2) m) j2 l).
Proof.
  intros HI J An. assert (St : rel Top j1 j2 -> fw next_pool rel_next (Ok (Continue Top j1)) (Ok (Continue Top j2))) by (intros H a [= <-] _; eexists; split; [reflexivity|]; exists Top; auto).
  destruct m as [|k], l as [l|]; cbn [step shift].
  - unfold top_line. destruct (str_eqb l [13%N; 10%N] || str_eqb l [10%N]); [apply St, J|]. destruct l as [|c l]; [apply panic_fw|].
    destruct (_ || _); [apply St, J|]. destruct (c =? 45)%N; [apply St, J|].
    destruct (is_digit c) eqn:D; [apply so_fw, create_rel; assumption|]. destruct (_ || _); [apply panic_fw|].
    apply (continue_fw Top), general_fw; assumption.
  - intros a [= <-] _. eexists. split; [reflexivity|exact J].
  - pose proof (continue_fw Top _ _ (finalize_fw k j1 j2 J An)) as Fi. cbn [shift] in Fi.
    assert (Po : forall s, fw next_pool rel_next (let* j := parse_post j1 (length X1 + k) s in Ok (Continue (InXact (length X1 + k)) j)) (let* j := parse_post j2 (length X2 + k) s in Ok (Continue (InXact (length X2 + k)) j)))
      by (intros s; apply (continue_fw (InXact k)), so_fw, post_rel, J).
    assert (No : forall s, fw next_pool rel_next (let* j := parse_trailing_note j1 (length X1 + k) s in Ok (Continue (InXact (length X1 + k)) j)) (let* j := parse_trailing_note j2 (length X2 + k) s in Ok (Continue (InXact (length X2 + k)) j)))
      by (intros s; apply (continue_fw (InXact k)), so_fw, note_rel, J).
    unfold xact_line. destruct l as [|c l]; [apply panic_fw|]. destruct (N.eq_dec c 32) as [->|N32].
    + destruct (trim_start (32%N :: l)) as [|e r]; [exact Fi|]. destruct (N.eq_dec e 59) as [->|N59]; [apply No|].
      destruct e as [|e]; [apply Po|]. do 6 (destruct e as [e|e|]; try apply Po; try (exfalso; congruence)).
    + destruct (N.eq_dec c 13) as [->|N13]; [exact Fi|]. destruct (N.eq_dec c 10) as [->|N10]; [exact Fi|].
      destruct c as [|c]; [apply panic_fw|]. do 6 (destruct c as [c|c|]; try apply panic_fw; try (exfalso; congruence)).
  - apply (continue_fw Top), finalize_fw; assumption.
Qed.
Definition stays (inc : str -> journal -> outcome journal) : Prop := forall p0, keeps (kept p0) inc.
Lemma include_stays depth cwd fs : stays (include_file depth cwd fs).
Proof. intros p0. apply include_preserves; [exact (kept_create p0)|exact (kept_post p0)|exact (kept_note p0)|exact (kept_final p0)|exact (kept_price p0)]. Qed.
Lemma parse_lines_fw inc l : stays inc -> inc_fw inc -> forall m j1 j2, rel m j1 j2 -> annot (shift (length X1) m) j1 ->
  fw j_pool (rel Top) (parse_lines inc (shift (length X1) m) j1 l) (parse_lines inc (shift (length X2) m) j2 l).
Proof.
  intros St In. induction l as [|a l IH]; intros m j1 j2 J An; cbn [parse_lines].
  - destruct m; cbn [shift]; [intros a [= <-] _; eauto|apply finalize_fw; assumption].
  - intros j H C. inv_bind H. assert (I1 : inv (shift (length X1) m) j1) by (destruct J as (? & ? & R); apply R).
    pose proof (step_preserves (kept (j_pool j1)) (kept_create _) (kept_post _) (kept_note _) (kept_final _) (kept_price _) inc _ _ _ _ (St _) (kept_start _ _ I1 An) EQ) as K.
    assert (Cv : compatible (next_pool v)).
    { destruct v as [m' j'|j']; cbn [inv_next next_pool] in *; [|injection H as ->; exact C]. eapply compatible_back; [|exact C].
      apply (lines_preserve (kept (j_pool j')) (kept_create _) (kept_post _) (kept_note _) (kept_final _) (kept_price _) inc l (St _) m' j' j (kept_start _ _ (proj1 K) (proj1 (proj2 K))) H). }
    destruct (step_fw inc m j1 j2 a In J An v EQ Cv) as (n & -> & R). cbn [bind].
    destruct v as [m1 k1|k1], n as [m2 k2|k2]; cbn in R; try contradiction.
    + destruct R as (m' & -> & -> & R). exact (IH m' k1 k2 R (proj1 (proj2 K)) j H C).
    + injection H as <-. eauto.
Qed.
Lemma include_fw fs cwd : forall depth, inc_fw (include_file depth cwd fs).
Proof.
  induction depth as [|d IH]; intros arg j1 j2 J; cbn [include_file]; [intros a H; discriminate|].
  destruct (included cwd fs arg) as [[s|]|?|]; cbn [bind]; [|intros a [= <-] _; eauto|apply panic_fw|intros a H; discriminate].
  apply (parse_lines_fw _ s (include_stays d cwd fs) IH Top); [exact J|exact I].
Qed.

(** Files. *)
Lemma files_rel depth cwd fs files : forall j1 j2, rel Top j1 j2 -> unless_overflow (rel Top) (read_files depth cwd fs files j1) (read_files depth cwd fs files j2).
Proof.
  unfold read_files. induction files as [|f files IH]; intros j1 j2 R; cbn [fold_outcome]; [apply uo_ok, R|]. eapply uo_bind; [|intros a b _ _; apply IH].
  unfold parse_file. destruct (fs f) as [src|]; [|apply uo_panic]. apply (parse_lines_rel _ src (include_rel fs cwd depth) Top), R.
Qed.
Lemma read_kept depth cwd fs src p0 j j' : kept p0 Top j -> read_into_journal depth cwd fs src j = Ok j' -> kept p0 Top j'.
Proof. apply read_preserves; [exact (kept_create p0)|exact (kept_post p0)|exact (kept_note p0)|exact (kept_final p0)|exact (kept_price p0)]. Qed.
Lemma files_kept depth cwd fs files p0 : forall j j', kept p0 Top j -> read_files depth cwd fs files j = Ok j' -> kept p0 Top j'.
Proof.
  unfold read_files. induction files as [|f files IH]; intros j j' K H; cbn [fold_outcome] in H; [injection H as <-; exact K|]. inv_bind H. eapply IH; [|exact H].
  unfold parse_file in EQ. destruct (fs f) as [src|]; [|discriminate]. eapply read_kept; eassumption.
Qed.
Lemma files_fw depth cwd fs files : forall j1 j2, rel Top j1 j2 -> fw j_pool (rel Top) (read_files depth cwd fs files j1) (read_files depth cwd fs files j2).
Proof.
  unfold read_files. induction files as [|f files IH]; intros j1 j2 R a H C; cbn [fold_outcome] in *; [injection H as <-; eauto|]. inv_bind H.
  assert (I1 : inv Top j1) by (destruct R as (? & ? & R); apply R).
  assert (K : kept (j_pool v) Top v).
  { apply kept_start; [|exact I]. unfold parse_file in EQ. destruct (fs f); [|discriminate]. eapply inv_read; eassumption. }
  assert (Cv : compatible (j_pool v)) by (eapply compatible_back; [|exact C]; apply (files_kept depth cwd fs files _ _ _ K H)).
  assert (G : fw j_pool (rel Top) (parse_file depth cwd fs f j1) (parse_file depth cwd fs f j2)).
  { unfold parse_file. destruct (fs f) as [src|]; [|apply panic_fw]. apply (parse_lines_fw _ src (include_stays depth cwd fs) (include_fw fs cwd depth) Top); [exact R|exact I]. }
  destruct (G v EQ Cv) as (b & -> & R'). cbn [bind]. eapply IH; eassumption.
Qed.
End Two.

Lemma rel_start j1 j2 : inv Top j1 -> inv Top j2 -> rel (j_pool j1) (j_pool j2) (j_xacts j1) (j_xacts j2) (j_master j1) (j_master j2) Top j1 j2.
Proof.
  intros I1 I2. exists [], []. constructor; auto.
  - rewrite app_nil_r. reflexivity.
  - rewrite app_nil_r. reflexivity.
  - exists []. cbn. auto.
  - intros q. split; [auto|]. intros [H|(a & [] & _)]. exact H.
  - intros q. split; [auto|]. intros [H|(a & [] & _)]. exact H.
Qed.

(** What the operations on the pool come to. *)
Definition creates (o : op) (s : str) : Prop := match o with Find t _ => s = t /\ t <> [] | Rec _ _ _ => False end.
Lemma acts_find ops s : forall p p', fold_outcome act ops p = Ok p' -> (pool_find p' s <> None <-> pool_find p s <> None \/ Exists (fun o => creates o s) ops).
Proof.
  induction ops as [|o ops IH]; intros p p' H; cbn [fold_outcome] in H.
  - injection H as <-. split; [auto|]. intros [F|F]; [exact F|inversion F].
  - inv_bind H. rewrite (IH _ _ H), Exists_cons. assert (G : pool_find v s <> None <-> pool_find p s <> None \/ creates o s); [|tauto].
    destruct o as [t a|c w x]; cbn [act creates] in *.
    + injection EQ as <-. apply find_foc.
    + apply add_price_inv in EQ as (s0 & t0 & cs & ct & _ & _ & _ & _ & _ & ->). cbn. unfold pool_find. cbn [p_comms]. tauto.
Qed.
Definition dt_dec (a b : datetime) : {a = b} + {a <> b}.
Proof. repeat decide equality. Defined.
Definition records (o : op) (s t : str) (w : datetime) : option dec :=
  match o with
  | Rec c w' x => if comm_dec (Some s) c then if comm_dec (Some t) (a_c x) then if dt_dec w w' then Some (a_q x) else None else None else None
  | Find _ _ => None
  end.
Fixpoint last_recorded (ops : list op) (s t : str) (w : datetime) : option dec :=
  match ops with
  | [] => None
  | o :: ops' => match last_recorded ops' s t w with Some v => Some v | None => records o s t w end
  end.
Lemma acts_prices ops s t w v : Forall op_ok ops -> forall p p', wf_pool p -> fold_outcome act ops p = Ok p' ->
  (price_on p' s t w v <-> match last_recorded ops s t w with Some v' => v = v' | None => price_on p s t w v end).
Proof.
  induction 1 as [|o ops V _ IH]; intros p p' W H; cbn [fold_outcome last_recorded] in *; [injection H as <-; reflexivity|].
  inv_bind H. assert (W1 : wf_pool v0) by (refine (proj1 (acts_wf [o] _ p v0 W _)); [auto|cbn; rewrite EQ; reflexivity]).
  rewrite (IH _ _ W1 H). destruct (last_recorded ops s t w) as [u|]; [reflexivity|].
  destruct o as [k a|c w' x]; cbn [act records op_ok] in *.
  - injection EQ as <-. apply foc_prices, W.
  - destruct V as [Vw Vx]. rewrite (add_price_effect _ _ _ _ _ W Vw EQ). destruct (comm_dec (Some s) c); [|reflexivity]. destruct (comm_dec (Some t) (a_c x)); [|reflexivity].
    destruct (dt_dec w w') as [E|E]; tauto.
Qed.
Lemma price_new s t w v : ~ price_on pool_new s t w v.
Proof. intros (a & b & H & _). discriminate. Qed.

Lemma rel_together j j0 j' : inv Top j -> rel (j_pool journal_new) (j_pool j) (j_xacts journal_new) (j_xacts j) (j_master journal_new) (j_master j) Top j0 j' -> together j j0 j'.
Proof.
  intros I (N & names & [E1 E2 _ (ops & V & H1 & H2) I1 I2 T1 T2]). cbn [journal_new j_xacts app] in E1.
  pose proof (reachable_wf _ (i_pool _ _ I)) as W. constructor.
  - rewrite E2, E1. reflexivity.
  - intros q. rewrite T2, T1. cbn [journal_new j_master]. split; [tauto|]. intros [F|[F|F]]; [left; exact F| |right; exact F].
    left. apply posts_at_exists in F. rewrite posts_at_leaf in F. destruct q; [eexists; reflexivity|congruence].
  - intros s. rewrite (acts_find _ s _ _ H2), (acts_find _ s _ _ H1). cbn. split; [|tauto]. tauto.
  - intros s t w v. rewrite (acts_prices _ s t w v V _ _ W H2), (acts_prices _ s t w v V _ _ wf_pool_new H1).
    assert (G : forall v', price_on (j_pool j0) s t w v' <-> match last_recorded ops s t w with Some u => v' = u | None => price_on pool_new s t w v' end) by (intros v'; exact (acts_prices _ s t w v' V _ _ wf_pool_new H1)).
    destruct (last_recorded ops s t w) as [u|].
    + split; [auto|]. intros [F|[_ F]]; [exact F|]. exfalso. apply (F u), G. reflexivity.
    + split; [|intros [F|[F _]]; [exfalso; eapply price_new, F|exact F]]. intros F. right. split; [exact F|]. intros v' Hv. apply G in Hv. eapply price_new, Hv.
Qed.

Theorem outcome_alike depth cwd fs files j1 j2 : reachable_journal j1 -> reachable_journal j2 ->
  unless_overflow (fun j1' j2' => exists new, j_xacts j1' = j_xacts j1 ++ new /\ j_xacts j2' = j_xacts j2 ++ new)
    (read_files depth cwd fs files j1) (read_files depth cwd fs files j2).
Proof.
  intros R1 R2. apply reachable_inv in R1, R2. pose proof (reachable_wf _ (i_pool _ _ R1)) as W1. pose proof (reachable_wf _ (i_pool _ _ R2)) as W2.
  eapply uo_strengthen; [apply (files_rel _ _ W1 W2 _ _ _ _ depth cwd fs files _ _ (rel_start _ _ R1 R2))|].
  intros a b _ _ (N & names & R). exists N. split; apply R.
Qed.
Theorem source_alike depth cwd fs src j1 j2 : reachable_journal j1 -> reachable_journal j2 ->
  unless_overflow (fun j1' j2' => exists new, j_xacts j1' = j_xacts j1 ++ new /\ j_xacts j2' = j_xacts j2 ++ new)
    (read_into_journal depth cwd fs src j1) (read_into_journal depth cwd fs src j2).
Proof.
  intros R1 R2. apply reachable_inv in R1, R2. pose proof (reachable_wf _ (i_pool _ _ R1)) as W1. pose proof (reachable_wf _ (i_pool _ _ R2)) as W2.
  eapply uo_strengthen; [apply (parse_lines_rel _ _ W1 W2 _ _ _ _ _ src (include_rel _ _ W1 W2 _ _ _ _ fs cwd depth) Top _ _ (rel_start _ _ R1 R2))|].
  intros a b _ _ (N & names & R). exists N. split; apply R.
Qed.
Theorem read_together depth cwd fs files j j0 j' : reachable_journal j ->
  read_journal_files depth cwd fs files = Ok j0 -> read_files depth cwd fs files j = Ok j' -> together j j0 j'.
Proof.
  intros R H0 H. apply reachable_inv in R. pose proof (reachable_wf _ (i_pool _ _ R)) as W. apply rel_together; [exact R|].
  destruct (files_rel _ _ wf_pool_new W _ _ _ _ depth cwd fs files _ _ (rel_start _ _ inv_new R)) as [E|[E|E]]; [unfold read_files, read_journal_files in *; congruence|congruence|].
  unfold read_files, read_journal_files in *. rewrite H0, H in E. exact E.
Qed.
Theorem read_compatible depth cwd fs files j j0 : reachable_journal j -> read_journal_files depth cwd fs files = Ok j0 -> lots_agree j j0 ->
  exists j', read_files depth cwd fs files j = Ok j' /\ together j j0 j'.
Proof.
  intros R H0 L. apply reachable_inv in R. pose proof (reachable_wf _ (i_pool _ _ R)) as W.
  destruct (files_fw _ _ wf_pool_new W _ _ _ _ eq_refl depth cwd fs files _ _ (rel_start _ _ inv_new R) j0 H0) as (j' & H & Re).
  - intros s x y Lx Ly. eapply L; eassumption.
  - exists j'. split; [exact H|]. apply rel_together; assumption.
Qed.
Lemma files_reachable depth cwd fs files j : forall j', reachable_journal j -> read_files depth cwd fs files j = Ok j' -> reachable_journal j'.
Proof.
  unfold read_files. revert j. induction files as [|f files IH]; intros j j' R H; cbn [fold_outcome] in H; [injection H as <-; exact R|]. inv_bind H. eapply IH; [|exact H].
  unfold parse_file in EQ. destruct (fs f) as [src|]; [|discriminate]. eapply rj_read; eassumption.
Qed.
Lemma read_app depth cwd fs f1 f2 : read_journal_files depth cwd fs (f1 ++ f2) = let* j := read_journal_files depth cwd fs f1 in read_files depth cwd fs f2 j.
Proof. unfold read_journal_files, read_files. rewrite fold_outcome_app. reflexivity. Qed.
Theorem files_together depth cwd fs f1 f2 j1 j2 j :
  read_journal_files depth cwd fs f1 = Ok j1 -> read_journal_files depth cwd fs f2 = Ok j2 -> read_journal_files depth cwd fs (f1 ++ f2) = Ok j -> together j1 j2 j.
Proof. intros H1 H2 H. rewrite read_app, H1 in H. cbn [bind] in H. eapply read_together; [eapply files_reachable; [apply rj_new|exact H1]|exact H2|exact H]. Qed.
Theorem files_compatible depth cwd fs f1 f2 j1 j2 :
  read_journal_files depth cwd fs f1 = Ok j1 -> read_journal_files depth cwd fs f2 = Ok j2 -> lots_agree j1 j2 ->
  exists j, read_journal_files depth cwd fs (f1 ++ f2) = Ok j /\ together j1 j2 j.
Proof. intros H1 H2 L. rewrite read_app, H1. cbn [bind]. eapply read_compatible; [eapply files_reachable; [apply rj_new|exact H1]|exact H2|exact L]. Qed.
Theorem files_fail depth cwd fs f1 f2 j1 e :
  read_journal_files depth cwd fs f1 = Ok j1 -> read_journal_files depth cwd fs f2 = Panic e -> e <> PArith ->
  read_journal_files depth cwd fs (f1 ++ f2) = Panic e \/ read_journal_files depth cwd fs (f1 ++ f2) = Panic PArith.
Proof.
  intros H1 H2 N. rewrite read_app, H1. cbn [bind]. assert (R : reachable_journal j1) by (eapply files_reachable; [apply rj_new|exact H1]).
  destruct (outcome_alike depth cwd fs f2 _ _ rj_new R) as [E|[E|E]]; unfold read_journal_files, read_files in *; [congruence|auto|].
  rewrite H2 in E. destruct (fold_outcome _ f2 j1); cbn in E; try contradiction. subst. auto.
Qed.
Theorem files_twice depth cwd fs files j : read_journal_files depth cwd fs files = Ok j ->
  exists j', read_journal_files depth cwd fs (files ++ files) = Ok j' /\ together j j j'.
Proof. intros H. eapply files_compatible; [exact H|exact H|]. intros s x y Lx Ly. right. congruence. Qed.

(** ** Totals *)
Lemma below_app j1 j2 j q : together j1 j2 j -> amounts_of (posts_below j q) = amounts_of (posts_below j1 q) ++ amounts_of (posts_below j2 q).
Proof. intros T. unfold posts_below, all_posts, amounts_of. rewrite (tg_xacts _ _ _ T), flat_map_app, filter_app, flat_map_app. reflexivity. Qed.
Lemma total_at j q c : reachable_journal j -> fits_amts (amounts_of (posts_below j q)) -> total_is j q c (total c (amounts_of (posts_below j q))).
Proof.
  intros R F. unfold total_is. destruct (get_account (j_master j) q) as [a|] eqn:G.
  - destruct (total_below j q a R G F) as (b & T & S). exists b. split; [exact T|]. apply S.
  - assert (E : posts_below j q = []).
    { unfold posts_below. destruct (filter _ (all_posts j)) as [|p l] eqn:Ef; [reflexivity|]. exfalso.
      assert (Hp : In p (filter (fun p => prefix_of q (po_account p)) (all_posts j))) by (rewrite Ef; left; reflexivity). apply filter_In in Hp as [Hp Hq].
      destruct (posting_exists j p q R Hp Hq) as [a Ga]. congruence. }
    rewrite E. reflexivity.
Qed.
Lemma sum_app c l1 l2 : total c (l1 ++ l2) = (total c l1 + total c l2)%Z.
Proof. apply total_app. Qed.
Theorem totals_add j1 j2 j q c : reachable_journal j1 -> reachable_journal j2 -> reachable_journal j -> together j1 j2 j ->
  fits_amts (amounts_of (posts_below j q)) ->
  exists v1 v2, total_is j1 q c v1 /\ total_is j2 q c v2 /\ total_is j q c (v1 + v2)%Z.
Proof.
  intros R1 R2 R T F. pose proof F as F'. rewrite (below_app _ _ _ q T) in F'.
  exists (total c (amounts_of (posts_below j1 q))), (total c (amounts_of (posts_below j2 q))).
  split; [apply total_at; [exact R1|eapply fits_amts_app1, F']|]. split; [apply total_at; [exact R2|eapply fits_amts_app2, F']|].
  rewrite <- sum_app, <- (below_app _ _ _ q T). apply total_at; assumption.
Qed.
Lemma total_is_det j q c v v' : total_is j q c v -> total_is j q c v' -> v = v'.
Proof. unfold total_is. destruct (get_account _ _); [|congruence]. intros (b & T & H) (b' & T' & H'). congruence. Qed.
Theorem files_totals depth cwd fs f1 f2 j1 j2 j q c v1 v2 :
  read_journal_files depth cwd fs f1 = Ok j1 -> read_journal_files depth cwd fs f2 = Ok j2 -> read_journal_files depth cwd fs (f1 ++ f2) = Ok j ->
  fits_amts (amounts_of (posts_below j q)) -> total_is j1 q c v1 -> total_is j2 q c v2 -> total_is j q c (v1 + v2)%Z.
Proof.
  intros H1 H2 H F T1 T2. assert (Rd : forall f k, read_journal_files depth cwd fs f = Ok k -> reachable_journal k) by (intros f k; apply files_reachable, rj_new).
  destruct (totals_add j1 j2 j q c (Rd _ _ H1) (Rd _ _ H2) (Rd _ _ H) (files_together _ _ _ _ _ _ _ _ H1 H2 H) F) as (u1 & u2 & U1 & U2 & U).
  rewrite (total_is_det _ _ _ _ _ T1 U1), (total_is_det _ _ _ _ _ T2 U2). exact U.
Qed.
Theorem files_either_order depth cwd fs f1 f2 j1 j2 j j' :
  read_journal_files depth cwd fs f1 = Ok j1 -> read_journal_files depth cwd fs f2 = Ok j2 ->
  read_journal_files depth cwd fs (f1 ++ f2) = Ok j -> read_journal_files depth cwd fs (f2 ++ f1) = Ok j' ->
  (forall q, exists_at (j_master j) q <-> exists_at (j_master j') q)
  /\ (forall s, pool_find (j_pool j) s <> None <-> pool_find (j_pool j') s <> None)
  /\ (forall s t w, (exists v, price_on (j_pool j) s t w v) <-> exists v, price_on (j_pool j') s t w v)
  /\ forall q c v, fits_amts (amounts_of (posts_below j q)) -> total_is j q c v -> total_is j' q c v.
Proof.
  intros H1 H2 H H'. pose proof (files_together _ _ _ _ _ _ _ _ H1 H2 H) as T. pose proof (files_together _ _ _ _ _ _ _ _ H2 H1 H') as T'.
  assert (Rd : forall f k, read_journal_files depth cwd fs f = Ok k -> reachable_journal k) by (intros f k; apply files_reachable, rj_new).
  split; [intros q; rewrite (tg_accounts _ _ _ T), (tg_accounts _ _ _ T'); tauto|].
  split; [intros s; rewrite (tg_commodities _ _ _ T), (tg_commodities _ _ _ T'); tauto|].
  assert (Wd : forall k, reachable_journal k -> wf_pool (j_pool k)) by (intros k Rk; apply reachable_inv in Rk; apply reachable_wf, Rk).
  split.
  - assert (P : forall a b k, together a b k -> forall s t w, (exists v, price_on (j_pool k) s t w v) <-> (exists v, price_on (j_pool a) s t w v) \/ exists v, price_on (j_pool b) s t w v).
    { intros a b k Tk s t w. split.
      - intros [v Hv]. apply (tg_prices _ _ _ Tk) in Hv as [Hv|[Hv _]]; eauto.
      - intros [[v Hv]|[v Hv]]; [|exists v; apply (tg_prices _ _ _ Tk); auto].
        assert (D : (exists u, price_on (j_pool b) s t w u) \/ forall u, ~ price_on (j_pool b) s t w u).
        { unfold price_on, index_of. destruct (pool_find (j_pool b) s) as [cs|]; [|right; intros u (x & y & X & _); discriminate].
          destruct (pool_find (j_pool b) t) as [ct|]; [|right; intros u (x & y & _ & X & _); discriminate]. cbn [option_map].
          destruct (in_dec dt_dec w (map fst (points (p_hist (j_pool b)) (c_index cs) (c_index ct)))) as [I|I].
          - apply in_map_iff in I as ([w' u] & <- & Hu). left. exists u, (c_index cs), (c_index ct). auto.
          - right. intros u (x & y & X & Y & Hu). injection X as <-. injection Y as <-. apply I. apply (in_map fst) in Hu. exact Hu. }
        destruct D as [[u Hu]|D]; [exists u|exists v]; apply (tg_prices _ _ _ Tk); auto. }
    intros s t w. rewrite (P _ _ _ T), (P _ _ _ T'). tauto.
  - intros q c v F Hv. destruct (totals_add j1 j2 j q c (Rd _ _ H1) (Rd _ _ H2) (Rd _ _ H) T F) as (u1 & u2 & U1 & U2 & U).
    assert (F' : fits_amts (amounts_of (posts_below j' q))).
    { rewrite (below_app _ _ _ q T'). rewrite (below_app _ _ _ q T) in F. eapply fits_amts_perm; [apply Permutation_app_comm|exact F]. }
    destruct (totals_add j2 j1 j' q c (Rd _ _ H2) (Rd _ _ H1) (Rd _ _ H') T' F') as (w2 & w1 & V2 & V1 & V).
    rewrite (total_is_det _ _ _ _ _ Hv U), (total_is_det _ _ _ _ _ U1 V1), (total_is_det _ _ _ _ _ U2 V2), Z.add_comm. exact V.
Qed.
Theorem twice_doubles depth cwd fs files j j' : read_journal_files depth cwd fs files = Ok j -> read_journal_files depth cwd fs (files ++ files) = Ok j' ->
  j_xacts j' = j_xacts j ++ j_xacts j /\ (forall q, exists_at (j_master j') q <-> exists_at (j_master j) q)
  /\ (forall s, pool_find (j_pool j') s <> None <-> pool_find (j_pool j) s <> None)
  /\ (forall s t w v, price_on (j_pool j') s t w v <-> price_on (j_pool j) s t w v)
  /\ forall q c v, fits_amts (amounts_of (posts_below j' q)) -> total_is j q c v -> total_is j' q c (2 * v)%Z.
Proof.
  intros H H'. pose proof (files_together _ _ _ _ _ _ _ _ H H H') as T. split; [apply T|]. split; [intros q; rewrite (tg_accounts _ _ _ T); tauto|].
  split; [intros s; rewrite (tg_commodities _ _ _ T); tauto|]. split; [intros s t w v; rewrite (tg_prices _ _ _ T); tauto|].
  intros q c v F Hv. replace (2 * v)%Z with (v + v)%Z by lia. exact (files_totals _ _ _ _ _ _ _ _ _ _ _ _ H H H' F Hv Hv).
Qed.
