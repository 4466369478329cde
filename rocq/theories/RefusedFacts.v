(** When a transaction can be completed. *)
From Coq Require Import String List NArith ZArith Bool Lia ZifyBool ZifyNat ZifyN.
From Verif Require Import Base BaseFacts Decimal Dates Amount Balance Scanner History Pool Account Journal Xact Parser.
From Verif Require Import SpecText SpecDecimal SpecAmount SpecReading SpecScan SpecDates SpecPool SpecAccount SpecXact SpecJournal SpecOutline SpecLine SpecValue SpecContent SpecRefused.
From Verif Require Import DecimalFacts BalanceFacts DatesFacts PoolFacts PriceProofs XactFacts XactProofs JournalFacts ArithProofs ValueProofs ReportFacts.
Import ListNotations.
Open Scope nat_scope.

(** ** Sums *)
Definition entry_of (c : comm) (b : balance) : Z := match in_comm c b with a :: _ => aunits a | [] => 0%Z end.
Lemma in_comm_cons c a l : in_comm c (a :: l) = if comm_dec (a_c a) c then a :: in_comm c l else in_comm c l.
Proof. unfold in_comm. cbn [filter]. destruct (comm_dec (a_c a) c); reflexivity. Qed.
Lemma bal_add_entry b : forall a b', Forall wf_amt b -> wf_amt a -> bal_add b a = Ok b' ->
  Forall wf_amt b' /\ map a_c b' = map a_c b ++ (if in_dec comm_dec (a_c a) (map a_c b) then [] else [a_c a])
  /\ (forall c, c <> a_c a -> entry_of c b' = entry_of c b)
  /\ exists q, nearest (entry_of (a_c a) b + aunits a) 1 q /\ entry_of (a_c a) b' = units q.
Proof.
  induction b as [|x b IH]; intros a b' W Wa H; cbn [bal_add] in H.
  - injection H as <-. split; [constructor; [exact Wa|constructor]|]. split; [reflexivity|]. split.
    + intros c N. unfold entry_of. rewrite in_comm_cons. destruct (comm_dec (a_c a) c); [congruence|reflexivity].
    + exists (a_q a). unfold entry_of. rewrite in_comm_cons. destruct (comm_dec (a_c a) (a_c a)); [|congruence]. split; [|reflexivity]. split; [exact Wa|]. left. cbn. unfold aunits. lia.
  - inversion W as [|? ? Wx Wb]; subst. destruct (comm_eqb_spec (a_c x) (a_c a)) as [E|N].
    + inv_bind H. injection H as <-. unfold amt_add in EQ. destruct (comm_eqb (a_c x) (a_c a)); [|discriminate].
      assert (X : wf_amt v /\ a_c v = a_c x /\ nearest (aunits x + aunits a) 1 (a_q v)).
      { destruct (d_is_zero (a_q a)) eqn:Z.
        - injection EQ as <-. split; [exact Wx|]. split; [reflexivity|]. apply d_is_zero_units in Z; [|exact Wa]. split; [exact Wx|]. left. unfold aunits. rewrite Z. lia.
        - inv_bind EQ. injection EQ as <-. cbn. pose proof (d_add_nearest _ _ _ Wx Wa EQ0) as X. split; [apply X|]. auto. }
      destruct X as (Wv & Cv & Nv). split; [constructor; assumption|]. split; [|split].
      * cbn [map]. rewrite Cv. destruct (in_dec _ _ _) as [I|I]; [rewrite app_nil_r; reflexivity|]. elim I. left. exact E.
      * intros c N. unfold entry_of. rewrite !in_comm_cons. rewrite Cv. destruct (comm_dec (a_c x) c); [congruence|reflexivity].
      * exists (a_q v). unfold entry_of. rewrite !in_comm_cons, Cv. destruct (comm_dec (a_c x) (a_c a)); [|congruence]. split; [exact Nv|reflexivity].
    + inv_bind H. injection H as <-. destruct (IH _ _ Wb Wa EQ) as (W' & M & O & q & Nq & Eq). split; [constructor; assumption|]. split; [|split].
      * cbn [map app]. rewrite M. f_equal. f_equal. destruct (in_dec comm_dec (a_c a) (map a_c b)) as [I|I], (in_dec comm_dec (a_c a) (a_c x :: map a_c b)) as [J|J]; try reflexivity.
        -- elim J. right. exact I.
        -- destruct J as [J|J]; [congruence|]. elim I. exact J.
      * intros c Nc. specialize (O c Nc). unfold entry_of in *. rewrite !in_comm_cons. destruct (comm_dec (a_c x) c); [reflexivity|exact O].
      * exists q. unfold entry_of in *. rewrite !in_comm_cons. destruct (comm_dec (a_c x) (a_c a)); [congruence|]. auto.
Qed.
Lemma fold_entries l : forall b b', Forall wf_amt b -> Forall wf_amt l -> fold_outcome bal_add l b = Ok b' ->
  Forall wf_amt b' /\ (NoDup (map a_c b) -> NoDup (map a_c b') /\ map a_c b' = firsts (map a_c b ++ map a_c l))
  /\ forall c, summed (entry_of c b) (map aunits (in_comm c l)) (entry_of c b').
Proof.
  induction l as [|a l IH]; intros b b' W Wl H; cbn [fold_outcome] in H.
  - injection H as <-. split; [exact W|]. split; [|intros c; constructor]. intros N. split; [exact N|]. cbn [map]. rewrite app_nil_r, firsts_idem by exact N. reflexivity.
  - inv_bind H. inversion Wl as [|? ? Wa Wl']; subst. destruct (bal_add_entry _ _ _ W Wa EQ) as (Wv & M & O & q & Nq & Eq). destruct (IH _ _ Wv Wl' H) as (W' & N' & S). split; [exact W'|]. split.
    + intros N. assert (Nv : NoDup (map a_c v)).
      { rewrite M. destruct (in_dec _ _ _) as [I|I]; [rewrite app_nil_r; exact N|]. apply NoDup_app'; [exact N|repeat constructor; intros []|]. intros x Hx [<-|[]]. contradiction. }
      destruct (N' Nv) as [N1 N2]. split; [exact N1|]. rewrite N2, M. clear -N. cbn [map]. destruct (in_dec _ _ _) as [I|I].
      * rewrite app_nil_r, !firsts_app. f_equal. cbn [firsts]. unfold minus_list. cbn [filter]. destruct (in_dec comm_dec (a_c a) (map a_c b)); [|contradiction].
        rewrite filter_filter. apply filter_ext. intros x. destruct (in_dec comm_dec x (map a_c b)); destruct (comm_dec x (a_c a)) as [->|]; try reflexivity. contradiction.
      * rewrite <- app_assoc. reflexivity.
    + intros c. rewrite in_comm_cons. destruct (comm_dec (a_c a) c) as [<-|N].
      * cbn [map]. econstructor; [exact Nq|]. rewrite <- Eq. apply S.
      * rewrite <- (O c) by congruence. apply S.
Qed.

(** ** Nothing else goes wrong *)
Definition ends {A} (o : outcome A) : Prop := (exists r, o = Ok r) \/ o = Panic PArith.
Lemma ends_bind {A B} (o : outcome A) (f : A -> outcome B) : ends o -> (forall v, o = Ok v -> ends (f v)) -> ends (let* v := o in f v).
Proof. intros [[v ->]| ->] H; cbn [bind]; [apply H; reflexivity|right; reflexivity]. Qed.
Lemma ends_ok {A} (v : A) : ends (Ok v). Proof. left. eauto. Qed.
Lemma amt_add_ends a b : a_c a = a_c b -> ends (amt_add a b).
Proof. intros E. unfold amt_add. destruct (comm_eqb_spec (a_c a) (a_c b)); [|congruence]. destruct (d_is_zero _); [apply ends_ok|]. apply ends_bind; [apply d_add_ends|]. intros. apply ends_ok. Qed.
Lemma amt_mul_ends a b : ends (amt_mul a b).
Proof. apply ends_bind; [apply d_mul_ends|]. intros. apply ends_ok. Qed.
Lemma amt_div_ends a b : ends (amt_div a b).
Proof. apply ends_bind; [apply d_div_ends|]. intros. apply ends_ok. Qed.
Lemma bal_add_ends b a : ends (bal_add b a).
Proof.
  induction b as [|x b IH]; cbn [bal_add]; [apply ends_ok|]. destruct (comm_eqb_spec (a_c x) (a_c a)).
  - apply ends_bind; [apply amt_add_ends; assumption|]. intros. apply ends_ok.
  - apply ends_bind; [exact IH|]. intros. apply ends_ok.
Qed.
Lemma bal_sub_ends b a : ends (bal_sub b a).
Proof.
  induction b as [|x b IH]; cbn [bal_sub]; [apply ends_ok|]. destruct (comm_eqb_spec (a_c x) (a_c a)) as [E|E].
  - apply ends_bind; [|intros; apply ends_ok]. unfold amt_minus. destruct (comm_eqb_spec (a_c x) (a_c a)); [|congruence]. apply ends_bind; [apply d_sub_ends|]. intros. apply ends_ok.
  - apply ends_bind; [exact IH|]. intros. apply ends_ok.
Qed.
Lemma sum_posts_ends ps : forall i b np, ends (sum_posts ps i b np) \/
  (np <> None /\ exists l1 q l2, ps = l1 ++ q :: l2 /\ worth q = None) \/ exists l1 p l2 q l3, ps = l1 ++ p :: l2 ++ q :: l3 /\ worth p = None /\ worth q = None.
Proof.
  induction ps as [|p ps IH]; intros i b np; cbn [sum_posts]; [left; apply ends_ok|]. rewrite worth_value. destruct (worth p) as [a|] eqn:V.
  - destruct (bal_add_ends b a) as [[b' ->]| ->]; cbn [bind]; [|left; right; reflexivity].
    destruct (IH (S i) b' np) as [E|[(N & l1 & q & l2 & -> & Q)|(l1 & p' & l2 & q & l3 & -> & P & Q)]]; [left; exact E|right; left|right; right].
    + split; [exact N|]. exists (p :: l1), q, l2. auto.
    + exists (p :: l1), p', l2, q, l3. auto.
  - destruct np as [k|]; [right; left; split; [discriminate|]; exists [], p, ps; auto|].
    destruct (IH (S i) b (Some i)) as [E|[(N & l1 & q & l2 & -> & Q)|(l1 & p' & l2 & q & l3 & -> & P & Q)]]; [left; exact E|right; right|right; right].
    + exists [], p, l1, q, l2. auto.
    + exists (p :: l1), p', l2, q, l3. auto.
Qed.
Lemma cost_loop_ends c u ps : Forall (fun p => po_amount p <> None) ps -> forall b, ends (cost_loop c u ps b).
Proof.
  induction 1 as [|p ps A _ IH]; intros b; cbn [cost_loop]; [apply ends_ok|]. destruct (po_amount p) as [a|]; [|congruence]. cbn [unwrap bind].
  apply ends_bind.
  - destruct (comm_eqb _ _); [|apply ends_ok]. apply ends_bind; [apply bal_sub_ends|]. intros b1 _. apply ends_bind; [apply amt_mul_ends|]. intros k _. apply ends_bind; [apply bal_add_ends|]. intros. apply ends_ok.
  - intros [p' b'] _. apply ends_bind; [apply IH|]. intros [x y] _. apply ends_ok.
Qed.
Lemma infer_costs_ends ps b : Forall (fun p => po_amount p <> None) ps -> ends (infer_costs ps b).
Proof.
  intros A. unfold infer_costs. destruct b as [|x0 [|y0 [|z b]]]; try apply ends_ok. destruct (top_amount ps); [|apply ends_ok]. destruct (_ && _); [|apply ends_ok].
  destruct (negb _); (apply ends_bind; [apply amt_div_ends|]; intros; apply cost_loop_ends, A).
Qed.

(** ** Prices *)
Lemma exchange_ends p a c w : wf_pool p -> known p (a_c a) -> a_c a <> None -> ends (exchange p a c false w).
Proof.
  intros W K N. unfold exchange. destruct (a_c a) as [s|] eqn:E; [|congruence]. cbn [unwrap bind deref]. destruct (K s eq_refl) as [m F]. rewrite F. cbn [bind].
  destruct (wp_comm _ W _ _ F) as [Es Nn]. unfold pool_get_by_index, get_commodity. rewrite Nn. cbn [unwrap bind deref]. rewrite F. cbn [bind].
  apply ends_bind. { cbn [orb]. destruct (amt_is_zero a); [apply ends_ok|]. apply ends_bind; [apply amt_div_ends|]. intros. apply ends_ok. }
  intros u _. cbn [bind]. apply ends_bind; [|intros; apply ends_ok]. destruct (lookup _ _) as [an|]; [|apply ends_ok]. destruct (an_price an); [apply amt_mul_ends|apply ends_ok].
Qed.
Lemma price_zero a c uq : wf_amt a -> wf_amt c ->
  (amt_is_zero a = true -> uq = d_set_pos (a_q c)) -> (amt_is_zero a = false -> exists q, d_div (a_q c) (a_q a) = Ok q /\ uq = d_set_pos q) ->
  wf_dec uq /\ (d_is_zero uq = false <-> has_price a c).
Proof.
  intros Wa Wc H1 H2. assert (Za := d_is_zero_units _ Wa). unfold amt_is_zero in *. unfold has_price, aunits. destruct (d_is_zero (a_q a)).
  - rewrite (H1 eq_refl). destruct (set_pos_units _ Wc) as [U W]. split; [exact W|]. pose proof (d_is_zero_units _ W) as Zu. rewrite U in Zu. destruct (d_is_zero (d_set_pos (a_q c))); [|intuition (discriminate || lia)].
    split; [discriminate|]. assert (units (a_q a) = 0%Z) by tauto. intros [[_ X]|[X _]]; [|contradiction]. assert (Z.abs (units (a_q c)) = 0%Z) by tauto. lia.
  - destruct (H2 eq_refl) as (q & D & ->). destruct (d_div_nearest _ _ _ Wc Wa D) as [Nz Nq]. destruct (set_pos_units q (proj1 Nq)) as [U W]. split; [exact W|].
    pose proof (d_is_zero_units _ W) as Zu. rewrite U in Zu. split.
    + intros Z. right. split; [exact Nz|]. exists q. split; [exact Nq|]. intros E. rewrite Z, E in Zu. assert (false = true) by (apply Zu; reflexivity). discriminate.
    + intros [[X _]|[_ (q' & Nq' & X)]]; [contradiction|]. rewrite (nearest_unique _ _ _ _ Nz Nq' Nq) in X. destruct (d_is_zero (d_set_pos q)); [|reflexivity]. assert (Z.abs (units q) = 0%Z) by tauto. lia.
Qed.
Definition has_amount (p : post) : Prop := po_cost p <> None -> po_amount p <> None.
Lemma price_loop_cases d ps : valid_date d -> forall pool, reachable_pool pool -> Forall wf_post ps -> Forall (post_known pool) ps -> Forall has_amount ps ->
  match price_loop (Some d) pool ps with
  | Ok _ => forall p a c, In p ps -> po_amount p = Some a -> po_cost p = Some c -> ~ cost_unusable a c
  | Panic q => q = PArith \/ exists p a c, In p ps /\ po_amount p = Some a /\ po_cost p = Some c /\ cost_unusable a c
  | Diverge => False
  end.
Proof.
  intros Vd. induction ps as [|p ps IH]; intros pool R Wp Kp Hp; cbn [price_loop]; [intros p a c []|].
  inversion Wp as [|? ? [Wa Wc] Wp']; subst. inversion Kp as [|? ? [Ka Kc] Kp']; subst. inversion Hp as [|? ? Ap Hp']; subst.
  assert (Rest : forall pool' p', reachable_from pool pool' -> (forall a c, po_amount p = Some a -> po_cost p = Some c -> ~ cost_unusable a c) ->
    match (let* (pool'', posts'') := price_loop (Some d) pool' ps in Ok (pool'', p' :: posts'')) with
    | Ok _ => forall p0 a c, In p0 (p :: ps) -> po_amount p0 = Some a -> po_cost p0 = Some c -> ~ cost_unusable a c
    | Panic q => q = PArith \/ exists p0 a c, In p0 (p :: ps) /\ po_amount p0 = Some a /\ po_cost p0 = Some c /\ cost_unusable a c
    | Diverge => False
    end).
  { intros pool' p' Rf U. specialize (IH pool' (reachable_trans _ _ _ R Rf) Wp'). assert (K2 : Forall (post_known pool') ps) by (eapply Forall_impl; [|exact Kp']; intros q; apply post_known_extends, reachable_extends, Rf).
    specialize (IH K2 Hp'). destruct (price_loop (Some d) pool' ps) as [[p2 ps2]|q|]; cbn [bind]; [| |exact IH].
    - intros p0 a c [<-|I]; [apply U|apply IH, I].
    - destruct IH as [->|(p0 & a & c & I & X)]; [left; reflexivity|right]. exists p0, a, c. split; [right; exact I|exact X]. }
  destruct (po_cost p) as [c|] eqn:C; [|cbn [bind]; apply Rest; [constructor|congruence]].
  destruct (po_amount p) as [a|] eqn:A; [|elim Ap; [rewrite C; discriminate|exact A]].
  specialize (Wa a eq_refl). specialize (Wc c eq_refl). specialize (Ka a eq_refl). specialize (Kc c eq_refl).
  assert (Bad : forall q, cost_unusable a c -> (q = PArith \/ exists p0 a c, In p0 (p :: ps) /\ po_amount p0 = Some a /\ po_cost p0 = Some c /\ cost_unusable a c)).
  { intros q B. right. exists p, a, c. split; [left; reflexivity|]. auto. }
  destruct (comm_eqb_spec (a_c a) (a_c c)) as [E|N]; [cbn [bind]; apply Bad; left; exact E|]. cbn [unwrap bind].
  destruct (a_c a) as [s|] eqn:Es; [|unfold exchange; rewrite Es; cbn [unwrap bind]; apply Bad; right; left; exact Es].
  pose proof (reachable_wf _ R) as W. assert (X : ends (exchange pool a c false (mkDT d midnight))) by (apply exchange_ends; [exact W|rewrite Es; exact Ka|congruence]).
  destruct X as [[[bd np] X]|X]; rewrite X; cbn [bind]; [|left; reflexivity].
  destruct (exchange_inv _ _ _ _ _ _ _ W X) as (sym & uq & basis & _ & _ & U1 & U2 & En & _). cbn [orb] in U1, U2. destruct (price_zero a c uq Wa Wc U1 U2) as [Wu Z].
  rewrite Es in En. destruct (comm_eqb_spec (Some s) (a_c c)); [congruence|]. cbn [negb] in En. rewrite andb_true_r in En. subst np. destruct (d_is_zero uq) eqn:Zu; cbn [negb].
  - cbn [bind]. apply Rest; [constructor|]. intros a' c' [= <-] [= <-] [B|[B|[_ B]]]; [congruence|congruence|]. apply Z in B. discriminate.
  - destruct (a_c c) as [t|] eqn:Et.
    + destruct (Ka s eq_refl) as [m F]. destruct (Kc t eq_refl) as [m' F']. destruct (wp_comm _ W _ _ F) as [Esym _].
      assert (P : exists pool', pool_add_price pool (Some s) (mkDT d midnight) (mkAmt uq (Some t)) = Ok pool').
      { unfold pool_add_price. cbn [deref a_c]. rewrite F. cbn [bind]. rewrite Esym. destruct (comm_eqb_spec (Some s) (Some t)); [congruence|]. rewrite F'. cbn [bind]. eauto. }
      destruct P as [pool' P]. unfold pool_add_price_struct. cbn [pr_commodity pr_when pr_price]. rewrite P. cbn [bind]. apply Rest.
      * refine (rp_add_price pool pool _ _ _ pool' _ _ _ P); [apply rp_refl|split; [exact Vd|apply midnight_valid]|exact Wu].
      * intros a' c' [= <-] [= <-] [B|[B|[B _]]]; congruence.
    + assert (B : cost_unusable a c) by (right; right; split; [exact Et|apply Z; reflexivity]).
      unfold pool_add_price_struct, pool_add_price. cbn [pr_commodity pr_when pr_price deref a_c]. destruct (Ka s eq_refl) as [m F]. rewrite F. cbn [bind]. destruct (comm_eqb_spec (Some (c_symbol m)) None); [discriminate|]. cbn [bind]. apply Bad, B.
Qed.

(** ** Completion *)
Lemma summed_unique u l r : summed u l r -> forall r', summed u l r' -> r' = r.
Proof.
  induction 1 as [u|u v q l r N _ IH]; intros r' H'; inversion H' as [|? ? q' ? ? N' S']; subst; [reflexivity|]. apply IH.
  rewrite (nearest_unique (u + v) 1 q q'); [exact S'|discriminate|exact N|exact N'].
Qed.
Lemma entry_cons a b c : entry_of c (a :: b) = if comm_dec (a_c a) c then aunits a else entry_of c b.
Proof. unfold entry_of. rewrite in_comm_cons. destruct (comm_dec _ _); reflexivity. Qed.
Definition priced_in (ps : list post) (bal : balance) (x y : comm) : Prop :=
  exists x0 y0 top, bal = [x0; y0] /\ amt_is_zero x0 = false /\ amt_is_zero y0 = false /\ first_amount ps top
    /\ (x = a_c x0 /\ y = a_c y0 /\ a_c x0 = a_c top \/ x = a_c y0 /\ y = a_c x0 /\ a_c x0 <> a_c top).
Lemma amt_zero a : wf_amt a -> (amt_is_zero a = false <-> aunits a <> 0%Z).
Proof. intros W. pose proof (d_is_zero_units _ W). unfold amt_is_zero, aunits. destruct (d_is_zero (a_q a)); intuition congruence. Qed.
Lemma two_sums_iff ps bal x y : Forall wf_post ps -> fold_outcome bal_add (worths ps) [] = Ok bal -> two_sums ps x y <-> priced_in ps bal x y.
Proof.
  intros W H. destruct (fold_entries _ _ _ (Forall_nil _) (worths_wf _ W) H) as (Wb & M & S). destruct (M (NoDup_nil _)) as [Nd Mb]. cbn [map app] in Mb.
  assert (Su : forall c u, sum_in c ps u -> u = entry_of c bal) by (intros c u X; exact (summed_unique _ _ _ (S c) _ X)).
  assert (In0 : forall c, In c (map a_c (worths ps)) <-> In c (map a_c bal)) by (intros c; rewrite Mb; symmetry; apply firsts_in).
  split.
  - intros (N & I & (u & Hu & Nu) & (v & Hv & Nv) & top & Ft & T). apply Su in Hu, Hv.
    assert (L : exists x0 y0, bal = [x0; y0] /\ (a_c x0 = x /\ a_c y0 = y \/ a_c x0 = y /\ a_c y0 = x)).
    { destruct bal as [|x0 [|y0 [|z0 bal]]]; cbn [map] in *.
      - destruct (proj1 (In0 x) (proj2 (I x) (or_introl eq_refl))).
      - destruct (proj1 (In0 x) (proj2 (I x) (or_introl eq_refl))) as [<-|[]]. destruct (proj1 (In0 y) (proj2 (I y) (or_intror eq_refl))) as [E|[]]. congruence.
      - exists x0, y0. split; [reflexivity|]. inversion Nd as [|? ? N1 N2]; subst.
        assert (A : a_c x0 = x \/ a_c x0 = y) by (apply I, In0; left; reflexivity). assert (B : a_c y0 = x \/ a_c y0 = y) by (apply I, In0; right; left; reflexivity).
        cbn in N1. destruct A as [<-|<-], B as [B|B]; [elim N1; left; congruence|left; auto|right; auto|elim N1; left; congruence].
      - exfalso. inversion Nd as [|? ? N1 N2]; subst. inversion N2 as [|? ? N3 N4]; subst. cbn in N1, N3.
        assert (A : a_c x0 = x \/ a_c x0 = y) by (apply I, In0; left; reflexivity). assert (B : a_c y0 = x \/ a_c y0 = y) by (apply I, In0; right; left; reflexivity). assert (C : a_c z0 = x \/ a_c z0 = y) by (apply I, In0; right; right; left; reflexivity).
        assert (a_c x0 <> a_c y0 /\ a_c x0 <> a_c z0 /\ a_c y0 <> a_c z0) as (D1 & D2 & D3) by (repeat split; intros E; [apply N1|apply N1|apply N3]; auto). destruct A, B, C; congruence. }
    destruct L as (x0 & y0 & -> & [(E1 & E2)|(E1 & E2)]); inversion Wb as [|? ? W1 Wb']; subst; inversion Wb' as [|? ? W2 _]; subst; rewrite !entry_cons in Nu, Nv;
      repeat match type of Nu with context [comm_dec ?a ?b] => destruct (comm_dec a b); try congruence end; repeat match type of Nv with context [comm_dec ?a ?b] => destruct (comm_dec a b); try congruence end;
      exists x0, y0, top; rewrite !amt_zero by assumption; repeat split; try assumption.
    + left. repeat split. destruct T as [T|[_ (r & T)]]; [congruence|]. rewrite <- Mb in T. cbn in T. congruence.
    + right. repeat split. destruct T as [T|[T _]]; congruence.
  - intros (x0 & y0 & top & -> & Z1 & Z2 & Ft & T). inversion Wb as [|? ? W1 Wb']; subst; inversion Wb' as [|? ? W2 _]; subst. rewrite amt_zero in Z1, Z2 by assumption.
    cbn [map] in *. inversion Nd as [|? ? N1 N2]; subst. assert (N : a_c x0 <> a_c y0) by (intros E; apply N1; left; congruence).
    assert (S1 : exists u, sum_in (a_c x0) ps u /\ u <> 0%Z). { exists (entry_of (a_c x0) [x0; y0]). split; [apply (S (a_c x0))|]. rewrite entry_cons. destruct (comm_dec _ _); congruence. }
    assert (S2 : exists u, sum_in (a_c y0) ps u /\ u <> 0%Z). { exists (entry_of (a_c y0) [x0; y0]). split; [apply (S (a_c y0))|]. rewrite !entry_cons. destruct (comm_dec (a_c x0) _); [congruence|]. destruct (comm_dec _ _); congruence. }
    destruct T as [(-> & -> & T)|(-> & -> & T)].
    + split; [exact N|]. split; [intros c; rewrite In0; cbn; intuition congruence|]. split; [exact S1|]. split; [exact S2|]. exists top. split; [exact Ft|]. left. congruence.
    + split; [congruence|]. split; [intros c; rewrite In0; cbn; intuition congruence|]. split; [exact S2|]. split; [exact S1|]. exists top. split; [exact Ft|]. right. split; [congruence|]. exists [a_c y0]. congruence.
Qed.
Lemma priced_in_det ps bal x y x' y' : priced_in ps bal x y -> priced_in ps bal x' y' -> x' = x /\ y' = y.
Proof.
  intros (x0 & y0 & top & -> & _ & _ & F & T) (x1 & y1 & top' & [= <- <-] & _ & _ & F' & T'). rewrite (first_amount_det _ _ _ F' F) in T'.
  destruct T as [(-> & -> & T)|(-> & -> & T)], T' as [(-> & -> & T')|(-> & -> & T')]; auto; contradiction.
Qed.
Lemma sum_posts_diverges ps : forall i b np, sum_posts ps i b np <> Diverge.
Proof.
  induction ps as [|p ps IH]; intros i b np; cbn [sum_posts]; [discriminate|]. destruct (post_value p) as [a|].
  - destruct (bal_add_ends b a) as [[b' ->]| ->]; cbn [bind]; [apply IH|discriminate].
  - destruct np; [discriminate|apply IH].
Qed.
Lemma elided_not_complete ps l1 p l2 : one_elided ps l1 p l2 -> ~ complete ps.
Proof. intros (-> & V & _) C. unfold complete in C. apply Forall_app in C as [_ C]. inversion C; subst. congruence. Qed.
Lemma complete_two l1 p l2 q l3 : worth p = None -> ~ complete (l1 ++ p :: l2 ++ q :: l3).
Proof. intros V C. unfold complete in C. apply Forall_app in C as [_ C]. inversion C; subst. congruence. Qed.
Lemma elided_two l1 p l2 m1 u m2 v m3 : one_elided (m1 ++ u :: m2 ++ v :: m3) l1 p l2 -> worth u = None -> worth v = None -> False.
Proof.
  intros (E & V & C1 & C2) U1 U2. revert l1 E C1. induction m1 as [|z m1 IH]; intros [|y l1] E C1; cbn in E; injection E as -> E.
  - subst l2. unfold complete in C2. apply Forall_app in C2 as [_ C2]. inversion C2; subst. congruence.
  - inversion C1; subst. congruence.
  - subst l2. unfold complete in C2. apply Forall_app in C2 as [_ C2]. inversion C2; subst. congruence.
  - inversion C1; subst. eapply IH; eassumption.
Qed.
Lemma worth_in p ps a : In p ps -> worth p = Some a -> In a (worths ps).
Proof. intros I E. unfold worths. apply in_flat_map. exists p. rewrite E. split; [exact I|left; reflexivity]. Qed.
Lemma Forall2_in_l {A B} (P : A -> B -> Prop) l l' x : Forall2 P l l' -> In x l -> exists y, In y l' /\ P x y.
Proof. induction 1 as [|a b l l' H _ IH]; [intros []|]. intros [<-|I]; [exists b; split; [left; reflexivity|exact H]|]. destruct (IH I) as (y & J & Q). exists y. split; [right; exact J|exact Q]. Qed.
Lemma Forall2_in_r {A B} (P : A -> B -> Prop) l l' y : Forall2 P l l' -> In y l' -> exists x, In x l /\ P x y.
Proof. induction 1 as [|a b l l' H _ IH]; [intros []|]. intros [<-|I]; [exists a; split; [left; reflexivity|exact H]|]. destruct (IH I) as (x & J & Q). exists x. split; [right; exact J|exact Q]. Qed.
Lemma finalize_refused d pool ps : valid_date d -> reachable_pool pool -> Forall wf_post ps -> Forall (post_known pool) ps -> Forall has_amount ps ->
  match finalize_posts (Some d) pool ps with
  | Ok _ => ~ unfinishable ps
  | Panic q => q = PArith \/ unfinishable ps
  | Diverge => False
  end.
Proof.
  intros Vd R Wp Kp Hp. unfold finalize_posts. pose proof (sum_posts_diverges ps 0 bal_new None) as Nd. destruct (sum_posts ps 0 bal_new None) as [[bal np]|q|] eqn:S; [| |congruence].
  2:{ cbn [bind]. destruct (sum_posts_ends ps 0 bal_new None) as [[[v E]|E]|[[E _]|(l1 & p & l2 & p' & l3 & E & V1 & V2)]]; [rewrite S in E; discriminate|left; rewrite S in E; congruence|congruence|].
      right. eapply uf_two; eassumption. }
  cbn [bind]. apply sum_posts_inv in S as [Hb Hn]. destruct (Nat.eqb_spec (length ps) 1) as [L|L].
  { right. destruct ps as [|p [|q ps]]; try discriminate. eapply uf_single. reflexivity. }
  assert (Two := fun x y => two_sums_iff ps bal x y Wp Hb).
  destruct (fold_entries _ _ _ (Forall_nil _) (worths_wf _ Wp) Hb) as (Wb & M & _). destruct (M (NoDup_nil _)) as [Ndb Mb]. cbn [map app bal_new] in Mb. clear M.
  destruct Hn as [(-> & C)|(l1 & p & l2 & E & ->)].
  - assert (Am : Forall (fun p => po_amount p <> None) ps).
    { unfold complete in C. rewrite Forall_forall in C, Hp |- *. intros p I. specialize (C p I). specialize (Hp p I). unfold worth in C. unfold has_amount in Hp. destruct (po_cost p); [apply Hp; discriminate|exact C]. }
    destruct (infer_costs_ends ps bal Am) as [[[ps1 b1] I]|I]; rewrite I; cbn [bind]; [|left; reflexivity].
    apply infer_costs_inv in I as [(-> & -> & Z)|(x & y & x0 & y0 & top & r & -> & Z1 & Z2 & Ft & T & D & F)].
    + assert (Nt : forall x y, ~ two_sums ps x y).
      { intros x y H. apply Two in H as (x0 & y0 & top & -> & Z1 & Z2 & (m1 & q & m2 & -> & Aq & _) & _). specialize (Z x0 y0 eq_refl Z1 Z2). rewrite Forall_app in Z. destruct Z as [_ Z]. inversion Z; subst. congruence. }
      pose proof (price_loop_cases d ps Vd pool R Wp Kp Hp) as P. destruct (price_loop (Some d) pool ps) as [[pl ps2]|q|]; cbn [bind]; [| |exact P].
      * intros [p E|m1 u m2 v m3 E V1 V2|m1 u m2 a b E|p a c Ip A Cc B _|x y p a _ H]; [subst ps; apply L; reflexivity|subst ps; exact (complete_two _ _ _ _ _ V1 C)|eapply elided_not_complete; eassumption|eapply P; eassumption|eapply Nt; eassumption].
      * destruct P as [->|(p & a & c & Ip & A & Cc & B)]; [left; reflexivity|right]. eapply uf_cost; try eassumption. intros _ y. apply Nt.
    + assert (T0 : two_sums ps (a_c x) (a_c y)).
      { apply Two. exists x0, y0, top. repeat split; try assumption. destruct T as [(-> & -> & T)|(-> & -> & T)]; auto. }
      assert (Det : forall x' y', two_sums ps x' y' -> x' = a_c x /\ y' = a_c y).
      { intros x' y' H. apply Two in H. apply Two in T0. eapply priced_in_det; eassumption. }
      assert (Nxy : a_c x <> a_c y) by apply T0.
      assert (Kb : forall z, In z [x0; y0] -> known pool (a_c z)).
      { intros z Iz. eapply worths_comm; [exact Kp|]. apply firsts_in. rewrite <- Mb. apply in_map, Iz. }
      assert (Kxy : (known pool (a_c x) /\ known pool (a_c y)) /\ wf_amt x /\ wf_amt y).
      { inversion Wb as [|? ? W1 Wb']; subst. inversion Wb' as [|? ? W2 _]; subst. pose proof (Kb x0 (or_introl eq_refl)). pose proof (Kb y0 (or_intror (or_introl eq_refl))).
        destruct T as [(-> & -> & _)|(-> & -> & _)]; auto. }
      destruct Kxy as [[Kx Ky] [Wx Wy]]. pose proof (amt_div_wf _ _ _ Wy Wx D) as [_ Cr].
      assert (Kr : known pool (a_c r)) by (rewrite Cr; destruct (a_c y); [exact Ky|exact Kx]).
      assert (X : Forall wf_post ps1 /\ Forall (post_known pool) ps1 /\ Forall has_amount ps1).
      { clear -F Wp Kp Kr. induction F as [|p p' l l' (a & A & H1 & H2) _ IH]; [auto|]. inversion Wp as [|? ? [Wa Wc] Wp']; subst. inversion Kp as [|? ? [Ka Kc] Kp']; subst. destruct (IH Wp' Kp') as (G1 & G2 & G3).
        destruct (comm_dec (a_c a) (a_c x)) as [E|E].
        - destruct (H2 E) as (k & Mk & ->). apply amt_mul_wf in Mk as [Wk Ck]. split; [|split]; constructor; auto; [split|split|]; cbn.
          + intros z Hz. apply Wa, Hz.
          + intros z [= <-]. exact Wk.
          + intros z Hz. apply Ka, Hz.
          + intros z [= <-]. rewrite Ck. cbn [amt_abs a_c]. destruct (a_c r) as [s|] eqn:Er; [exact Kr|]. exact (Ka a A).
          + intros _. cbn. congruence.
        - rewrite (H1 E). split; [|split]; constructor; auto; [split; auto|split; auto|]. intros _. congruence. }
      destruct X as (W1 & K1 & H1). pose proof (price_loop_cases d ps1 Vd pool R W1 K1 H1) as P.
      assert (Kc : forall a k, a_c a = a_c x -> amt_mul (amt_abs r) a = Ok k -> a_c k = comm_or (a_c y) (a_c x)).
      { intros a k Ea Mk. apply amt_mul_wf in Mk as [_ ->]. cbn [amt_abs a_c]. rewrite Cr, Ea. destruct (a_c y), (a_c x); reflexivity. }
      destruct (price_loop (Some d) pool ps1) as [[pl ps2]|q|]; cbn [bind]; [| |exact P].
      * intros [p E|m1 u m2 v m3 E V1 V2|m1 u m2 a b E|p a c Ip A Cc B Nt|x' y' p a _ H Hn Ip A Ea]; [subst ps; apply L; reflexivity|subst ps; exact (complete_two _ _ _ _ _ V1 C)|eapply elided_not_complete; eassumption| |].
        -- destruct (Forall2_in_l _ _ _ _ F Ip) as (p' & Ip' & a' & A' & G1 & G2). rewrite A in A'. injection A' as <-.
           destruct (comm_dec (a_c a) (a_c x)) as [Ex|Ex]; [apply (Nt C (a_c y)); rewrite Ex; exact T0|]. rewrite (G1 Ex) in Ip'. eapply P; eassumption.
        -- destruct (Det _ _ H) as [-> ->]. destruct (Forall2_in_l _ _ _ _ F Ip) as (p' & Ip' & a' & A' & G1 & G2). rewrite A in A'. injection A' as <-.
           destruct (G2 Ea) as (k & Mk & ->). refine (P _ a k Ip' A eq_refl _). specialize (Kc _ _ Ea Mk). destruct Hn as [Hn|Hn].
           ++ right. left. congruence.
           ++ left. rewrite Kc, Hn. exact Ea.
      * destruct P as [->|(p' & a & c & Ip & A & Cc & B)]; [left; reflexivity|right]. destruct (Forall2_in_r _ _ _ _ F Ip) as (p & Ip' & a' & A' & G1 & G2).
        destruct (comm_dec (a_c a') (a_c x)) as [Ex|Ex].
        -- destruct (G2 Ex) as (k & Mk & ->). cbn in A, Cc. rewrite A' in A. injection A as <-. injection Cc as <-. specialize (Kc _ _ Ex Mk). eapply (uf_implied ps (a_c x) (a_c y)); try eassumption.
           unfold cost_unusable in B. rewrite Kc in B. destruct B as [B|[B|[B _]]].
           ++ destruct (a_c y) as [t|] eqn:Ey; [|right; reflexivity]. cbn in B. congruence.
           ++ left. congruence.
           ++ destruct (a_c y) as [t|] eqn:Ey; [|right; reflexivity]. discriminate.
        -- rewrite (G1 Ex) in *. rewrite A' in A. injection A as <-. eapply uf_cost; try eassumption. intros _ y' H. destruct (Det _ _ H). contradiction.
  - cbn [bind]. pose proof (price_loop_cases d ps Vd pool R Wp Kp Hp) as P. destruct (price_loop (Some d) pool ps) as [[pl ps2]|q|]; cbn [bind]; [| |exact P].
    + destruct bal as [|b [|b2 bal]].
      * right. exfalso. apply L. destruct E as (-> & V & C1 & C2).
        assert (W0 : worths (l1 ++ p :: l2) = []). { destruct (worths (l1 ++ p :: l2)) as [|w ws]; [reflexivity|]. cbn in Mb. discriminate. }
        assert (Z : forall q, In q l1 \/ In q l2 -> False).
        { intros q Iq. assert (Wq : worth q <> None) by (unfold complete in C1, C2; rewrite Forall_forall in C1, C2; destruct Iq; auto). destruct (worth q) as [w|] eqn:Ew; [|congruence].
          assert (I : In w (worths (l1 ++ p :: l2))) by (eapply worth_in; [|exact Ew]; rewrite in_app_iff; cbn; tauto). rewrite W0 in I. destruct I. }
        destruct l1 as [|q l1]; [|elim (Z q); left; left; reflexivity]. destruct l2 as [|q l2]; [|elim (Z q); right; left; reflexivity]. reflexivity.
      * intros [q Eq|m1 u m2 v m3 Eq V1 V2|m1 u m2 a c _ Ia Ic Nac|q a c Iq A Cc B _|x y q a Cq]; [subst ps; apply L; reflexivity|subst ps; exact (elided_two _ _ _ _ _ _ _ _ E V1 V2)| |eapply P; eassumption|eapply elided_not_complete; eassumption].
        apply (in_map a_c) in Ia, Ic. apply firsts_in in Ia, Ic. rewrite <- Mb in Ia, Ic. cbn in Ia, Ic. destruct Ia as [Ia|[]], Ic as [Ic|[]]. congruence.
      * right. cbn [map] in Mb, Ndb. assert (I1 : In (a_c b) (map a_c (worths ps))) by (apply firsts_in; rewrite <- Mb; left; reflexivity). assert (I2 : In (a_c b2) (map a_c (worths ps))) by (apply firsts_in; rewrite <- Mb; right; left; reflexivity).
        apply in_map_iff in I1 as (a & Ea & I1). apply in_map_iff in I2 as (c & Ec & I2). inversion Ndb as [|? ? N1 _]; subst. eapply (uf_rest ps l1 p l2 a c E I1 I2). intros X. apply N1. left. congruence.
    + destruct P as [->|(q' & a & c & Iq & A & Cc & B)]; [left; reflexivity|right]. eapply uf_cost; try eassumption. intros C. elim (elided_not_complete _ _ _ _ E C).
Qed.
