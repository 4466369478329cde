(** The prices that finishing a transaction, reading a posting and reading a price line leave behind. *)
From Coq Require Import String List NArith ZArith Bool Lia ZifyBool ZifyNat ZifyN.
From Verif Require Import Base BaseFacts Decimal Dates Amount Balance Scanner History Pool Account Journal Xact Parser.
From Verif Require Import SpecDecimal SpecAmount SpecDates SpecPool SpecText SpecReading SpecXact SpecJournal SpecFull SpecOutline SpecPriceLog.
From Verif Require ScanProofs.
From Verif Require Import DecimalFacts DatesFacts BalanceFacts PoolFacts PriceFacts PriceProofs ArithProofs XactFacts XactProofs JournalFacts.
Import ListNotations.
Open Scope nat_scope.

(** ** Finishing a transaction *)
Lemma finalize_records d pool posts pool' posts' :
  reachable_pool pool -> valid_date d -> Forall wf_post posts ->
  finalize_posts (Some d) pool posts = Ok (pool', posts') ->
  exists rs, price_records (mkDT d midnight) posts' rs /\ recorded_on pool rs pool'.
Proof.
  intros R Vd Wp H. apply reachable_wf in R as W.
  apply finalize_inv in H as (_ & bal & Hb & H).
  assert (G : exists rs, price_records (mkDT d midnight) posts' rs /\ valid_records rs /\ record_all pool rs = Ok pool').
  { destruct H as [(C & b1 & I & P)|(l1 & p & l2 & b & E & _ & P & ->)].
    - assert (Wp' : Forall wf_post posts').
      { apply infer_costs_inv in I as [(-> & _)|(x & y & x0 & y0 & top & r & -> & _ & _ & _ & Hxy & D & I)]; [exact Wp|].
        clear -Wp I. induction I as [|p p' l l' (a & A & H1 & H2) _ IH]; constructor; inversion Wp as [|? ? [Wa Wc] Wp']; subst; [|auto].
        destruct (comm_dec (a_c a) (a_c x)) as [E|E]; [|rewrite (H1 E); split; assumption].
        destruct (H2 E) as (k & M & ->). apply amt_mul_wf in M as [Wk _]. split; cbn; intros z Hz; [exact (Wa z Hz)|injection Hz as <-; exact Wk]. }
      eapply price_loop_records; eauto.
    - destruct (price_loop_records _ _ _ _ _ W Vd Wp P) as (rs & Rr & Vr & Ra). exists rs. split; [|auto].
      destruct E as (-> & V & _). apply price_records_fill; assumption. }
  destruct G as (rs & Rr & Vr & Ra). exists rs. split; [exact Rr|]. split; [apply (record_all_find _ _ _ Ra)|].
  apply (record_all_prices _ _ _ W Vr Ra).
Qed.
Lemma final_records j xi j' : inv (InXact xi) j -> finalize j xi = Ok j' ->
  exists x rs, nth_error (j_xacts j') xi = Some x /\ xact_records x rs /\ prices_after (j_pool j) rs (j_pool j').
Proof.
  intros [T P L Q (xs & (Lx & x & d & Ex & Dx & Vd) & F)] H. unfold finalize in H.
  assert (N : nth_error (j_xacts j) xi = Some x) by (rewrite Ex, <- Lx, nth_error_app2, Nat.sub_diag by lia; reflexivity).
  rewrite N, Dx in H. inv_bind H. destruct v as [pl ps]. injection H as <-. cbn [j_xacts j_pool].
  assert (Wx : Forall wf_post (x_posts x)).
  { apply Forall_forall. intros p Hp. rewrite Forall_forall in Q. apply Q. unfold all_posts. rewrite Ex. apply in_flat_map. exists x. split; [apply in_or_app; right; left; reflexivity|exact Hp]. }
  destruct (finalize_records _ _ _ _ _ P Vd Wx EQ) as (rs & Rr & _ & Ra).
  exists (set_posts x ps), rs. split; [apply (nth_update_same (fun x => set_posts x ps) _ _ _ N)|]. split; [|exact Ra]. exists d. split; [exact Dx|exact Rr].
Qed.

(** ** Reading a posting *)
Definition same_prices (p p' : pool) : Prop := forall s t w v, price_on p' s t w v <-> price_on p s t w v.
Lemma same_prices_trans p q r : same_prices p q -> same_prices q r -> same_prices p r.
Proof. intros A B s t w v. rewrite (B s t w v). apply A. Qed.
Lemma after_same p p' q rs : same_prices p p' -> prices_after p' rs q -> prices_after p rs q.
Proof. intros S A s t w v. rewrite (A s t w v), (S s t w v). reflexivity. Qed.
Lemma parse_post_prices j xi s j' : wf_pool (j_pool j) -> parse_post j xi s = Ok j' -> same_prices (j_pool j) (j_pool j').
Proof.
  unfold parse_post. intros W H. inv_bind H. rename v into tk. inv_bind H. destruct v as [m1 acct].
  unfold parse_amount_parts, annotation_parse in *.
  assert (foc : forall p s a, wf_pool p -> wf_annotation a -> wf_pool (fst (pool_find_or_create p s a)) /\ same_prices p (fst (pool_find_or_create p s a))).
  { intros p t a Wp Wa. split; [apply wf_foc; assumption|]. intros x y w v. apply foc_prices, Wp. }
  assert (Nn : wf_annotation None) by (intros x pr; discriminate).
  destruct (foc (j_pool j) (t_symbol tk) None W Nn) as [W1 S1]. destruct (pool_find_or_create (j_pool j) (t_symbol tk) None) as [p1 c1]. cbn [fst] in *.
  inv_bind H. destruct v as [p2 ann].
  destruct (foc p1 (t_price_commodity tk) None W1 Nn) as [W2 S2]. destruct (pool_find_or_create p1 (t_price_commodity tk) None) as [p2' c2]. cbn [fst] in *. inv_bind EQ1. injection EQ1 as -> <-.
  match type of H with context [pool_find_or_create p2 (t_symbol tk) (Some ?a)] =>
    assert (Wa : wf_annotation (Some a)) by (intros x pr [= <-] Hp; cbn in Hp; destruct (d_from_str _) as [q|] eqn:Eq in Hp; [|discriminate]; injection Hp as <-; apply d_from_str_sound in Eq; unfold wf_amt; cbn; tauto);
    destruct (foc p2 (t_symbol tk) (Some a) W2 Wa) as [W3 S3]; destruct (pool_find_or_create p2 (t_symbol tk) (Some a)) as [p3 c3] end. cbn [fst] in *.
  inv_bind H. destruct v0 as [p4 cost]. match goal with X : parse_cost _ _ _ = Ok _ |- _ => rename X into EQc end. destruct (nth_error _ _); [|discriminate]. inv_bind H. injection H as <-. cbn [j_pool].
  assert (S4 : same_prices p3 p4).
  { unfold parse_cost, parse_amount_parts in EQc. destruct (d_from_str (t_quantity tk)); cbn [option_map] in EQc; [|injection EQc as <- _; intros ? ? ? ?; reflexivity].
    destruct (is_empty (t_cost_quantity tk)); [injection EQc as <- _; intros ? ? ? ?; reflexivity|].
    destruct (foc p3 (t_cost_symbol tk) None W3 Nn) as [_ S4]. destruct (pool_find_or_create p3 (t_cost_symbol tk) None) as [p4' c4]. cbn [fst] in *.
    destruct (d_from_str (t_cost_quantity tk)); cbn [option_map] in EQc; [|injection EQc as <- _; exact S4].
    destruct (t_is_per_unit tk); [inv_bind EQc|]; injection EQc as <- _; exact S4. }
  exact (same_prices_trans _ _ _ S1 (same_prices_trans _ _ _ S2 (same_prices_trans _ _ _ S3 S4))).
Qed.

(** ** Reading a price line *)
Definition stops (r : str) : Prop := r = [] \/ exists c r', r = c :: r' /\ (c = 32%N \/ c = 9%N).
Lemma element_inv x e r : starts_ws x = false -> scan_price_element x = (e, r) -> x = e ++ r /\ stops r /\ (e <> [] -> element e).
Proof.
  intros S H. unfold scan_price_element in H. destruct (find_char _ x) as [i|] eqn:F.
  - injection H as <- <-. apply find_char_some in F as (c & t & _ & Pc & _ & Fa & Sk). split; [symmetry; apply firstn_skipn|]. split.
    + right. exists c, t. split; [exact Sk|]. apply orb_prop in Pc as [Pc|Pc]; apply N.eqb_eq in Pc; auto.
    + intros Ne. split.
      * destruct x as [|d x]; [destruct i; elim Ne; reflexivity|]. destruct i as [|i]; [elim Ne; reflexivity|]. cbn [firstn]. cbn in S. eauto.
      * apply Forall_forall. intros d Hd. rewrite forallb_forall in Fa. apply Fa in Hd. apply negb_true_iff, orb_false_iff in Hd as [A B].
        apply N.eqb_neq in A, B. auto.
  - injection H as <- <-. apply find_char_none in F. split; [symmetry; apply app_nil_r|]. split; [left; reflexivity|]. intros Ne. split.
    + destruct x as [|d x]; [elim Ne; reflexivity|]. cbn in S. eauto.
    + apply Forall_forall. intros d Hd. rewrite forallb_forall in F. apply F in Hd. apply negb_true_iff, orb_false_iff in Hd as [A B]. apply N.eqb_neq in A, B. auto.
Qed.
Lemma element_at e r : element e -> stops r -> starts_ws (e ++ r) = false /\ scan_price_element (e ++ r) = (e, r).
Proof.
  intros [(c & x & -> & C) F] S. split; [exact C|]. unfold scan_price_element.
  assert (A : forallb (fun c => negb ((c =? 32) || (c =? 9))%N) (c :: x) = true).
  { apply forallb_forall. intros d Hd. rewrite Forall_forall in F. destruct (F d Hd) as [P Q]. apply negb_true_iff, orb_false_iff. split; apply N.eqb_neq; assumption. }
  destruct S as [->|(d & r' & -> & D)].
  - rewrite app_nil_r. apply find_char_none in A. rewrite A. reflexivity.
  - rewrite (find_char_here _ (c :: x) d r' A) by (destruct D as [->| ->]; reflexivity). rewrite firstn_app_exact, skipn_app_exact. reflexivity.
Qed.
Lemma gap_stops w r : gap w -> stops (w ++ r).
Proof. intros [_ (c & x & -> & C)]. right. exists c, (x ++ r). auto. Qed.
(** What follows an element and is not empty starts after a gap. *)
Lemma stops_gap r : stops r -> trim_start r <> [] -> exists w, r = w ++ trim_start r /\ gap w.
Proof.
  intros S N. destruct (trim_start_spec r) as (w & E & W & H). exists w. split; [exact E|]. split; [exact W|].
  destruct S as [->|(c & x & -> & C)]; [elim N; reflexivity|]. destruct w as [|d w].
  - cbn [app] in E. rewrite <- E in H. destruct C as [->| ->]; discriminate.
  - cbn [app] in E. injection E as <- _. eauto.
Qed.
Lemma trim_not_ws x : starts_ws (trim_start x) = false.
Proof. destruct (trim_start_spec x) as (w & _ & _ & H). exact H. Qed.
Lemma nonempty_element e : element e -> e <> [].
Proof. intros [(c & r & -> & _) _]. discriminate. Qed.
Lemma starts_digit_of e r : element e -> match e ++ r with c :: _ => is_digit c | [] => false end = starts_digit e.
Proof. intros [(c & x & -> & _) _]. reflexivity. Qed.
Lemma scan_said l c w1 date w2 clock s w4 q w5 t rest :
  (c < 128)%N -> l = c :: w1 ++ date ++ w2 ++ clock ++ s ++ w4 ++ q ++ w5 ++ t ++ rest ->
  spaces w1 -> gap w2 -> gap w4 -> gap w5 -> element date -> element s -> element q -> element t -> stops rest ->
  forall time w3, (clock = [] /\ time = [] /\ starts_digit s = false \/ clock = time ++ w3 /\ element time /\ starts_digit time = true /\ gap w3) ->
  scan_price_directive l = Ok (date, time, s, q, t).
Proof.
  intros C -> W1 G2 G4 G5 Ed Es Eq Et St time w3 Hc. unfold scan_price_directive. cbn [drop_bytes]. unfold utf8_len.
  destruct (N.ltb_spec c 128) as [_|]; [|lia]. cbn [Nat.leb Nat.sub bind]. rewrite ScanProofs.drop_bytes_0. cbn [bind].
  assert (step : forall e r, element e -> stops r -> trim_start (e ++ r) = e ++ r /\ scan_price_element (e ++ r) = (e, r)).
  { intros e r E S. destruct (element_at e r E S) as [A B]. split; [apply trim_start_id, A|exact B]. }
  assert (tg : forall w e r, gap w -> element e -> stops r -> trim_start (w ++ e ++ r) = e ++ r).
  { intros w e r [W _] E S. rewrite trim_start_app by exact W. apply step; assumption. }
  rewrite trim_start_app by exact W1. destruct (step date (w2 ++ clock ++ s ++ w4 ++ q ++ w5 ++ t ++ rest) Ed (gap_stops _ _ G2)) as [-> ->].
  cbv zeta.
  assert (Ss : scan_price_element (s ++ w4 ++ q ++ w5 ++ t ++ rest) = (s, w4 ++ q ++ w5 ++ t ++ rest) /\ trim_start (s ++ w4 ++ q ++ w5 ++ t ++ rest) = s ++ w4 ++ q ++ w5 ++ t ++ rest)
    by (destruct (step s (w4 ++ q ++ w5 ++ t ++ rest) Es (gap_stops _ _ G4)); auto).
  assert (Sq : scan_price_element (trim_start (w4 ++ q ++ w5 ++ t ++ rest)) = (q, w5 ++ t ++ rest)).
  { rewrite tg by (try assumption; apply gap_stops, G5). apply step; [assumption|apply gap_stops, G5]. }
  assert (S5 : scan_price_element (trim_start (w5 ++ t ++ rest)) = (t, rest)) by (rewrite tg by assumption; apply step; assumption).
  destruct Hc as [(-> & -> & Dn)|(-> & Ei & Di & G3)].
  - cbn [app]. rewrite tg by (try assumption; apply gap_stops, G4).
    pose proof (starts_digit_of s (w4 ++ q ++ w5 ++ t ++ rest) Es) as D. destruct (s ++ w4 ++ q ++ w5 ++ t ++ rest) as [|k u] eqn:E.
    { destruct Es as [(? & ? & -> & _) _]. discriminate. }
    rewrite D, Dn. destruct Ss as [Ss1 Ss2]. rewrite Ss2, Ss1, Sq, S5. reflexivity.
  - rewrite <- !app_assoc. rewrite tg by (try assumption; apply gap_stops, G3).
    pose proof (starts_digit_of time (w3 ++ s ++ w4 ++ q ++ w5 ++ t ++ rest) Ei) as D.
    destruct (step time (w3 ++ s ++ w4 ++ q ++ w5 ++ t ++ rest) Ei (gap_stops _ _ G3)) as [_ St1].
    destruct (time ++ w3 ++ s ++ w4 ++ q ++ w5 ++ t ++ rest) as [|k u] eqn:E.
    { destruct Ei as [(? & ? & -> & _) _]. discriminate. }
    rewrite D, Di, St1. destruct Ss as [Ss1 Ss2]. rewrite tg by (try assumption; apply gap_stops, G4). rewrite Ss1, Sq, S5. reflexivity.
Qed.
Lemma scan_inv l date time s q t : scan_price_directive l = Ok (date, time, s, q, t) -> date <> [] -> s <> [] -> q <> [] -> t <> [] ->
  exists c w1 w2 clock w4 w5 rest w3, (c < 128)%N /\ l = c :: w1 ++ date ++ w2 ++ clock ++ s ++ w4 ++ q ++ w5 ++ t ++ rest
    /\ spaces w1 /\ gap w2 /\ gap w4 /\ gap w5 /\ element date /\ element s /\ element q /\ element t /\ stops rest
    /\ (clock = [] /\ time = [] /\ starts_digit s = false \/ clock = time ++ w3 /\ element time /\ starts_digit time = true /\ gap w3).
Proof.
  unfold scan_price_directive. intros H Nd Ns Nq Nt. destruct l as [|c l]; [discriminate|]. cbn [drop_bytes] in H. 
  assert (C : (c < 128)%N /\ (if utf8_len c <=? 1 then drop_bytes (1 - utf8_len c) l else Panic PSlice) = Ok l).
  { unfold utf8_len in *. destruct (N.ltb_spec c 128); [split; [assumption|]; cbn; apply ScanProofs.drop_bytes_0|].
    destruct (c <? 2048)%N; [discriminate|]. destruct (c <? 65536)%N; discriminate. }
  destruct C as [C E]. rewrite E in H. cbn [bind] in H. clear E.
  destruct (trim_start_spec l) as (w1 & E1 & W1 & S1). destruct (scan_price_element (trim_start l)) as [d0 r0] eqn:X0.
  destruct (element_inv _ _ _ S1 X0) as (E0 & St0 & El0).
  destruct (trim_start r0) as [|k u] eqn:Tr; [discriminate|]. destruct (stops_gap r0 St0) as (w2 & Er0 & G2); [congruence|].
  assert (Sk : starts_ws (k :: u) = false) by (rewrite <- Tr; apply trim_not_ws).
  match type of H with context [if is_digit k then ?x else ?y] => destruct (if is_digit k then x else y) as [tm r1] eqn:X1 end.
  destruct (scan_price_element (trim_start r1)) as [s0 r2] eqn:X2. destruct (scan_price_element (trim_start r2)) as [q0 r3] eqn:X3.
  destruct (scan_price_element (trim_start r3)) as [t0 r4] eqn:X4. injection H as -> -> -> -> ->.
  destruct (element_inv _ _ _ (trim_not_ws _) X2) as (E2 & St2 & El2). destruct (element_inv _ _ _ (trim_not_ws _) X3) as (E3 & St3 & El3).
  destruct (element_inv _ _ _ (trim_not_ws _) X4) as (E4 & St4 & El4).
  destruct (stops_gap r2 St2) as (w4 & Er2 & G4); [rewrite E3; destruct q; [elim Nq; reflexivity|discriminate]|].
  destruct (stops_gap r3 St3) as (w5 & Er3 & G5); [rewrite E4; destruct t; [elim Nt; reflexivity|discriminate]|].
  assert (B : exists clock w3, k :: u = clock ++ s ++ r2 /\ (clock = [] /\ time = [] /\ starts_digit s = false \/ clock = time ++ w3 /\ element time /\ starts_digit time = true /\ gap w3)).
  { destruct (is_digit k) eqn:Dk.
    - destruct (element_inv _ _ _ Sk X1) as (E5 & St5 & El5).
      destruct (stops_gap r1 St5) as (w3 & Er1 & G3); [rewrite E2; destruct s; [elim Ns; reflexivity|discriminate]|].
      assert (Ne : time <> []).
      { intros ->. cbn [app] in E5. destruct St5 as [->|(e & x & -> & D)]; [discriminate|]. injection E5 as -> _. destruct D as [->| ->]; discriminate. }
      exists (time ++ w3), w3. split; [rewrite E5, Er1 at 1; rewrite E2, !app_assoc; reflexivity|]. right. split; [reflexivity|]. split; [auto|]. split; [|exact G3].
      destruct time as [|e x]; [elim Ne; reflexivity|]. injection E5 as <- _. exact Dk.
    - injection X1 as <- <-. exists [], []. rewrite trim_start_id in E2 by exact Sk. split; [exact E2|]. left. split; [reflexivity|]. split; [reflexivity|].
      destruct s as [|e x]; [elim Ns; reflexivity|]. injection E2 as -> _. exact Dk. }
  destruct B as (clock & w3 & Eb & B). exists c, w1, w2, clock, w4, w5, r4, w3. split; [exact C|]. split.
  - f_equal. rewrite E1 at 1. rewrite E0. rewrite Er0 at 1. rewrite Tr, Eb. rewrite Er2 at 1. rewrite E3. rewrite Er3 at 1. rewrite E4. reflexivity.
  - auto 20.
Qed.
Lemma find_foc p s a x : pool_find (fst (pool_find_or_create p s a)) x <> None <-> pool_find p x <> None \/ (x = s /\ s <> []).
Proof.
  split.
  - rewrite PoolFacts.foc_cases. destruct s as [|k s]; cbn [is_empty fst]; [auto|]. destruct (pool_find p (k :: s)) as [d|] eqn:F.
    + destruct a as [y|]; [destruct (lookup (k :: s) (p_ann p))|]; auto.
    + rewrite PoolFacts.create_find by exact F. destruct (str_eqb x (k :: s)) eqn:E; [|auto]. apply str_eqb_eq in E. intros _. right. split; [exact E|discriminate].
  - intros [H|[-> H]].
    + destruct (pool_find p x) as [c|] eqn:F; [|congruence]. rewrite (PoolFacts.foc_extends p s a x c F). discriminate.
    + destruct (PoolFacts.foc_finds p s a H) as (c & ->). discriminate.
Qed.
Lemma directive_said p l p' : wf_pool p -> parse_price_directive p l = Ok p' ->
  exists r, price_said l r /\ prices_after p [r] p'
    /\ forall s, pool_find p' s <> None <-> pool_find p s <> None \/ s = fst (fst (fst r)) \/ s = snd (fst (fst r)).
Proof.
  unfold parse_price_directive. intros W H. inv_bind H. destruct v as [[[[dt tm] s] q] t]. rename EQ into Sc.
  inv_bind H. apply unwrap_ok in EQ. rename v into d. inv_bind H. rename v into tm', EQ0 into Et.
  pose proof (foc_comm p s None) as C1. pose proof (wf_foc p s None W) as W1. pose proof (foc_prices p s None) as P1. pose proof (find_foc p s None) as K1.
  destruct (pool_find_or_create p s None) as [p1 c1]. cbn [fst snd] in *.
  inv_bind H. apply unwrap_ok in EQ0. rename v into v.
  assert (Nn : wf_annotation None) by (intros x pr; discriminate). specialize (W1 Nn).
  pose proof (foc_comm p1 t None) as C2. pose proof (wf_foc p1 t None W1 Nn) as W2. pose proof (foc_prices p1 t None) as P2. pose proof (find_foc p1 t None) as K2.
  destruct (pool_find_or_create p1 t None) as [p2 c2]. cbn [fst snd] in *. subst c1 c2.
  assert (A := H). apply add_price_inv in A as (s' & t' & cs & ct & Cs & Ct & F1 & F2 & N & Ep). cbn [a_c a_q] in *.
  assert (Ns : s <> []) by (intros ->; discriminate). assert (Nt : t <> []) by (intros ->; discriminate).
  assert (s' = s) by (destruct s; [discriminate|]; cbn in Cs; congruence). assert (t' = t) by (destruct t; [discriminate|]; cbn in Ct; congruence). subst s' t'.
  assert (Nd : dt <> []) by (intros ->; discriminate). assert (Nq : q <> []) by (intros ->; discriminate).
  assert (Hc : c_symbol cs = s) by (apply (wp_comm _ W2 _ _ F1)).
  assert (Vt : valid_time tm' /\ (tm = [] /\ tm' = midnight \/ tm <> [] /\ denotes_time tm tm')).
  { destruct tm as [|k u]; cbn [is_empty] in Et; [injection Et as <-; split; [apply midnight_valid|auto]|]. apply unwrap_ok in Et. split; [eapply parse_time_valid; eassumption|].
    right. split; [discriminate|]. apply parse_time_iff, Et. }
  destruct Vt as [Vt Ht].
  assert (V : valid_dt (mkDT d tm')) by (split; [eapply parse_date_valid; eassumption|exact Vt]).
  exists (s, t, mkDT d tm', v). split; [|split].
  - destruct (scan_inv _ _ _ _ _ _ Sc Nd Ns Nq Nt) as (c & w1 & w2 & clock & w4 & w5 & rest & w3 & C & El & S1 & G2 & G4 & G5 & Ed & Es & Eq & Et' & St & B).
    exists c, w1, dt, w2, clock, s, w4, q, w5, t, rest, d, tm', v. split; [exact C|]. split; [exact El|]. split; [exact S1|].
    do 3 (split; [assumption|]). do 4 (split; [assumption|]). split; [exact St|]. split; [apply parse_date_iff, EQ|]. split; [|split; [|split; [congruence|reflexivity]]].
    + destruct B as [(-> & -> & Dn)|(-> & Ei & Di & G3)].
      * left. destruct Ht as [[_ ->]|[X _]]; [auto|elim X; reflexivity].
      * right. exists tm, w3. destruct Ht as [[-> _]|[_ X]]; [discriminate|auto].
    + apply read_exactly, EQ0.
  - assert (S2 : same_prices p p2) by (intros x y w u; rewrite (P2 x y w u W1), (P1 x y w u W); reflexivity).
    apply (after_same _ _ _ _ S2). intros x y w u. rewrite (add_price_effect _ _ _ _ _ W2 V H x y w u). cbn [a_c a_q records_for flat_map]. rewrite app_nil_r.
    assert (Cs' : comm_of s = Some s) by (destruct s; [elim Ns; reflexivity|reflexivity]). assert (Ct' : comm_of t = Some t) by (destruct t; [elim Nt; reflexivity|reflexivity]).
    rewrite Cs', Ct'. destruct (comm_dec (Some x) (Some s)) as [E|E]; [injection E as ->|].
    2:{ destruct (comm_dec (Some s) (Some x)); [congruence|]. split; [intros Hp; right; split; [exact Hp|constructor]|intros [([|? ?] & r2 & E' & _)|[Hp _]]; [discriminate|discriminate|exact Hp]]. }
    destruct (comm_dec (Some s) (Some s)) as [_|X]; [|elim X; reflexivity].
    destruct (comm_dec (Some y) (Some t)) as [E|E]; [injection E as ->|].
    2:{ destruct (comm_dec (Some t) (Some y)); [congruence|]. split; [intros Hp; right; split; [exact Hp|constructor]|intros [([|? ?] & r2 & E' & _)|[Hp _]]; [discriminate|discriminate|exact Hp]]. }
    destruct (comm_dec (Some t) (Some t)) as [_|X]; [|elim X; reflexivity]. split.
    + intros [[-> ->]|[Hw Hp]]; [left; exists [], []; auto|right; split; [exact Hp|constructor; [cbn; congruence|constructor]]].
    + intros [([|? [|? ?]] & r2 & E' & _)|[Hp F]]; [injection E' as <- <- <-; auto|discriminate|discriminate|].
      right. inversion F; subst. cbn in *. split; [congruence|exact Hp].
  - intros x. cbn [fst snd]. rewrite Ep. unfold pool_find at 1. cbn [p_comms]. fold (pool_find p2 x). rewrite (K2 x), (K1 x). split; intros; intuition (subst; auto).
Qed.
