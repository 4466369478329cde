(** Invariants of journals under parsing. *)
From Coq Require Import String List NArith ZArith Bool Lia Sorted ZifyBool ZifyNat ZifyN.
From Verif Require Import Base BaseFacts Decimal Dates Amount Balance Scanner History Pool Account Journal Xact Parser.
From Verif Require Import SpecDecimal SpecAmount SpecDates SpecPool SpecAccount SpecXact SpecJournal.
From Verif Require Import DecimalFacts DatesFacts BalanceFacts PoolFacts AccountFacts AccountProofs PriceFacts PriceProofs XactFacts XactProofs.
Import ListNotations.
Open Scope nat_scope.

(** ** A property that every step of the parser preserves holds after parsing *)
Section Preserve.
  Variable I : mode -> journal -> Prop.
  Hypothesis Hcreate : forall j c r j', I Top j -> is_digit c = true ->
    create_xact j (c :: r) = Ok j' -> I (InXact (length (j_xacts j))) j'.
  Hypothesis Hpost : forall j xi s j', I (InXact xi) j -> parse_post j xi s = Ok j' -> I (InXact xi) j'.
  Hypothesis Hnote : forall j xi s j', I (InXact xi) j -> parse_trailing_note j xi s = Ok j' -> I (InXact xi) j'.
  Hypothesis Hfinal : forall j xi j', I (InXact xi) j -> finalize j xi = Ok j' -> I Top j'.
  Hypothesis Hprice : forall j line p, I Top j -> parse_price_directive (j_pool j) line = Ok p -> I Top (set_pool j p).

  Definition keeps (inc : str -> journal -> outcome journal) : Prop :=
    forall arg j j', I Top j -> inc arg j = Ok j' -> I Top j'.

  Lemma general_preserves inc j line j' :
    keeps inc -> I Top j -> general_directive inc j line = Ok j' -> I Top j'.
  Proof.
    intros K HI H. unfold general_directive in H. destruct (take_word line) as [dir rest].
    destruct dir as [|c dir]; [discriminate|].
    assert (G : (if str_eqb (c :: dir) (lit "include") then
        match fst (take_word rest) with [] => Panic PUnwrap | argument => inc argument j end
      else if str_eqb (c :: dir) (lit "import") then Panic PTodo
      else let* p := parse_price_directive (j_pool j) line in Ok (set_pool j p)) = Ok j' -> I Top j').
    { destruct (str_eqb (c :: dir) (lit "include")).
      - destruct (fst (take_word rest)) as [|a l]; [discriminate|]. apply K, HI.
      - destruct (str_eqb (c :: dir) (lit "import")); [discriminate|]. intros E. inv_bind E. injection E as <-. eauto. }
    destruct c as [|p]; try discriminate. do 7 (destruct p as [p|p|]; try discriminate H); exact (G H).
  Qed.

  Definition inv_next (n : next) : Prop :=
    match n with Continue m j => I m j | Stop j => I Top j end.

  Lemma xact_line_preserves j xi line n :
    I (InXact xi) j -> xact_line j xi line = Ok n -> inv_next n.
  Proof.
    intros HI H. unfold xact_line in H.
    assert (F : forall n, (let* j' := finalize j xi in Ok (Continue Top j')) = Ok n -> inv_next n).
    { intros n0 E. inv_bind E. injection E as <-. cbn. eauto. }
    destruct line as [|c line]; [discriminate|].
    assert (P : forall s n, (let* j' := parse_post j xi s in Ok (Continue (InXact xi) j')) = Ok n -> inv_next n).
    { intros s n0 E. inv_bind E. injection E as <-. cbn. eauto. }
    assert (S : (match trim_start (c :: line) with
      | [] => let* j' := finalize j xi in Ok (Continue Top j')
      | 59%N :: r => let* j' := parse_trailing_note j xi (59%N :: r) in
                     Ok (Continue (InXact xi) j')
      | input => let* j' := parse_post j xi input in Ok (Continue (InXact xi) j')
      end) = Ok n -> inv_next n).
    { destruct (trim_start (c :: line)) as [|d r]; [apply F|].
      assert (N : (let* j' := parse_trailing_note j xi (59%N :: r) in Ok (Continue (InXact xi) j')) = Ok n -> inv_next n).
      { intros E. inv_bind E. injection E as <-. cbn. eauto. }
      destruct d as [|p]; [apply P|]. do 6 (destruct p as [p|p|]; try apply P). exact N. }
    destruct c as [|p]; [discriminate|].
    do 6 (destruct p as [p|p|]; try discriminate H; try (exact (F _ H)); try (exact (S H))).
  Qed.

  Lemma top_line_preserves inc j line n :
    keeps inc -> I Top j -> top_line inc j line = Ok n -> inv_next n.
  Proof.
    intros K HI H. unfold top_line in H. destruct (_ || _); [injection H as <-; exact HI|].
    destruct line as [|c r]; [discriminate|].
    destruct (_ || _); [injection H as <-; exact HI|].
    destruct (c =? 45)%N; [injection H as <-; exact HI|].
    destruct (is_digit c) eqn:D.
    - inv_bind H. injection H as <-. cbn. eauto.
    - destruct (_ || _); [discriminate|]. inv_bind H. injection H as <-. cbn. eapply general_preserves; eauto.
  Qed.

  Lemma step_preserves inc m j line n :
    keeps inc -> I m j -> step inc m j line = Ok n -> inv_next n.
  Proof.
    intros K HI H. destruct m as [|xi], line as [l|]; cbn [step] in H.
    - eapply top_line_preserves; eauto.
    - injection H as <-. exact HI.
    - eapply xact_line_preserves; eauto.
    - inv_bind H. injection H as <-. cbn. eauto.
  Qed.

  Lemma lines_preserve inc lines : keeps inc -> forall m j j',
    I m j -> parse_lines inc m j lines = Ok j' -> I Top j'.
  Proof.
    intros K. induction lines as [|l lines IH]; intros m j j' HI H; cbn [parse_lines] in H.
    - destruct m; [injection H as <-; exact HI|eauto].
    - inv_bind H. apply step_preserves in EQ; auto. destruct v as [m' j1|j1]; cbn in EQ.
      + eapply IH; eauto.
      + injection H as <-. exact EQ.
  Qed.

  Lemma include_preserves depth cwd fs : keeps (include_file depth cwd fs).
  Proof.
    induction depth as [|d IH]; intros arg j j' HI H; cbn [include_file] in H; [discriminate|].
    inv_bind H. destruct v as [src|]; [|injection H as <-; exact HI].
    eapply lines_preserve; eauto.
  Qed.

  Lemma read_preserves depth cwd fs src j j' :
    I Top j -> read_into_journal depth cwd fs src j = Ok j' -> I Top j'.
  Proof. intros HI H. eapply lines_preserve; [apply include_preserves|exact HI|exact H]. Qed.
End Preserve.

(** ** The steps *)
Lemma create_xact_inv j c r j' :
  is_digit c = true -> create_xact j (c :: r) = Ok j' ->
  exists x d, j' = set_xacts j (j_xacts j ++ [x]) /\ x_posts x = [] /\ x_date x = Some d /\ valid_date d.
Proof.
  intros D H. unfold create_xact in H. inv_bind H. destruct v as [[[td ta] tp] tn].
  assert (N : is_empty td = false).
  { unfold tokenize_xact_header in EQ. destruct (scan_date (c :: r)) as [d0 r0] eqn:E.
    destruct (tokenize_aux_date r0). destruct (tokenize_payee _). inv_bind EQ. injection EQ as <- _ _ _.
    unfold scan_date in E. cbn [find_char] in E.
    assert (Q : (c =? 61)%N || (c =? 32)%N = false).
    { unfold is_digit in D. apply orb_false_iff. split; apply N.eqb_neq; lia. }
    rewrite Q in E.
    destruct (find_char _ r); cbn [option_map] in E; injection E as <- _; reflexivity. }
  inv_bind H. injection H as <-. unfold xact_create in EQ0. rewrite N in EQ0. inv_bind EQ0. inv_bind EQ1. inv_bind EQ0.
  injection EQ1 as <-. injection EQ0 as <-. eexists. eexists. split; [reflexivity|]. cbn. split; [reflexivity|]. split; [reflexivity|].
  unfold parse_date in EQ2. apply unwrap_ok in EQ2. apply parse_date_valid in EQ2. exact EQ2.
Qed.

(** ** What pools keep *)
Lemma keeps_refl p : pool_keeps p p.
Proof. split; [apply extends_refl|]. split; [auto|]. eauto. Qed.
Lemma keeps_trans p q r : pool_keeps p q -> pool_keeps q r -> pool_keeps p r.
Proof.
  intros (A1 & A2 & A3) (B1 & B2 & B3). split; [eapply extends_trans; eauto|]. split; [auto|].
  intros s t w v H. destruct (A3 _ _ _ _ H) as (v1 & H1). eauto.
Qed.
Lemma same_edges_prices p p' :
  pool_extends p p' -> g_edges (p_hist p') = g_edges (p_hist p) ->
  forall s t w v, price_on p s t w v -> exists v', price_on p' s t w v'.
Proof.
  intros E Eq s t w v (a & b & A & B & H). exists v, a, b. unfold index_of in *.
  destruct (pool_find p s) as [cs|] eqn:Fs; [|discriminate]. destruct (pool_find p t) as [ct|] eqn:Ft; [|discriminate].
  rewrite (E _ _ Fs), (E _ _ Ft). split; [exact A|]. split; [exact B|]. unfold points in *. rewrite Eq. exact H.
Qed.
Lemma create_keeps p s a : wf_pool p -> pool_find p s = None -> pool_keeps p (pool_create p s a).
Proof.
  intros W F. split; [apply create_extends, F|]. split.
  - intros x b H. unfold pool_create. destruct (add_commodity _ _). cbn [p_ann]. destruct a as [y|]; [|exact H].
    rewrite lookup_insert. destruct (str_eqb x s) eqn:E; [|exact H]. apply str_eqb_eq in E. subst x.
    destruct (wp_ann _ W _ _ H) as [[c Hc] _]. congruence.
  - apply same_edges_prices; [apply create_extends, F|]. reflexivity.
Qed.
Lemma foc_keeps p s a : wf_pool p -> pool_keeps p (fst (pool_find_or_create p s a)).
Proof.
  intros W. split; [apply foc_extends|]. split.
  - intros x b H. rewrite foc_cases. destruct (is_empty s); [exact H|]. cbn [fst].
    destruct (pool_find p s) as [c|] eqn:F; [|apply (create_keeps p s a W F), H].
    destruct a as [y|]; [|exact H]. destruct (lookup s (p_ann p)) eqn:L; [exact H|]. cbn [p_ann].
    rewrite lookup_insert. destruct (str_eqb x s) eqn:E; [|exact H]. apply str_eqb_eq in E. congruence.
  - apply same_edges_prices; [apply foc_extends|]. apply foc_edges.
Qed.
Lemma add_price_keeps p c w x p' : wf_pool p -> valid_dt w -> pool_add_price p c w x = Ok p' -> pool_keeps p p'.
Proof.
  intros W V H. split; [eapply add_price_extends; eauto|]. pose proof (add_price_effect _ _ _ _ _ W V H) as E. split.
  - intros s a L. apply add_price_inv in H as (s0 & t0 & cs & ct & _ & _ & _ & _ & _ & ->). exact L.
  - intros s t w' v' P.
    assert (D : {w' = w} + {w' <> w}) by (repeat decide equality).
    assert (E1 := E s t w' v'). assert (E2 := E s t w' (a_q x)).
    destruct (comm_dec (Some s) c); [|exists v'; apply E1, P].
    destruct (comm_dec (Some t) (a_c x)); [|exists v'; apply E1, P].
    destruct D as [D|D]; [exists (a_q x); apply E2; auto|exists v'; apply E1; auto].
Qed.
Lemma directive_keeps p line p' : wf_pool p -> parse_price_directive p line = Ok p' -> pool_keeps p p'.
Proof.
  intros W H. apply directive_inv in H as (td & tt & tc & tq & tp & d & t & q & _ & D & T & Q & H).
  assert (W1 := wf_foc p tc None W ltac:(intros ? ?; discriminate)).
  assert (W2 := wf_foc _ tp None W1 ltac:(intros ? ?; discriminate)).
  eapply keeps_trans; [apply (foc_keeps p tc None W)|]. eapply keeps_trans; [apply (foc_keeps _ tp None W1)|].
  eapply add_price_keeps; [exact W2| |exact H].
  split; [eapply parse_date_valid; eauto|]. destruct (is_empty tt); [subst; apply midnight_valid|].
  eapply parse_time_valid; eauto.
Qed.
Lemma reachable_keeps p0 p : wf_pool p0 -> reachable_from p0 p -> pool_keeps p0 p.
Proof.
  intros W R. assert (K : pool_keeps p0 p /\ wf_pool p).
  { induction R as [|p s a R [IH Wp] F Wa|p s a R [IH Wp] Wa|p c w x p' R [IH Wp] V Wx H|p line p' R [IH Wp] H|p d q s p' a R [IH Wp] H].
    - split; [apply keeps_refl|exact W].
    - split; [eapply keeps_trans; [exact IH|apply create_keeps; assumption]|apply wf_create; assumption].
    - split; [eapply keeps_trans; [exact IH|apply foc_keeps; assumption]|apply wf_foc; assumption].
    - split; [eapply keeps_trans; [exact IH|eapply add_price_keeps; eauto]|eapply wf_add_price; eauto].
    - split; [eapply keeps_trans; [exact IH|eapply directive_keeps; eauto]|eapply wf_directive; eauto].
    - split; [|eapply annotation_wf; eauto]. eapply keeps_trans; [exact IH|]. apply annotation_inv in H as (-> & _).
      apply foc_keeps, Wp. }
  apply K.
Qed.
Lemma reachable_trans p q r : reachable_from p q -> reachable_from q r -> reachable_from p r.
Proof.
  intros H. induction 1; [exact H|eapply rp_create|eapply rp_find_or_create|eapply rp_add_price|eapply rp_directive|eapply rp_annotation]; eauto.
Qed.
Lemma known_extends p p' c : pool_extends p p' -> known p c -> known p' c.
Proof. intros E K s Hs. destruct (K s Hs) as [d D]. eauto. Qed.
Lemma post_known_extends p p' q : pool_extends p p' -> post_known p q -> post_known p' q.
Proof. intros E [K1 K2]. split; intros a Ha; eapply known_extends; eauto. Qed.
Lemma foc_is_known p s a : known (fst (pool_find_or_create p s a)) (snd (pool_find_or_create p s a)).
Proof.
  rewrite foc_comm. intros x Hx. unfold comm_of in Hx. destruct s as [|c s]; [discriminate|]. injection Hx as <-.
  apply foc_finds. discriminate.
Qed.
Lemma parts_inv p q s p' amt :
  parse_amount_parts p q s = (p', amt) ->
  reachable_from p p' /\ (forall a, amt = Some a -> wf_amt a /\ known p' (a_c a)).
Proof.
  unfold parse_amount_parts. destruct (pool_find_or_create p s None) as [p1 c] eqn:E. intros H. injection H as <- <-. split.
  - change p1 with (fst (p1, c)). rewrite <- E. apply rp_find_or_create; [constructor|]. intros ? ?; discriminate.
  - intros a Ha. destruct (d_from_str q) as [d|] eqn:D; [|discriminate]. cbn in Ha. injection Ha as <-. split.
    + unfold wf_amt. cbn. apply d_from_str_sound in D. tauto.
    + pose proof (foc_is_known p s None) as K. rewrite E in K. exact K.
Qed.
Lemma parse_cost_inv p t amt p' cost :
  parse_cost p t amt = Ok (p', cost) -> (forall a, amt = Some a -> wf_amt a /\ known p (a_c a)) ->
  reachable_from p p' /\ (forall a, cost = Some a -> wf_amt a /\ known p' (a_c a)).
Proof.
  unfold parse_cost. intros H Ha. destruct amt as [a|]; [|injection H as <- <-; split; [constructor|discriminate]].
  destruct (is_empty (t_cost_quantity t)); [injection H as <- <-; split; [constructor|discriminate]|].
  destruct (parse_amount_parts p _ _) as [p1 c] eqn:E. apply parts_inv in E as [R K]. destruct c as [c|].
  2:{ injection H as <- <-. split; [exact R|discriminate]. }
  destruct (K c eq_refl) as [Wc Kc]. destruct (Ha a eq_refl) as [Wa Ka].
  destruct (t_is_per_unit t); [|injection H as <- <-; split; [exact R|intros x [= <-]; auto]].
  inv_bind H. injection H as <- <-. split; [exact R|]. intros x [= <-]. apply amt_mul_wf in EQ as [Wv Cv]. split; [exact Wv|].
  rewrite Cv. destruct (a_c c) as [s|]; [exact Kc|]. cbn. eapply known_extends; [apply reachable_extends; exact R|exact Ka].
Qed.

(** One posting added to the last transaction. *)
Lemma parse_post_inv j xi s j' :
  wf_tree (j_master j) -> parse_post j xi s = Ok j' ->
  exists x acct amt cost m1,
    nth_error (j_xacts j) xi = Some x
    /\ j_xacts j' = add_post (j_xacts j) xi (mkPost acct amt cost None)
    /\ reachable_from (j_pool j) (j_pool j')
    /\ wf_post (mkPost acct amt cost None) /\ post_known (j_pool j') (mkPost acct amt cost None)
    /\ wf_tree m1 /\ exists_at m1 acct
    /\ (forall q, posts_at m1 q = match posts_at (j_master j) q with
                    | Some l => Some l
                    | None => if prefix_of q acct then Some [] else None
                    end)
    /\ push_post m1 acct (xi, length (x_posts x)) = Ok (j_master j').
Proof.
  intros W H. unfold parse_post in H. inv_bind H. rename v into t. inv_bind H. destruct v as [m1 acct].
  destruct (parse_amount_parts (j_pool j) (t_quantity t) (t_symbol t)) as [p1 amt] eqn:E1.
  inv_bind H. destruct v as [p2 ann]. destruct (pool_find_or_create p2 (t_symbol t) (Some ann)) as [p3 c3] eqn:E3.
  inv_bind H. destruct v as [p4 cost]. destruct (nth_error (j_xacts j) xi) as [x|] eqn:Ex; [|discriminate].
  inv_bind H. injection H as <-. cbn [j_xacts j_pool j_master].
  assert (X1 : exists_at m1 acct) by (apply (register_exists _ _ _ _ _ W EQ0); right; apply prefix_of_refl).
  destruct (register_ok _ _ _ _ W EQ0) as (_ & Ea & W1 & _ & P1 & _).
  apply parts_inv in E1 as [R1 K1].
  assert (Wa : wf_annotation (Some ann)).
  { apply annotation_inv in EQ1 as (_ & Hp & _). intros y pr [= <-] Hy. rewrite Hp in Hy.
    destruct (d_from_str (t_price_quantity t)) as [d|] eqn:D; [|discriminate]. cbn in Hy. injection Hy as <-.
    unfold wf_amt. cbn. apply d_from_str_sound in D. tauto. }
  assert (R2 : reachable_from p1 p2) by (eapply rp_annotation; [constructor|exact EQ1]).
  assert (R3 : reachable_from p2 p3).
  { change p3 with (fst (p3, c3)). rewrite <- E3. apply rp_find_or_create; [constructor|exact Wa]. }
  assert (R13 := reachable_trans _ _ _ R2 R3).
  assert (K3 : forall a, amt = Some a -> wf_amt a /\ known p3 (a_c a)).
  { intros a Ha. destruct (K1 a Ha) as [A B]. split; [exact A|]. eapply known_extends; [apply reachable_extends; exact R13|exact B]. }
  destruct (parse_cost_inv _ _ _ _ _ EQ2 K3) as [R4 K4].
  exists x, acct, amt, cost, m1. split; [reflexivity|]. split; [reflexivity|].
  split; [exact (reachable_trans _ _ _ R1 (reachable_trans _ _ _ R13 R4))|].
  split; [split; cbn; intros a Ha; [apply K3, Ha|apply K4, Ha]|].
  split; [split; cbn; intros a Ha|].
  { eapply known_extends; [apply reachable_extends; exact R4|apply K3, Ha]. }
  { apply K4, Ha. }
  rewrite Ea in *. auto.
Qed.

(** ** Finalising *)
Lemma bal_add_wf b a b' : Forall wf_amt b -> wf_amt a -> bal_add b a = Ok b' ->
  Forall wf_amt b' /\ forall x, In x b' -> In (a_c x) (a_c a :: map a_c b).
Proof.
  revert b'. induction b as [|y b IH]; intros b' Wb Wa H; cbn [bal_add] in H.
  - injection H as <-. split; [auto|]. intros x [<-|[]]. left. reflexivity.
  - inversion Wb as [|? ? Wy Wb']; subst. destruct (comm_eqb_spec (a_c y) (a_c a)) as [E|E].
    + inv_bind H. injection H as <-. destruct (amt_add_ok _ _ _ Wy Wa EQ) as (C & Wv & _). split; [constructor; auto|].
      intros x [<-|Hx]; [rewrite C, E; left; reflexivity|]. right. right. apply in_map, Hx.
    + inv_bind H. injection H as <-. destruct (IH _ Wb' Wa EQ) as [Wv Hv]. split; [constructor; auto|].
      intros x [<-|Hx]; [right; left; reflexivity|]. destruct (Hv x Hx) as [Q|Q]; [left; exact Q|right; right; exact Q].
Qed.
Lemma fold_bal_wf l : forall b b', Forall wf_amt b -> Forall wf_amt l -> fold_outcome bal_add l b = Ok b' ->
  Forall wf_amt b' /\ forall x, In x b' -> In (a_c x) (map a_c b ++ map a_c l).
Proof.
  induction l as [|a l IH]; intros b b' Wb Wl H; cbn [fold_outcome] in H.
  - injection H as <-. split; [exact Wb|]. intros x Hx. rewrite app_nil_r. apply in_map, Hx.
  - inversion Wl; subst. inv_bind H. destruct (bal_add_wf _ _ _ Wb H2 EQ) as [Wv Hv].
    destruct (IH _ _ Wv H3 H) as [Wb' Hb']. split; [exact Wb'|]. intros x Hx. specialize (Hb' x Hx).
    apply in_app_or in Hb' as [Hi|Hi].
    + apply in_map_iff in Hi as (y & <- & Hy). specialize (Hv y Hy). destruct Hv as [<-|Hv]; apply in_or_app.
      * right. left. reflexivity.
      * left. exact Hv.
    + apply in_or_app. right. right. exact Hi.
Qed.
Lemma record_all_from rs : forall p p', valid_records rs -> record_all p rs = Ok p' -> reachable_from p p'.
Proof.
  induction rs as [|[[[s t] w] v] rs IH]; intros p p' V H.
  - injection H as <-. constructor.
  - inversion V as [|? ? Vr V']; subst. cbv beta iota in Vr. rewrite record_all_cons in H. inv_bind H.
    eapply reachable_trans; [|eapply IH; eauto]. eapply rp_add_price; [constructor| | |exact EQ]; apply Vr.
Qed.
Lemma worths_comm pool posts : Forall (post_known pool) posts -> forall c, In c (map a_c (worths posts)) -> known pool c.
Proof.
  induction 1 as [|p posts [K1 K2] _ IH]; intros c H; [destruct H|]. rewrite worths_cons, map_app in H.
  apply in_app_or in H as [H|H]; [|auto]. unfold worth in H. destruct (po_cost p) as [k|] eqn:C.
  - destruct H as [<-|[]]. apply K2. reflexivity.
  - destruct (po_amount p) as [a|]; [|destruct H]. destruct H as [<-|[]]. apply K1. reflexivity.
Qed.

Lemma finalize_pool d pool posts pool' posts' :
  reachable_pool pool -> valid_date d -> Forall wf_post posts -> Forall (post_known pool) posts ->
  finalize_posts (Some d) pool posts = Ok (pool', posts') ->
  reachable_from pool pool' /\ Forall wf_post posts' /\ Forall (post_known pool') posts'.
Proof.
  intros R Vd Wp Kp H. pose proof (reachable_wf _ R) as W.
  apply finalize_inv in H as (_ & bal & Hb & H).
  destruct (fold_bal_wf _ _ _ (Forall_nil _) (worths_wf _ Wp) Hb) as [Wb Cb]. cbn [bal_new map app] in Cb.
  assert (Kb : forall x, In x bal -> known pool (a_c x)) by (intros x Hx; eapply worths_comm; eauto).
  destruct H as [(C & b1 & I & P)|(l1 & p & l2 & b & E & -> & P & ->)].
  - assert (X : Forall wf_post posts' /\ Forall (post_known pool) posts').
    { apply infer_costs_inv in I as [(-> & _)|(x & y & x0 & y0 & top & r & -> & _ & _ & _ & Hxy & D & I)]; [auto|].
      assert (Kxy : (known pool (a_c x) /\ known pool (a_c y)) /\ wf_amt x /\ wf_amt y).
      { inversion Wb as [|? ? W1 Wb']; subst. inversion Wb' as [|? ? W2 _]; subst.
        pose proof (Kb x0 (or_introl eq_refl)). pose proof (Kb y0 (or_intror (or_introl eq_refl))).
        destruct Hxy as [(-> & -> & _)|(-> & -> & _)]; auto. }
      destruct Kxy as [[Kx Ky] [Wx Wy]]. pose proof (amt_div_wf _ _ _ Wy Wx D) as [_ Cr].
      assert (Kr : known pool (a_c r)) by (rewrite Cr; destruct (a_c y); [exact Ky|exact Kx]).
      clear -I Wp Kp Kr. induction I as [|p p' l l' (a & A & H1 & H2) _ IH]; [auto|].
      inversion Wp as [|? ? [Wa Wc] Wp']; subst. inversion Kp as [|? ? [Ka Kc] Kp']; subst.
      destruct (IH Wp' Kp') as [G1 G2].
      destruct (comm_dec (a_c a) (a_c x)) as [E|E].
      - destruct (H2 E) as (k & M & ->). apply amt_mul_wf in M as [Wk Ck].
        split; constructor; auto; split; cbn; intros z Hz.
        + apply Wa, Hz.
        + injection Hz as <-. exact Wk.
        + apply Ka, Hz.
        + injection Hz as <-. rewrite Ck. cbn [amt_abs a_c]. destruct (a_c r) as [s|] eqn:Er; [exact Kr|]. exact (Ka a A).
      - rewrite (H1 E). split; constructor; auto; split; auto. }
    destruct X as [X1 X2]. destruct (price_loop_records _ _ _ _ _ W Vd X1 P) as (rs & _ & Vr & Ra).
    pose proof (record_all_from _ _ _ Vr Ra) as Rf. split; [exact Rf|]. split; [exact X1|].
    eapply Forall_impl; [|exact X2]. intros q. apply post_known_extends, reachable_extends, Rf.
  - destruct (price_loop_records _ _ _ _ _ W Vd Wp P) as (rs & _ & Vr & Ra).
    pose proof (record_all_from _ _ _ Vr Ra) as Rf. split; [exact Rf|].
    destruct E as (-> & V & _). apply Forall_app in Wp as [Wp1 Wp2]. inversion Wp2 as [|? ? Wpp Wp3]; subst.
    inversion Wb as [|? ? Wbb _]; subst. split.
    + apply Forall_app. split; [exact Wp1|]. constructor; [|exact Wp3]. split; cbn.
      * intros a [= <-]. apply wf_amt_inverse, Wbb.
      * apply Wpp.
    + apply Forall_app in Kp as [Kp1 Kp2]. inversion Kp2 as [|? ? Kpp Kp3]; subst.
      assert (G : forall q, post_known pool q -> post_known pool' q) by (intros q; apply post_known_extends, reachable_extends, Rf).
      apply Forall_app. split; [eapply Forall_impl; [|exact Kp1]; exact G|]. constructor; [|eapply Forall_impl; [|exact Kp3]; exact G].
      split; cbn.
      * intros a [= <-]. eapply known_extends; [apply reachable_extends; exact Rf|]. apply (Kb b). left. reflexivity.
      * apply G, Kpp.
Qed.

(** ** The invariant *)
Definition current (m : mode) (j : journal) (xs : list xact) : Prop :=
  match m with
  | Top => j_xacts j = xs
  | InXact xi => length xs = xi /\ exists x d, j_xacts j = xs ++ [x] /\ x_date x = Some d /\ valid_date d
  end.
Record inv (m : mode) (j : journal) : Prop := {
  i_tree : wf_tree (j_master j);
  i_pool : reachable_pool (j_pool j);
  i_links : lists_own_postings j;
  i_posts : Forall (fun p => wf_post p /\ post_known (j_pool j) p) (all_posts j);
  i_done : exists xs, current m j xs /\ Forall finished xs }.

(** Which account each posting names is all that matters for the links. *)
Definition shape (xs : list xact) : list (list path) := map (fun x => map po_account (x_posts x)) xs.
Lemma account_of_shape xs r :
  account_of xs r = match nth_error (shape xs) (fst r) with Some l => nth_error l (snd r) | None => None end.
Proof.
  unfold account_of, get_post, shape. rewrite nth_error_map. destruct (nth_error xs (fst r)) as [x|]; [|reflexivity].
  cbn [option_map]. rewrite nth_error_map. reflexivity.
Qed.
Lemma links_shape m p xs p' xs' :
  shape xs' = shape xs -> lists_own_postings (mkJournal m p xs) -> lists_own_postings (mkJournal m p' xs').
Proof.
  intros E [H1 H2]. split; cbn [j_master j_xacts] in *.
  - intros q l Hl. destruct (H1 q l Hl) as [S I]. split; [exact S|]. intros r. rewrite I, !account_of_shape, E. reflexivity.
  - intros r q. rewrite account_of_shape, E, <- account_of_shape. apply H2.
Qed.
Lemma journal_eta j : j = mkJournal (j_master j) (j_pool j) (j_xacts j).
Proof. destruct j. reflexivity. Qed.
Lemma same_posting_shape ps ps' : Forall2 same_posting ps ps' -> map po_account ps' = map po_account ps.
Proof. induction 1 as [|p p' l l' (E & _) _ IH]; cbn; [reflexivity|]. rewrite E, IH. reflexivity. Qed.
Lemma all_posts_snoc m p xs x : all_posts (mkJournal m p (xs ++ [x])) = flat_map x_posts xs ++ x_posts x.
Proof. unfold all_posts. cbn [j_xacts]. rewrite flat_map_app. cbn. rewrite app_nil_r. reflexivity. Qed.

Lemma get_post_snoc xs x r p :
  get_post (xs ++ [x]) r = Some p <->
  (fst r < length xs /\ get_post xs r = Some p \/ fst r = length xs /\ nth_error (x_posts x) (snd r) = Some p).
Proof.
  unfold get_post. destruct (Nat.lt_trichotomy (fst r) (length xs)) as [L|[L|L]].
  - rewrite nth_error_app1 by exact L. split; [intros H; left; split; [exact L|exact H]|]. intros [[_ H]|[H _]]; [exact H|lia].
  - rewrite nth_error_app2 by lia. rewrite L, Nat.sub_diag. cbn [nth_error].
    split; [intros H; right; split; [reflexivity|exact H]|]. intros [[H _]|[_ H]]; [lia|exact H].
  - rewrite nth_error_app2 by lia. destruct (fst r - length xs) as [|[|k]] eqn:E; [lia| |]; cbn [nth_error];
      (split; [discriminate|intros [[H _]|[H _]]; lia]).
Qed.
Lemma get_post_bound xs r p : get_post xs r = Some p -> fst r < length xs.
Proof. unfold get_post. intros H. apply nth_error_Some. destruct (nth_error xs (fst r)); [discriminate|discriminate]. Qed.

Lemma links_create m p xs x :
  x_posts x = [] -> lists_own_postings (mkJournal m p xs) -> lists_own_postings (mkJournal m p (xs ++ [x])).
Proof.
  intros E [H1 H2].
  assert (G : forall r, account_of (xs ++ [x]) r = account_of xs r).
  { intros r. unfold account_of, get_post. destruct (Nat.lt_trichotomy (fst r) (length xs)) as [L|[L|L]].
    - rewrite nth_error_app1 by exact L. reflexivity.
    - rewrite nth_error_app2 by lia. rewrite L, Nat.sub_diag. cbn [nth_error]. rewrite E.
      assert (nth_error xs (length xs) = None) as -> by (apply nth_error_None; lia). destruct (snd r); reflexivity.
    - rewrite nth_error_app2 by lia. assert (nth_error xs (fst r) = None) as -> by (apply nth_error_None; lia).
      destruct (fst r - length xs) as [|[|k]] eqn:D; [lia| |]; reflexivity. }
  split; cbn [j_master j_xacts] in *.
  - intros q l Hl. destruct (H1 q l Hl) as [S I]. split; [exact S|]. intros r. rewrite I, G. reflexivity.
  - intros r q. rewrite G. apply H2.
Qed.

Lemma sorted_snoc l r : StronglySorted ref_lt l -> Forall (fun s => ref_lt s r) l -> StronglySorted ref_lt (l ++ [r]).
Proof.
  induction 1 as [|s l S IH F]; intros H; cbn [app]; [repeat constructor|]. inversion H; subst. constructor; [auto|].
  apply Forall_app. split; [exact F|]. constructor; [assumption|constructor].
Qed.

(** The master account after a posting to [acct]. *)
Lemma links_post m p p' xs x acct amt cost note m1 m' :
  lists_own_postings (mkJournal m p (xs ++ [x])) -> wf_tree m1 -> exists_at m1 acct ->
  (forall q, posts_at m1 q = match posts_at m q with
                    | Some l => Some l
                    | None => if prefix_of q acct then Some [] else None
                    end) ->
  push_post m1 acct (length xs, length (x_posts x)) = Ok m' ->
  wf_tree m'
  /\ lists_own_postings (mkJournal m' p' (xs ++ [set_posts x (x_posts x ++ [mkPost acct amt cost note])])).
Proof.
  intros [H1 H2] W1 X1 P1 Hp. cbn [j_master j_xacts] in *.
  destruct (push_post_spec m1 acct (length xs, length (x_posts x)) W1 X1) as (m2 & Hp' & W2 & _ & P2).
  rewrite Hp in Hp'. injection Hp' as <-. split; [exact W2|].
  set (r0 := (length xs, length (x_posts x))) in *.
  assert (G : forall r, account_of (xs ++ [set_posts x (x_posts x ++ [mkPost acct amt cost note])]) r
              = if (fst r =? length xs) && (snd r =? length (x_posts x)) then Some acct else account_of (xs ++ [x]) r).
  { intros r. unfold account_of, get_post. destruct (Nat.lt_trichotomy (fst r) (length xs)) as [L|[L|L]].
    - rewrite !nth_error_app1 by exact L. destruct (Nat.eqb_spec (fst r) (length xs)); [lia|]. reflexivity.
    - rewrite !nth_error_app2 by lia. rewrite L, Nat.sub_diag, Nat.eqb_refl. cbn [nth_error andb set_posts x_posts].
      destruct (Nat.eqb_spec (snd r) (length (x_posts x))) as [E|E].
      + rewrite E, nth_error_app2, Nat.sub_diag by lia. reflexivity.
      + destruct (Nat.lt_ge_cases (snd r) (length (x_posts x))).
        * rewrite nth_error_app1 by assumption. reflexivity.
        * rewrite nth_error_app2 by lia. assert (nth_error (x_posts x) (snd r) = None) as -> by (apply nth_error_None; lia).
          destruct (snd r - length (x_posts x)) as [|[|k]] eqn:D; [lia| |]; reflexivity.
    - rewrite !nth_error_app2 by lia. destruct (Nat.eqb_spec (fst r) (length xs)); [lia|].
      destruct (fst r - length xs) as [|[|k]] eqn:D; [lia| |]; reflexivity. }
  assert (B : forall r q, account_of (xs ++ [x]) r = Some q -> ref_lt r r0).
  { intros r q Hr. unfold account_of in Hr. destruct (get_post (xs ++ [x]) r) as [pp|] eqn:Gp; [|discriminate].
    apply get_post_snoc in Gp as [[L _]|[L Hn]]; [left; exact L|]. right. split; [exact L|]. cbn. apply nth_error_Some. congruence. }
  split; cbn [j_master j_xacts].
  - intros q l Hl. rewrite P2 in Hl.
    assert (Old : forall l0, posts_at m1 q = Some l0 -> StronglySorted ref_lt l0 /\ forall r, In r l0 <-> account_of (xs ++ [x]) r = Some q).
    { intros l0 Hl0. rewrite P1 in Hl0. destruct (posts_at m q) as [l1|] eqn:Hq; [injection Hl0 as <-; apply H1, Hq|].
      destruct (prefix_of q acct); [|discriminate]. injection Hl0 as <-. split; [constructor|]. intros r. split; [intros []|].
      intros Hr. apply H2 in Hr. apply posts_at_exists in Hr. congruence. }
    destruct (list_eq_dec str_eq_dec q acct) as [->|N].
    + destruct (posts_at m1 acct) as [l0|]; [|discriminate]. cbn in Hl. injection Hl as <-. destruct (Old l0 eq_refl) as [S I]. split.
      * apply sorted_snoc; [exact S|]. apply Forall_forall. intros r Hr. apply I in Hr. eapply B, Hr.
      * intros r. rewrite G, in_app_iff, I. cbn [In]. destruct ((fst r =? length xs) && (snd r =? length (x_posts x))) eqn:E.
        -- split; [reflexivity|]. intros _. right. left. unfold r0. apply andb_true_iff in E as [E1 E2].
           apply Nat.eqb_eq in E1. apply Nat.eqb_eq in E2. destruct r; cbn in *; congruence.
        -- split; [|auto]. intros [Hr|[Hr|[]]]; [exact Hr|]. subst r. unfold r0 in E. cbn in E. rewrite !Nat.eqb_refl in E. discriminate.
    + destruct (Old l Hl) as [S I]. split; [exact S|]. intros r. rewrite G, I.
      destruct ((fst r =? length xs) && (snd r =? length (x_posts x))) eqn:E; [|reflexivity].
      split; [|intros [= Hq]; congruence]. intros Hr. exfalso. apply B in Hr. apply andb_true_iff in E as [E1 E2].
      apply Nat.eqb_eq in E1. apply Nat.eqb_eq in E2. unfold ref_lt, r0 in Hr. cbn in Hr. lia.
  - intros r q. rewrite G. intros Hr. apply posts_at_exists. rewrite P2.
    destruct (list_eq_dec str_eq_dec q acct) as [->|N].
    + apply posts_at_exists in X1. destruct (posts_at m1 acct); [discriminate|congruence].
    + destruct ((fst r =? length xs) && (snd r =? length (x_posts x))); [congruence|]. apply H2 in Hr. apply posts_at_exists in Hr.
      rewrite P1. destruct (posts_at m q); [discriminate|congruence].
Qed.

Lemma inv_new : inv Top journal_new.
Proof.
  constructor.
  - apply wf_leaf.
  - constructor.
  - split; cbn.
    + intros q l Hl. rewrite posts_at_leaf in Hl. destruct q; [|discriminate]. injection Hl as <-. split; [constructor|].
      intros r. unfold account_of, get_post. destruct (fst r); (split; [intros []|discriminate]).
    + intros r q. unfold account_of, get_post. destruct (fst r); discriminate.
  - constructor.
  - exists []. split; [reflexivity|constructor].
Qed.

Lemma inv_create j c r j' :
  inv Top j -> is_digit c = true -> create_xact j (c :: r) = Ok j' -> inv (InXact (length (j_xacts j))) j'.
Proof.
  intros [T P L Q D] Dc H. apply create_xact_inv in H as (x & d & -> & X1 & X2 & X3); [|exact Dc].
  rewrite (journal_eta j) in L. constructor; cbn [set_xacts j_master j_pool j_xacts].
  - exact T.
  - exact P.
  - apply links_create; assumption.
  - unfold set_xacts. rewrite all_posts_snoc, X1, app_nil_r. exact Q.
  - destruct D as (xs & E & F). cbn in E. exists (j_xacts j). rewrite E. split; [|exact F]. split; [reflexivity|].
    exists x, d. cbn. try rewrite E. auto.
Qed.

Lemma inv_post j xi s j' : inv (InXact xi) j -> parse_post j xi s = Ok j' -> inv (InXact xi) j'.
Proof.
  intros [T P L Q D] H. destruct (parse_post_inv _ _ _ _ T H) as (x & acct & amt & cost & m1 & Ex & E & R & Wp & Kp & W1 & X1 & P1 & Hp).
  destruct D as (xs & (Lx & x' & d & Ej & Xd & Vd) & F).
  assert (x' = x).
  { rewrite Ej, nth_error_app2, <- Lx, Nat.sub_diag in Ex by lia. injection Ex as ->. reflexivity. }
  subst x'. unfold add_post in E. rewrite Ej, <- Lx in E.
  rewrite (update_nth_mid (fun x => set_posts x (x_posts x ++ [mkPost acct amt cost None])) xs x []) in E.
  rewrite (journal_eta j), Ej in L. rewrite <- Lx in Hp.
  destruct (links_post _ _ (j_pool j') _ _ _ amt cost None _ _ L W1 X1 P1 Hp) as [T' L'].
  constructor.
  - exact T'.
  - exact (reachable_trans _ _ _ P R).
  - rewrite (journal_eta j'), E. exact L'.
  - rewrite (journal_eta j'), E, all_posts_snoc. cbn [set_posts x_posts j_pool].
    rewrite (journal_eta j), Ej, all_posts_snoc in Q. cbn [j_pool] in Q. rewrite app_assoc. apply Forall_app. split; [|constructor; auto].
    eapply Forall_impl; [|exact Q]. intros q [A B]. split; [exact A|]. eapply post_known_extends; [apply reachable_extends; exact R|exact B].
  - exists xs. split; [|exact F]. split; [exact Lx|]. rewrite E. do 2 eexists. split; [reflexivity|]. cbn. eauto.
Qed.

Lemma note_inv xs x m p s j' :
  parse_trailing_note (mkJournal m p (xs ++ [x])) (length xs) s = Ok j' ->
  exists x', j' = mkJournal m p (xs ++ [x']) /\ x_date x' = x_date x
    /\ map po_account (x_posts x') = map po_account (x_posts x)
    /\ (forall P, Forall P (map (fun q => (po_amount q, po_cost q)) (x_posts x)) -> Forall P (map (fun q => (po_amount q, po_cost q)) (x_posts x'))).
Proof.
  unfold parse_trailing_note. destruct (is_empty _); intros H; injection H as <-; [exists x; auto|].
  unfold set_xacts. cbn [j_master j_pool j_xacts].
  match goal with |- context [update_nth _ ?f _] => rewrite (update_nth_mid f xs x []) end.
  eexists. split; [reflexivity|]. destruct (x_posts x) as [|p0 ps] eqn:E.
  - cbn. rewrite E. auto.
  - cbn [set_posts x_date x_posts]. split; [reflexivity|].
    assert (G : forall B (g : post -> B) l n, (forall q, g (post_add_note q (trim (skipn 1 s))) = g q) ->
                  map g (update_nth n (fun q => post_add_note q (trim (skipn 1 s))) l) = map g l).
    { intros B g l. induction l as [|q l IH]; intros [|n] Hg; cbn; try reflexivity; rewrite ?Hg, ?IH; auto. }
    rewrite !G by reflexivity. auto.
Qed.

Lemma inv_note j xi s j' : inv (InXact xi) j -> parse_trailing_note j xi s = Ok j' -> inv (InXact xi) j'.
Proof.
  intros [T P L Q D] H. destruct D as (xs & (Lx & x & d & Ej & Xd & Vd) & F).
  rewrite (journal_eta j), Ej in L, Q, H. rewrite all_posts_snoc in Q. cbn [j_pool] in Q. rewrite <- Lx in H.
  apply note_inv in H as (x' & -> & X1 & X2 & X3). constructor; cbn [j_master j_pool j_xacts].
  - exact T.
  - exact P.
  - eapply links_shape; [|exact L]. unfold shape. rewrite !map_app. cbn [map]. rewrite X2. reflexivity.
  - rewrite all_posts_snoc. apply Forall_app in Q as [Q1 Q2]. apply Forall_app. split; [exact Q1|].
    specialize (X3 (fun ac => wf_post (mkPost [] (fst ac) (snd ac) None) /\ post_known (j_pool j) (mkPost [] (fst ac) (snd ac) None))).
    rewrite !Forall_map in X3. apply X3. eapply Forall_impl; [|exact Q2]. intros q Hq. exact Hq.
  - exists xs. split; [|exact F]. split; [exact Lx|]. exists x', d. cbn. rewrite X1. auto.
Qed.

Lemma inv_final j xi j' : inv (InXact xi) j -> finalize j xi = Ok j' -> inv Top j'.
Proof.
  intros [T P L Q D] H. destruct D as (xs & (Lx & x & d & Ej & Xd & Vd) & F).
  rewrite (journal_eta j), Ej in L, Q. rewrite all_posts_snoc in Q. cbn [j_pool] in Q.
  unfold finalize in H. rewrite Ej, nth_error_app2, <- Lx, Nat.sub_diag in H by lia. cbn [nth_error] in H. rewrite Xd in H.
  inv_bind H. destruct v as [pool' posts']. injection H as <-.
  rewrite (update_nth_mid (fun x => set_posts x posts') xs x []).
  apply Forall_app in Q as [Q1 Q2].
  assert (Wx : Forall wf_post (x_posts x)) by (eapply Forall_impl; [|exact Q2]; intros ? [? ?]; assumption).
  assert (Kx : Forall (post_known (j_pool j)) (x_posts x)) by (eapply Forall_impl; [|exact Q2]; intros ? [? ?]; assumption).
  destruct (finalize_pool _ _ _ _ _ P Vd Wx Kx EQ) as (R & W' & K').
  constructor; cbn [j_master j_pool j_xacts].
  - exact T.
  - exact (reachable_trans _ _ _ P R).
  - eapply links_shape; [|exact L]. unfold shape. rewrite !map_app. cbn [map set_posts x_posts].
    rewrite (same_posting_shape _ _ (finalize_frame _ _ _ _ _ EQ)). reflexivity.
  - rewrite all_posts_snoc. cbn [set_posts x_posts]. apply Forall_app. split.
    + eapply Forall_impl; [|exact Q1]. intros q [A B]. split; [exact A|]. eapply post_known_extends; [apply reachable_extends; exact R|exact B].
    + clear -W' K'. induction W'; inversion K'; subst; constructor; auto.
  - eexists. split; [reflexivity|]. apply Forall_app. split; [exact F|]. constructor; [|constructor].
    exists d, (j_pool j), pool', (x_posts x). cbn. auto.
Qed.

Lemma inv_pool j p : inv Top j -> reachable_from (j_pool j) p -> inv Top (set_pool j p).
Proof.
  intros [T P L Q D] R. rewrite (journal_eta j) in L. constructor; cbn [set_pool j_master j_pool j_xacts].
  - exact T.
  - exact (reachable_trans _ _ _ P R).
  - eapply links_shape; [reflexivity|exact L].
  - eapply Forall_impl; [|exact Q]. intros q [A B]. split; [exact A|]. eapply post_known_extends; [apply reachable_extends; exact R|exact B].
  - exact D.
Qed.
Lemma inv_price j line p : inv Top j -> parse_price_directive (j_pool j) line = Ok p -> inv Top (set_pool j p).
Proof. intros I H. apply inv_pool; [exact I|]. eapply rp_directive; [constructor|exact H]. Qed.

Lemma inv_register j name m' p :
  inv Top j -> register_account (j_master j) name = Ok (m', p) -> inv Top (set_master j m').
Proof.
  intros [T P L Q D] H. destruct (register_ok _ _ _ _ T H) as (_ & -> & W' & _ & P' & _).
  constructor; cbn [set_master j_master j_pool j_xacts]; auto. destruct L as [L1 L2]. split; cbn [j_master j_xacts].
  - intros q l Hl. rewrite P' in Hl. destruct (posts_at (j_master j) q) as [l0|] eqn:E; [injection Hl as <-; apply L1, E|].
    destruct (prefix_of q (components name)); [|discriminate]. injection Hl as <-. split; [constructor|]. intros r. split; [intros []|].
    intros Hr. apply L2 in Hr. apply posts_at_exists in Hr. congruence.
  - intros r q Hr. apply L2 in Hr. apply posts_at_exists in Hr. apply posts_at_exists. rewrite P'.
    destruct (posts_at (j_master j) q); [discriminate|congruence].
Qed.

Lemma inv_read depth cwd fs src j j' : inv Top j -> read_into_journal depth cwd fs src j = Ok j' -> inv Top j'.
Proof. apply read_preserves; [exact inv_create|exact inv_post|exact inv_note|exact inv_final|exact inv_price]. Qed.
Lemma reachable_inv j : reachable_journal j -> inv Top j.
Proof.
  induction 1 as [|depth cwd fs src j j' _ IH H|name j m' p _ IH H|s a j _ IH Wa].
  - exact inv_new.
  - eapply inv_read; eauto.
  - eapply inv_register; eauto.
  - apply inv_pool; [exact IH|]. apply rp_find_or_create; [constructor|exact Wa].
Qed.
