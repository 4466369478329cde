(** Whole journals with lots, costs, notes and includes are accepted and read as what they say. *)
From Coq Require Import String List NArith ZArith Bool Lia ZifyBool ZifyNat ZifyN.
From Verif Require Import Base Decimal Dates Amount Balance Scanner History Pool Account Journal Xact Parser Lib.
From Verif Require Import SpecDecimal SpecAmount SpecDates SpecPool SpecAccount SpecXact SpecJournal SpecText SpecReading SpecScan SpecWhole SpecFull.
From Verif Require Import BaseFacts DecimalFacts RoundFacts BalanceFacts ArithProofs DatesFacts AccountFacts AccountProofs PoolFacts PriceProofs XactFacts XactProofs JournalFacts ReadingFacts ReadingProofs ScanFacts ScanProofs PostProofs HeaderProofs WholeProofs ScaleFacts FullFacts.
Import ListNotations.
Open Scope nat_scope.

(** ** The pool while postings are read *)
Record grown (P : str -> Z -> Prop) (p p' : pool) : Prop := {
  gr_wf : wf_pool p';
  gr_ext : pool_extends p p';
  gr_lots : lots_in P p';
  gr_prices : forall s t w v, price_on p' s t w v <-> price_on p s t w v }.
Lemma grown_refl P p : wf_pool p -> lots_in P p -> grown P p p.
Proof. intros W L. constructor; auto; [apply PoolFacts.extends_refl|tauto]. Qed.
Lemma grown_trans P p q r : grown P p q -> grown P q r -> grown P p r.
Proof.
  intros G H. constructor; [apply H|eapply PoolFacts.extends_trans; [apply G|apply H]|apply H|]. intros. rewrite (gr_prices _ _ _ H). apply (gr_prices _ _ _ G).
Qed.
Lemma lots_foc (P : str -> Z -> Prop) p s a : lots_in P p -> (forall x ap, a = Some x -> an_price x = Some ap -> P s (aunits ap)) ->
  lots_in P (fst (pool_find_or_create p s a)).
Proof.
  intros L H. rewrite foc_cases. destruct (is_empty s); [exact L|]. cbn [fst].
  assert (I : forall x, a = Some x -> lots_in P (mkPool (p_comms p) (insert s x (p_ann p)) (p_hist p))).
  { intros x -> t b ap. cbn [p_ann]. rewrite lookup_insert. destruct (str_eqb t s) eqn:E.
    - apply str_eqb_eq in E as ->. intros [= <-] Hp. exact (H _ _ eq_refl Hp).
    - apply L. }
  destruct (pool_find p s).
  - destruct a as [x|]; [|exact L]. destruct (lookup s (p_ann p)); [exact L|]. apply (I x eq_refl).
  - destruct a as [x|]; [exact (I x eq_refl)|exact L].
Qed.
Lemma grown_foc (P : str -> Z -> Prop) p s a : wf_pool p -> lots_in P p -> wf_annotation a -> (forall x ap, a = Some x -> an_price x = Some ap -> P s (aunits ap)) ->
  grown P p (fst (pool_find_or_create p s a)).
Proof.
  intros W L A H. constructor; [apply wf_foc; assumption|apply foc_extends|apply lots_foc; assumption|]. intros. apply foc_prices, W.
Qed.
Lemma grown_foc_none P p s : wf_pool p -> lots_in P p -> grown P p (fst (pool_find_or_create p s None)).
Proof. intros W L. apply grown_foc; auto; [intros x pr; discriminate|discriminate]. Qed.

(** ** A posting line *)
Definition unit_exact (v : wvalue) : Prop :=
  forall c, wv_cost v = Some (true, c) -> worth_decimals v <= 28 /\ (Z.abs (worth_units v) < 2 ^ 96 * 10 ^ Z.of_nat (28 - worth_decimals v))%Z.
Lemma denotes_empty q u k : denotes q u k -> is_empty q = false.
Proof.
  intros (sign & neg & whole & pt & frac & -> & _ & _ & _ & _ & Ne & _). destruct sign; [|reflexivity]. destruct whole; [|reflexivity]. destruct pt; [|reflexivity].
  destruct frac; [elim Ne; reflexivity|reflexivity].
Qed.
Lemma exact_product a b k k' u v : wf_dec a -> wf_dec b -> units a = u -> units b = v -> d_s a = k -> d_s b = k' -> k + k' <= 28 ->
  (Z.abs (u * v / unit1) < 2 ^ 96 * 10 ^ Z.of_nat (28 - (k + k')))%Z ->
  exists r, d_mul b a = Ok r /\ wf_dec r /\ (d_s r <= k + k' /\ (units r <> 0%Z -> d_s r = k + k')) /\ (units r * unit1 = u * v)%Z /\ units r = (u * v / unit1)%Z.
Proof.
  intros Wa Wb Ua Ub Sa Sb L B. change (10 ^ Z.of_nat (28 - (k + k')))%Z with (p10 (28 - (k + k'))) in B.
  assert (E : (u * v = d_signed b * d_signed a * p10 (28 - (k + k')) * unit1)%Z).
  { subst. rewrite !units_eq, unit1_p10.
    transitivity (d_signed b * d_signed a * (p10 (28 - d_s a) * p10 (28 - d_s b)))%Z; [ring|].
    replace (p10 (28 - d_s a) * p10 (28 - d_s b))%Z with (p10 (28 - (d_s a + d_s b)) * p10 28)%Z by (rewrite <- !p10_add; f_equal; destruct Wa, Wb; lia). ring. }
  assert (Q : (u * v / unit1 = d_signed b * d_signed a * p10 (28 - (k + k')))%Z) by (rewrite E; apply Z.div_mul; discriminate).
  destruct (d_mul_small b a Wb Wa) as (r & Er & Wr & Sr & Ur); [lia| |].
  - rewrite Q, Z.abs_mul in B. pose proof (p10_pos (28 - (k + k'))) as Pp. rewrite (Z.abs_eq (p10 _)) in B by lia. apply Z.mul_lt_mono_pos_r in B; assumption.
  - exists r. split; [exact Er|]. split; [exact Wr|]. split; [destruct Sr as [Sr1 Sr2]; split; [lia|intros X; rewrite (Sr2 X); lia]|]. rewrite Ua, Ub in Ur. split; [rewrite Ur; apply Z.mul_comm|].
    rewrite Z.mul_comm, <- Ur. symmetry. apply Z.div_mul. discriminate.
Qed.

Lemma bare_account l tok : posting_line l tok -> t_quantity tok = [] -> t_price_date tok = [] /\ t_symbol tok = [].
Proof.
  intros [|? ? ? ? ? ? ? ? ? ? ? ? ? ? ? ? _ _ _ _ Wa]; cbn [t_quantity t_price_date t_symbol]; [auto|]. intros ->.
  exfalso. inversion Wa as [? [N _]|? ? ? [N _]|? ? ? [N _]]; subst; apply N; reflexivity.
Qed.
Definition raw_new (fp : fposting) (p : post) : Prop := raw_full (mkFP (fp_account fp) (fp_value fp) []) p.
Lemma parse_posting_full (P : str -> Z -> Prop) j xi l tok fp x :
  posting_line l tok -> t_account tok = fp_account fp -> writes_value tok (fp_value fp) ->
  wf_tree (j_master j) -> wf_pool (j_pool j) -> lots_in P (j_pool j) -> nth_error (j_xacts j) xi = Some x ->
  (forall v lot, fp_value fp = Some v -> wv_lot v = Some lot -> P (wa_symbol (wv_amount v)) (wa_units lot)) ->
  (forall v, fp_value fp = Some v -> unit_exact v /\ cost_fits v) ->
  exists m pl p, parse_post j xi (trim_start l) = Ok (mkJournal m pl (add_post (j_xacts j) xi p)) /\ wf_tree m /\ grown P (j_pool j) pl /\ raw_new fp p
    /\ (forall v, fp_value fp = Some v -> both_known pl v).
Proof.
  intros Hl Ha Hv W Wp Lp Ex HP HU. unfold parse_post. rewrite scan_post_trim, (posting_scanned _ _ Hl). cbn [bind].
  destruct (register_then_find (j_master j) (t_account tok) W (posting_account _ _ Hl)) as (m1 & acct & Er & W1 & _ & Ea & Xa & _).
  rewrite Er. cbn [bind]. unfold parse_amount_parts. pose proof (foc_comm (j_pool j) (t_symbol tok) None) as C.
  pose proof (grown_foc_none P (j_pool j) (t_symbol tok) Wp Lp) as G1. pose proof (foc_finds (j_pool j) (t_symbol tok) None) as K1.
  destruct (pool_find_or_create (j_pool j) (t_symbol tok) None) as [p1 c]. cbn [fst snd] in *. subst c.
  set (amt := option_map _ _).
  (* the lot *)
  assert (X : exists p2 ann, annotation_parse p1 (t_price_date tok) (t_price_quantity tok) (t_price_commodity tok) = Ok (p2, ann) /\ grown P p1 p2
    /\ wf_annotation (Some ann) /\ (t_symbol tok <> [] -> forall ap, an_price ann = Some ap -> P (t_symbol tok) (aunits ap))).
  { unfold annotation_parse. pose proof (foc_comm p1 (t_price_commodity tok) None) as C.
    pose proof (grown_foc_none P p1 (t_price_commodity tok) (gr_wf _ _ _ G1) (gr_lots _ _ _ G1)) as G2.
    destruct (pool_find_or_create p1 (t_price_commodity tok) None) as [p2 c2]. cbn [fst snd] in *. subst c2.
    assert (D : exists d, (if is_empty (t_price_date tok) then Ok None else let* d := unwrap (parse_date_opt (t_price_date tok)) in Ok (Some d)) = Ok d).
    { destruct (fp_value fp) as [v|]; cbn [writes_value] in Hv.
      - destruct Hv as (_ & _ & Hd & _). destruct Hd as [[Hd _]|(e & Hd & _)]; [rewrite Hd; cbn; eauto|]. apply date_written_parse in Hd as [Hd1 Hd2]. rewrite Hd1, Hd2. cbn. eauto.
      - destruct (bare_account _ _ Hl Hv) as [E0 _]. rewrite E0. cbn [is_empty]. eexists. reflexivity. }
    destruct D as (d & ->). cbn [bind]. eexists p2, _. split; [reflexivity|]. split; [exact G2|]. split.
    - intros y pr [= <-]. cbn [an_price]. intros Hp. destruct (d_from_str (t_price_quantity tok)) as [q|] eqn:Eq; [|discriminate]. injection Hp as <-. exact (proj1 (d_from_str_sound _ _ Eq)).
    - cbn [an_price]. intros Ns ap Hp. destruct (d_from_str (t_price_quantity tok)) as [q|] eqn:Eq; [|discriminate]. injection Hp as <-.
      destruct (fp_value fp) as [v|]; cbn [writes_value] in Hv.
      + destruct Hv as ((_ & Es) & Lt & _). destruct (wv_lot v) as [lot|] eqn:El.
        * destruct Lt as (D & _). destruct (denotes_read _ _ _ (t_price_commodity tok) D) as (q' & Eq' & (_ & Uq & _)). rewrite Eq' in Eq. injection Eq as ->.
          rewrite Uq, Es. exact (HP _ _ eq_refl El).
        * rewrite Lt in Eq. discriminate.
      + destruct (bare_account _ _ Hl Hv) as [_ X]. contradiction. }
  destruct X as (p2 & ann & -> & G2 & Wn & Pn). cbn [bind]. pose proof (grown_trans _ _ _ _ G1 G2) as G12.
  assert (G3 : grown P p2 (fst (pool_find_or_create p2 (t_symbol tok) (Some ann)))).
  { destruct (t_symbol tok) as [|s0 s] eqn:Es; [apply grown_refl; [apply G2|apply G2]|]. apply grown_foc; [apply G2|apply G2|exact Wn|]. intros y ap [= <-]. apply Pn. discriminate. }
  destruct (pool_find_or_create p2 (t_symbol tok) (Some ann)) as [p3 c3]. cbn [fst] in G3. pose proof (grown_trans _ _ _ _ G12 G3) as G13.
  (* the cost *)
  assert (Y : exists p4 cost, parse_cost p3 tok amt = Ok (p4, cost) /\ grown P p3 p4
    /\ (forall v, fp_value fp = Some v -> cost_is v cost /\ exists a, amt = Some a /\ (amount_of a (wv_amount v) /\ plain a) /\ exists b, match cost with Some c => Some c | None => amt end = Some b /\ worth_is v b)
    /\ (forall v u c, fp_value fp = Some v -> wv_cost v = Some (u, c) -> wa_symbol c <> [] -> exists y, pool_find p4 (wa_symbol c) = Some y)
    /\ (fp_value fp = None -> amt = None /\ cost = None)).
  { unfold parse_cost. destruct (fp_value fp) as [v|]; cbn [writes_value] in Hv.
    - destruct Hv as ((D & Es) & _ & _ & Hc). destruct (denotes_read _ _ _ (t_symbol tok) D) as (q & Eq & Iq). subst amt. rewrite Eq. cbn [option_map].
      rewrite Es in Iq. rewrite Es. change (comm_of (wa_symbol (wv_amount v))) with (commodity_of (wa_symbol (wv_amount v))) in *.
      destruct (wv_cost v) as [[un c]|] eqn:Ev.
      + destruct Hc as (Hu & Dc & Ec). rewrite (denotes_empty _ _ _ Dc). unfold parse_amount_parts.
        pose proof (foc_comm p3 (t_cost_symbol tok) None) as C. pose proof (grown_foc_none P p3 (t_cost_symbol tok) (gr_wf _ _ _ G3) (gr_lots _ _ _ G3)) as G4.
        pose proof (foc_finds p3 (t_cost_symbol tok) None) as K4.
        destruct (pool_find_or_create p3 (t_cost_symbol tok) None) as [p4 c4]. cbn [fst snd] in *. subst c4.
        destruct (denotes_read _ _ _ (t_cost_symbol tok) Dc) as (qc & Eqc & Ic). rewrite Eqc. cbn [option_map]. rewrite Hu, Ec in *.
        change (comm_of (wa_symbol c)) with (commodity_of (wa_symbol c)) in *.
        destruct un.
        * destruct Iq as (Wq & Uq & Sq & Cq). destruct Ic as (Wc & Uc & Sc & Cc). unfold aunits in *. cbn [a_q a_c] in *.
          destruct (HU _ eq_refl) as (HE & HF). unfold cost_fits in HF. rewrite Ev in HF. destruct HF as (_ & Nc & _). destruct (HE c Ev) as (L28 & B28). unfold worth_decimals, worth_units in L28, B28. rewrite Ev in L28, B28.
          destruct (exact_product q qc _ _ _ _ Wq Wc Uq Uc Sq Sc L28 B28) as (r & Er' & Wr & Sr & Ur & Ur').
          unfold amt_mul. cbn [a_q a_c]. rewrite Er'. cbn [bind]. eexists p4, _. split; [reflexivity|]. split; [exact G4|].
          assert (Hcm : comm_or (commodity_of (wa_symbol c)) (commodity_of (wa_symbol (wv_amount v))) = commodity_of (wa_symbol c)) by (rewrite (commodity_some _ Nc); reflexivity).
          split; [|split; [intros v0 u0 c0 [= <-] E0 N0; rewrite Ev in E0; injection E0 as <- <-; apply K4, N0|discriminate]].
          intros v0 [= <-]. unfold cost_is. rewrite Ev, Hcm. split; [eexists; split; [reflexivity|]; split; [exact Wr|]; split; [reflexivity|exact Ur]|].
          eexists. split; [reflexivity|]. split; [split; [split; [exact Wq|]; split; [exact Uq|]; split; [exact Sq|reflexivity]|exact (plain_read _ _ _ Eq)]|]. eexists. split; [reflexivity|].
          unfold worth_is, worth_units, worth_decimals, worth_symbol. rewrite Ev. split; [exact Wr|]. split; [exact Ur'|]. split; [split; [apply Sr|]|reflexivity].
          intros X. apply Sr. rewrite Ur'. specialize (X c Ev). unfold worth_units in X. rewrite Ev in X. exact X.
        * eexists p4, _. split; [reflexivity|]. split; [exact G4|].
          split; [|split; [intros v0 u0 c0 [= <-] E0 N0; rewrite Ev in E0; injection E0 as <- <-; apply K4, N0|discriminate]].
          intros v0 [= <-]. unfold cost_is. rewrite Ev. split; [eauto|]. eexists. split; [reflexivity|]. split; [split; [exact Iq|exact (plain_read _ _ _ Eq)]|]. eexists. split; [reflexivity|].
          unfold worth_is, worth_units, worth_decimals, worth_symbol. rewrite Ev. destruct Ic as (I1 & I2 & I3 & I4). split; [exact I1|]. split; [exact I2|]. split; [rewrite I3; split; [apply le_n|reflexivity]|exact I4].
      + rewrite Hc. cbn [is_empty]. exists p3, None. split; [reflexivity|]. split; [apply grown_refl; apply G3|].
        split; [|split; [intros v0 u0 c0 [= <-] E0; congruence|discriminate]].
        intros v0 [= <-]. unfold cost_is. rewrite Ev. split; [reflexivity|]. eexists. split; [reflexivity|]. split; [split; [exact Iq|exact (plain_read _ _ _ Eq)]|]. eexists. split; [reflexivity|].
        unfold worth_is, worth_units, worth_decimals, worth_symbol. rewrite Ev. destruct Iq as (I1 & I2 & I3 & I4). split; [exact I1|]. split; [exact I2|]. split; [rewrite I3; split; [apply le_n|reflexivity]|exact I4].
    - assert (A0 : amt = None) by (unfold amt; rewrite Hv; reflexivity). clearbody amt. subst amt.
      exists p3, None. split; [reflexivity|]. split; [apply grown_refl; apply G3|]. split; [discriminate|]. split; [discriminate|auto]. }
  destruct Y as (p4 & cost & -> & G4 & Hsome & Hk & Hnone). cbn [bind]. rewrite Ex.
  destruct (push_post_spec m1 acct (xi, length (x_posts x)) W1 Xa) as (m2 & Ep & W2 & _). rewrite Ep. cbn [bind].
  exists m2, p4, (mkPost acct amt cost None). split; [reflexivity|]. split; [exact W2|]. split; [eapply grown_trans; eassumption|]. split.
  - split; [cbn [po_account fp_account]; rewrite <- Ha; exact Ea|]. split; [reflexivity|]. cbn [fp_value]. destruct (fp_value fp) as [v|].
    + destruct (Hsome v eq_refl) as (Hc & a & Ha' & Ham & b & Hb & Wb). exists a, b. cbn [po_amount po_cost]. split; [exact Ha'|]. split; [exact Ham|]. split; [exact Hc|]. split; [|exact Wb].
      unfold worth. cbn [po_cost po_amount]. destruct cost; exact Hb.
    + apply Hnone. reflexivity.
  - intros v Ev. split; [|intros u c Hc N2; eapply Hk; eassumption]. intros N1.
    rewrite Ev in Hv. cbn [writes_value] in Hv. destruct Hv as ((_ & Es) & _). rewrite <- Es in *. destruct (K1 N1) as (y & Fy). exists y.
    apply (gr_ext _ _ _ G4), (gr_ext _ _ _ G3), (gr_ext _ _ _ G2), Fy.
Qed.

(** ** Notes *)
Lemma last_of_cons n ns d : last_of (n :: ns) d = last_of ns (Some n).
Proof.
  unfold last_of. cbn [map]. generalize (map Some ns); clear ns. intros l. revert n. induction l as [|x l IH]; intros n; [reflexivity|].
  destruct l as [|y l]; [reflexivity|]. change (last (Some n :: x :: y :: l) d) with (last (x :: y :: l) d).
  change (last (x :: y :: l) (Some n)) with (last (y :: l) (Some n)).
  clear IH. revert x y. induction l as [|z l IH]; intros x y; [reflexivity|]. change (last (x :: y :: z :: l) d) with (last (y :: z :: l) d). rewrite (IH y z). reflexivity.
Qed.
Lemma note_prefix_post inc notes ns : Forall2 note_line notes ns -> forall m pl xs d a py n ps p,
  prefix inc (InXact (length xs)) (mkJournal m pl (xs ++ [mkXact d a py n (ps ++ [p])])) (map Some notes)
  = Ok (Continue (InXact (length xs)) (mkJournal m pl (xs ++ [mkXact d a py n (ps ++ [mkPost (po_account p) (po_amount p) (po_cost p) (last_of ns (po_note p))])]))).
Proof.
  induction 1 as [|l note notes ns Hl F IH]; intros m pl xs d a py n ps p; cbn [map prefix].
  - destruct p; reflexivity.
  - cbn [step]. rewrite (note_line_step _ _ _ _ Hl). cbn [bind]. unfold set_xacts. cbn [j_master j_pool j_xacts].
    rewrite (update_nth_mid (add_note note) xs _ []).
    assert (E : add_note note (mkXact d a py n (ps ++ [p])) = mkXact d a py n (ps ++ [post_add_note p note])).
    { unfold add_note. cbn [x_posts]. destruct (ps ++ [p]) eqn:Eq; [destruct ps; discriminate|]. rewrite <- Eq, app_length. cbn [length]. replace (length ps + 1 - 1) with (length ps) by lia.
      rewrite (update_nth_mid (fun p => post_add_note p note) ps p []). reflexivity. }
    rewrite E, IH, last_of_cons. reflexivity.
Qed.
Lemma note_prefix_header inc notes ns : Forall2 note_line notes ns -> forall m pl xs d a py n,
  prefix inc (InXact (length xs)) (mkJournal m pl (xs ++ [mkXact d a py n []])) (map Some notes)
  = Ok (Continue (InXact (length xs)) (mkJournal m pl (xs ++ [mkXact d a py (last_of ns n) []]))).
Proof.
  induction 1 as [|l note notes ns Hl F IH]; intros m pl xs d a py n; cbn [map prefix]; [reflexivity|].
  cbn [step]. rewrite (note_line_step _ _ _ _ Hl). cbn [bind]. unfold set_xacts. cbn [j_master j_pool j_xacts].
  rewrite (update_nth_mid (add_note note) xs _ []). unfold add_note. cbn [x_posts]. unfold xact_add_note. cbn [x_date x_aux_date x_payee x_note x_posts].
  rewrite IH, last_of_cons. reflexivity.
Qed.

(** ** A posting and its notes *)
Definition lots_from (P : str -> Z -> Prop) (v : wvalue) : Prop := forall lot, wv_lot v = Some lot -> P (wa_symbol (wv_amount v)) (wa_units lot).
Lemma fposting_step (P : str -> Z -> Prop) inc ls fp m0 p0 xs d a py n ps :
  writes_fposting ls fp -> wf_tree m0 -> wf_pool p0 -> lots_in P p0 ->
  (forall v, fp_value fp = Some v -> lots_from P v /\ unit_exact v /\ cost_fits v) ->
  exists m pl p, prefix inc (InXact (length xs)) (mkJournal m0 p0 (xs ++ [mkXact d a py n ps])) (map Some ls)
      = Ok (Continue (InXact (length xs)) (mkJournal m pl (xs ++ [mkXact d a py n (ps ++ [p])])))
    /\ wf_tree m /\ grown P p0 pl /\ raw_full fp p /\ (forall v, fp_value fp = Some v -> both_known pl v).
Proof.
  intros (l & r & tok & notes & -> & El & Hl & Ha & Hv & Hn) W Wp Lp H.
  destruct (parse_posting_full P (mkJournal m0 p0 (xs ++ [mkXact d a py n ps])) (length xs) l tok fp (mkXact d a py n ps)) as (m & pl & p & E & Wm & G & R & K); auto.
  - apply nth_last.
  - intros v lot Ev. apply (H v Ev).
  - intros v Ev. apply (H v Ev).
  - cbn [map prefix]. destruct (scan_post_head _ _ (posting_scanned _ _ Hl)) as (c & t & Et & Nc).
    assert (S : step inc (InXact (length xs)) (mkJournal m0 p0 (xs ++ [mkXact d a py n ps])) (Some l)
      = Ok (Continue (InXact (length xs)) (mkJournal m pl (xs ++ [mkXact d a py n (ps ++ [p])])))).
    { subst l. cbn [step]. rewrite xact_line_eq. change ((32 =? 32)%N) with true. cbv iota. rewrite Et in *. apply N.eqb_neq in Nc. rewrite Nc, E. cbn [j_xacts]. rewrite add_post_last. reflexivity. }
    rewrite S. cbn [bind]. rewrite (note_prefix_post _ _ _ Hn). eexists m, pl, _. split; [reflexivity|]. split; [exact Wm|]. split; [exact G|]. split; [|exact K].
    destruct R as (R1 & R2 & R3). cbn [fp_account fp_notes fp_value] in *. split; [exact R1|]. cbn [po_note]. rewrite R2. split; [reflexivity|]. exact R3.
Qed.
Lemma fpostings_prefix (P : str -> Z -> Prop) inc pls fps : Forall2 writes_fposting pls fps -> forall m0 p0 xs d a py n ps,
  wf_tree m0 -> wf_pool p0 -> lots_in P p0 -> Forall (fun v => lots_from P v /\ unit_exact v /\ cost_fits v) (values_of fps) ->
  exists m pl ps', prefix inc (InXact (length xs)) (mkJournal m0 p0 (xs ++ [mkXact d a py n ps])) (map Some (concat pls))
      = Ok (Continue (InXact (length xs)) (mkJournal m pl (xs ++ [mkXact d a py n (ps ++ ps')])))
    /\ wf_tree m /\ grown P p0 pl /\ Forall2 raw_full fps ps' /\ Forall (both_known pl) (values_of fps).
Proof.
  induction 1 as [|ls fp pls fps Hl F IH]; intros m0 p0 xs d a py n ps W Wp Lp H.
  - exists m0, p0, []. rewrite app_nil_r. split; [reflexivity|]. split; [exact W|]. split; [apply grown_refl; assumption|]. split; constructor.
  - cbn [concat]. rewrite map_app, prefix_app.
    assert (H1 : forall v, fp_value fp = Some v -> lots_from P v /\ unit_exact v /\ cost_fits v).
    { intros v Ev. cbn [values_of flat_map] in H. rewrite Ev in H. inversion H; subst. assumption. }
    assert (H2 : Forall (fun v => lots_from P v /\ unit_exact v /\ cost_fits v) (values_of fps)).
    { cbn [values_of flat_map] in H. apply Forall_app in H. apply H. }
    destruct (fposting_step P inc ls fp m0 p0 xs d a py n ps Hl W Wp Lp H1) as (m & pl & p & -> & Wm & G & R & K). cbn [bind].
    destruct (IH m pl xs d a py n (ps ++ [p]) Wm (gr_wf _ _ _ G) (gr_lots _ _ _ G) H2) as (m' & pl' & ps' & -> & Wm' & G' & R' & K').
    rewrite <- app_assoc. cbn [app]. exists m', pl', (p :: ps'). split; [reflexivity|]. split; [exact Wm'|]. split; [eapply grown_trans; eassumption|].
    split; [constructor; assumption|]. cbn [values_of flat_map]. apply Forall_app. split; [|exact K'].
    destruct (fp_value fp) as [v|]; constructor; [|constructor]. eapply both_known_extends; [apply G'|apply K; reflexivity].
Qed.

(** ** A transaction *)
Lemma abs_le_sum {A} (f : A -> Z) l x : In x l -> (Z.abs (f x) <= sumZ (map (fun a => Z.abs (f a)) l))%Z.
Proof.
  assert (N : forall l, (0 <= sumZ (map (fun a => Z.abs (f a)) l))%Z).
  { clear. induction l as [|a l IH]; cbn [map sumZ fold_right]; [apply Z.le_refl|]. change (fold_right Z.add 0%Z) with sumZ. pose proof (Z.abs_nonneg (f a)). lia. }
  induction l as [|a l IH]; intros H; [destruct H|]; destruct H as [<-|H]; cbn [map sumZ fold_right]; change (fold_right Z.add 0%Z) with sumZ.
  - pose proof (N l). lia.
  - pose proof (IH H). pose proof (Z.abs_nonneg (f a)). lia.
Qed.
Lemma ok_exact w : xact_ok w -> Forall (fun v => unit_exact v /\ cost_fits v) (values_of (fx_posts w)).
Proof.
  intros (_ & _ & C & (scale & L & K & B) & _). rewrite Forall_forall in *. intros v Hv. split; [|apply C, Hv]. intros c _. pose proof (K v Hv) as Kv. split; [lia|].
  pose proof (abs_le_sum worth_units _ v Hv) as S. eapply Z.le_lt_trans; [exact S|]. eapply Z.lt_le_trans; [exact B|].
  apply Z.mul_le_mono_nonneg_l; [apply Z.pow_nonneg; lia|]. apply Z.pow_le_mono_r; lia.
Qed.
Definition lot_bound (P : str -> Z -> Prop) (w : fxact) (v : wvalue) : Prop := has_cost w v -> lot_small P (wa_symbol (wv_amount v)) (wa_units (wv_amount v)).
Lemma fxact_read (P : str -> Z -> Prop) inc h pls w m0 p0 xs :
  writes_fheader h w -> Forall2 writes_fposting pls (fx_posts w) -> xact_ok w -> wf_tree m0 -> wf_pool p0 -> lots_in P p0 ->
  Forall (lots_from P) (values_of (fx_posts w)) -> Forall (lot_bound P w) (values_of (fx_posts w)) ->
  exists m pl x, prefix inc Top (mkJournal m0 p0 xs) (map Some (h ++ concat pls)) = Ok (Continue (InXact (length xs)) (mkJournal m pl (xs ++ [x])))
    /\ wf_tree m
    /\ exists pl' x' rs, finalize (mkJournal m pl (xs ++ [x])) (length xs) = Ok (mkJournal m pl' (xs ++ [x']))
       /\ wf_pool pl' /\ lots_in P pl' /\ fxact_is w x' /\ xact_records x' rs /\ prices_after p0 rs pl'.
Proof.
  intros (hl & notes & dt & auxt & -> & Hh & D & A & Hn) Hp OK W Wp Lp HL HB.
  assert (S : step inc Top (mkJournal m0 p0 xs) (Some hl) = Ok (Continue (InXact (length xs)) (mkJournal m0 p0
    (xs ++ [mkXact (Some (fx_date w)) (fx_aux w) (fx_payee w) (match fx_note w with [] => None | _ => Some (fx_note w) end) []])))).
  { apply (header_step inc (mkJournal m0 p0 xs) hl (mkWX (fx_date w) (fx_aux w) (fx_payee w) (fx_note w) [])). exists dt, auxt. auto. }
  change ((hl :: notes) ++ concat pls) with (hl :: (notes ++ concat pls)). cbn [map prefix]. rewrite S. cbn [bind]. rewrite map_app, prefix_app, (note_prefix_header _ _ _ Hn). cbn [bind].
  assert (H : Forall (fun v => lots_from P v /\ unit_exact v /\ cost_fits v) (values_of (fx_posts w))).
  { apply ok_exact in OK. rewrite Forall_forall in *. intros v Hv. split; [apply HL, Hv|apply OK, Hv]. }
  edestruct (fpostings_prefix P inc pls (fx_posts w) Hp m0 p0 xs) as (m & pl & ps & -> & Wm & G & R & K); [exact W|exact Wp|exact Lp|exact H|].
  eexists m, pl, _. split; [reflexivity|]. split; [exact Wm|]. cbn [app].
  assert (Vd : valid_date (fx_date w)) by (destruct D as (? & ? & ? & _ & _ & _ & _ & _ & _ & V); exact V).
  destruct (finalize_full P w (fx_date w) pl ps OK R Vd (gr_wf _ _ _ G) (gr_lots _ _ _ G) K HB) as (pl' & ps' & rs & E & I & W' & L' & Pr & Pa).
  exists pl'. eexists. exists rs. unfold finalize. cbn [j_xacts j_pool j_master]. rewrite nth_last. cbn [x_date x_posts]. rewrite E. cbn [bind]. rewrite (update_nth_mid (fun x => _) xs _ []).
  split; [reflexivity|]. split; [exact W'|]. split; [exact L'|]. split; [|split].
  - split; [reflexivity|]. split; [reflexivity|]. split; [reflexivity|]. split; [|exact I]. cbn [x_note set_posts]. destruct (fx_note w); reflexivity.
  - exists (fx_date w). split; [reflexivity|]. exact Pr.
  - intros s t x v. rewrite (Pa s t x v). rewrite (gr_prices _ _ _ G). reflexivity.
Qed.

(** ** A journal *)
Lemma after_nothing p : prices_after p [] p.
Proof.
  intros s t w v. cbn. split; [intros H; right; split; [exact H|constructor]|]. intros [([|? ?] & r2 & E & _)|[H _]]; [discriminate|discriminate|exact H].
Qed.
Lemma snoc_split {A} (a b r1 r2 : list A) x : a ++ b = r1 ++ x :: r2 ->
  (exists b1, b = b1 ++ x :: r2) \/ exists a2, a = r1 ++ x :: a2 /\ r2 = a2 ++ b.
Proof.
  revert r1; induction a as [|y a IH]; intros r1 E; cbn [app] in E; [left; exists r1; exact E|].
  destruct r1 as [|z r1]; cbn [app] in E; injection E as -> E.
  - right. exists a. auto.
  - destruct (IH r1 E) as [(b1 & ->)|(a2 & -> & ->)]; [left; eauto|right; exists a2; auto].
Qed.
Lemma after_app p q r rs1 rs2 : prices_after p rs1 q -> prices_after q rs2 r -> prices_after p (rs1 ++ rs2) r.
Proof.
  intros H1 H2 s t w v. rewrite (H2 s t w v), (H1 s t w v), records_for_app. split.
  - intros [(r1 & r2 & -> & F)|[[(r1 & r2 & -> & F)|[Hp F]] F2]].
    + left. exists (records_for s t rs1 ++ r1), r2. rewrite app_assoc. auto.
    + left. exists r1, (r2 ++ records_for s t rs2). rewrite <- app_assoc. split; [reflexivity|]. apply Forall_app. auto.
    + right. split; [exact Hp|]. apply Forall_app. auto.
  - intros [(r1 & r2 & E & F)|[Hp F]].
    + apply snoc_split in E as [(b1 & E)|(a2 & E & ->)]; [left; eauto|]. apply Forall_app in F as [F1 F2]. right. split; [left; eauto|exact F2].
    + apply Forall_app in F as [F1 F2]. right. auto.
Qed.
Lemma journal_said (P : str -> Z -> Prop) cwd fs d lines ws : says cwd fs d lines ws -> forall m0 p0 xs,
  Forall xact_ok ws -> Forall (fun w => Forall (lots_from P) (values_of (fx_posts w)) /\ Forall (lot_bound P w) (values_of (fx_posts w))) ws ->
  wf_tree m0 -> wf_pool p0 -> lots_in P p0 ->
  exists m pl new rss, parse_lines (include_file d cwd fs) Top (mkJournal m0 p0 xs) (map Some lines) = Ok (mkJournal m pl (xs ++ new))
    /\ wf_tree m /\ wf_pool pl /\ lots_in P pl /\ Forall2 fxact_is ws new /\ Forall2 xact_records new rss /\ prices_after p0 (concat rss) pl.
Proof.
  induction 1 as [d|d l lines ws Hl H IH|d l arg p t lines' ws' lines ws Hl Hd Nf Fp Ef Lo H' IH' H IH|d h pls e lines w ws Hh Hp He H IH|d h pls w Hh Hp]; intros m0 p0 xs OK HP W Wp Lp.
  - exists m0, p0, [], []. rewrite app_nil_r. split; [reflexivity|]. split; [exact W|]. split; [exact Wp|]. split; [exact Lp|]. split; [constructor|]. split; [constructor|apply after_nothing].
  - cbn [map parse_lines]. rewrite inert_step by exact Hl. cbn [bind]. apply IH; assumption.
  - apply Forall_app in OK as [OK1 OK2]. apply Forall_app in HP as [HP1 HP2]. cbn [map parse_lines]. rewrite (include_step _ _ _ _ Hl Hd).
    cbn [include_file]. rewrite (included_file _ fs _ _ Nf Fp), Ef. cbn [bind]. unfold text_source. rewrite (split_lines_of _ _ Lo).
    destruct (IH' m0 p0 xs OK1 HP1 W Wp Lp) as (m & pl & new & rss & -> & Wm & Wl & Ll & N & R & A). cbn [bind].
    destruct (IH m pl (xs ++ new) OK2 HP2 Wm Wl Ll) as (m' & pl' & new' & rss' & E' & Wm' & Wl' & Ll' & N' & R' & A').
    exists m', pl', (new ++ new'), (rss ++ rss'). rewrite app_assoc, concat_app. split; [exact E'|]. split; [exact Wm'|]. split; [exact Wl'|]. split; [exact Ll'|].
    split; [apply Forall2_app; assumption|]. split; [apply Forall2_app; assumption|]. eapply after_app; eassumption.
  - inversion OK as [|? ? OKw OKs]; subst. inversion HP as [|? ? [HL HB] HPs]; subst. rewrite app_assoc, map_app, parse_app.
    destruct (fxact_read P (include_file d cwd fs) h pls w m0 p0 xs Hh Hp OKw W Wp Lp HL HB) as (m & pl & x & -> & Wm & pl' & x' & rs & Ef & Wl & Ll & I & R & A).
    cbn [bind map parse_lines]. rewrite end_step by exact He. rewrite Ef. cbn [bind].
    destruct (IH m pl' (xs ++ [x']) OKs HPs Wm Wl Ll) as (m' & pl2 & new' & rss' & E' & Wm' & Wl' & Ll' & N' & R' & A').
    exists m', pl2, (x' :: new'), (rs :: rss'). rewrite <- app_assoc in E'. split; [exact E'|]. split; [exact Wm'|]. split; [exact Wl'|]. split; [exact Ll'|].
    split; [constructor; assumption|]. split; [constructor; assumption|]. cbn [concat]. eapply after_app; eassumption.
  - inversion OK as [|? ? OKw OKs]; subst. inversion HP as [|? ? [HL HB] HPs]; subst. rewrite <- (app_nil_r (map Some _)), parse_app.
    destruct (fxact_read P (include_file d cwd fs) h pls w m0 p0 xs Hh Hp OKw W Wp Lp HL HB) as (m & pl & x & -> & Wm & pl' & x' & rs & Ef & Wl & Ll & I & R & A).
    cbn [bind map parse_lines]. rewrite Ef. exists m, pl', [x'], [rs]. split; [reflexivity|]. split; [exact Wm|]. split; [exact Wl|]. split; [exact Ll|].
    split; [constructor; [exact I|constructor]|]. split; [constructor; [exact R|constructor]|]. cbn [concat]. rewrite app_nil_r. exact A.
Qed.
Lemma said_accepted depth cwd fs lines ws j :
  says cwd fs depth lines ws -> Forall xact_ok ws -> lots_ok (j_pool j) ws -> reachable_journal j ->
  exists j' new rss, parse_lines (include_file depth cwd fs) Top j (map Some lines) = Ok j' /\ j_xacts j' = j_xacts j ++ new /\ Forall2 fxact_is ws new
    /\ Forall2 xact_records new rss /\ prices_after (j_pool j) (concat rss) (j_pool j').
Proof.
  intros S OK LO R. apply reachable_inv in R. pose proof (reachable_wf _ (i_pool _ _ R)) as Wp. pose proof (i_tree _ _ R) as W.
  destruct (journal_said (lot_price_of (j_pool j) ws) cwd fs depth lines ws S (j_master j) (j_pool j) (j_xacts j)) as (m & pl & new & rss & E & _ & _ & _ & N & Rr & A); auto.
  - apply Forall_forall. intros w Hw. split; apply Forall_forall; intros v Hv.
    + intros lot El. right. exists w, v, lot. auto.
    + intros C u Hu. eapply LO; eassumption.
  - intros s a ap Ha Hp. left. exists a, ap. auto.
  - exists (mkJournal m pl (j_xacts j ++ new)), new, rss. split; [|auto]. destruct j; exact E.
Qed.
Lemma full_journal_accepted depth cwd fs t lines ws j :
  lines_of t lines -> says cwd fs depth lines ws -> Forall xact_ok ws -> lots_ok (j_pool j) ws -> reachable_journal j ->
  exists j' new rss, parse_text depth cwd fs t j = Ok j' /\ j_xacts j' = j_xacts j ++ new /\ Forall2 fxact_is ws new
    /\ Forall2 xact_records new rss /\ prices_after (j_pool j) (concat rss) (j_pool j').
Proof.
  intros L S OK LO R. destruct (said_accepted depth cwd fs lines ws j S OK LO R) as (j' & new & rss & E & H). exists j', new, rss. split; [|exact H].
  unfold parse_text, read_into_journal, text_source. rewrite (split_lines_of _ _ L). exact E.
Qed.

(** ** Written costs *)
Lemma Forall2_nth {A B} (P : A -> B -> Prop) xs ys : Forall2 P xs ys ->
  forall n x y, nth_error xs n = Some x -> nth_error ys n = Some y -> P x y.
Proof.
  induction 1 as [|a b xs ys H _ IH]; intros [|n] x y Hx Hy; cbn in *; try discriminate.
  - injection Hx as <-. injection Hy as <-. exact H.
  - eapply IH; eassumption.
Qed.
Lemma written_cost_kept depth cwd fs t lines ws j :
  lines_of t lines -> says cwd fs depth lines ws -> Forall xact_ok ws -> lots_ok (j_pool j) ws -> reachable_journal j ->
  exists j' new, parse_text depth cwd fs t j = Ok j' /\ j_xacts j' = j_xacts j ++ new /\ length new = length ws
    /\ forall n w x i fp v p, nth_error ws n = Some w -> nth_error new n = Some x ->
       nth_error (fx_posts w) i = Some fp -> nth_error (x_posts x) i = Some p -> fp_value fp = Some v ->
       (forall y r, ~ priced_at w (wa_symbol (wv_amount v)) y r) -> cost_is v (po_cost p).
Proof.
  intros L S K O R. destruct (full_journal_accepted _ _ _ _ _ _ _ L S K O R) as (j' & new & rss & E & X & F & _).
  exists j', new. split; [exact E|]. split; [exact X|]. split; [symmetry; apply (Forall2_len _ _ _ F)|].
  intros n w x i fp v p Hw Hx Hf Hp V N. pose proof (Forall2_nth _ _ _ F n w x Hw Hx) as (_ & _ & _ & _ & Fp).
  destruct (Forall2_nth _ _ _ Fp i fp p Hf Hp) as (_ & _ & a & _ & M). rewrite V in M. apply M, N.
Qed.
