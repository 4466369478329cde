(** Finalising transactions with costs. *)
From Coq Require Import String List NArith ZArith Bool Lia ZifyBool ZifyNat ZifyN.
From Verif Require Import Base Decimal Dates Amount Balance Scanner History Pool Account Journal Xact Parser.
From Verif Require Import SpecDecimal SpecAmount SpecDates SpecPool SpecAccount SpecXact SpecJournal SpecText SpecReading SpecScan SpecWhole SpecFull.
From Verif Require Import BaseFacts DecimalFacts RoundFacts DefinedFacts BalanceFacts ArithProofs DatesFacts PoolFacts PriceProofs XactFacts XactProofs WholeProofs ImpliedFacts ScaleFacts.
Import ListNotations.
Open Scope nat_scope.

(** ** Exact products *)
Lemma d_mul_small a b : wf_dec a -> wf_dec b -> d_s a + d_s b <= 28 -> (Z.abs (d_signed a * d_signed b) < MAXM)%Z ->
  exists r, d_mul a b = Ok r /\ wf_dec r /\ (d_s r <= d_s a + d_s b /\ (units r <> 0%Z -> d_s r = d_s a + d_s b)) /\ (units r * unit1 = units a * units b)%Z.
Proof.
  intros Wa Wb S B. unfold d_mul. destruct (d_is_zero a || d_is_zero b) eqn:Z0.
  { exists d_zero. split; [reflexivity|]. split; [apply wf_d_zero|]. split; [split; [cbn; lia|intros X; elim X; reflexivity]|]. change (units d_zero) with 0%Z.
    apply orb_prop in Z0 as [Z0|Z0]; apply d_is_zero_units in Z0; auto; rewrite Z0; lia. }
  destruct (_ && _) eqn:C. { rewrite !andb_true_iff in C. destruct C as [_ C]. apply Nat.ltb_lt in C. lia. }
  unfold d_reduced. rewrite reduce_fit by (try (unfold MAXS); lia). eexists. split; [reflexivity|].
  assert (W : wf_dec (d_make (d_signed a * d_signed b <? 0)%Z (Z.abs (d_signed a * d_signed b)) (d_s a + d_s b))).
  { split; cbn [d_make d_m d_s]; [unfold MAXM in B|]; lia. }
  split; [exact W|]. split; [cbn [d_make d_s]; split; [lia|reflexivity]|]. rewrite !units_eq, d_signed_make by lia. cbn [d_make d_s].
  assert (E : (if (d_signed a * d_signed b <? 0)%Z then (- Z.abs (d_signed a * d_signed b))%Z else Z.abs (d_signed a * d_signed b)) = (d_signed a * d_signed b)%Z).
  { generalize (d_signed a * d_signed b)%Z. intros z. destruct (Z.ltb_spec z 0); lia. }
  rewrite E. rewrite unit1_p10. destruct Wa as [_ Sa], Wb as [_ Sb].
  transitivity (d_signed a * d_signed b * (p10 (28 - (d_s a + d_s b)) * p10 28))%Z; [ring|].
  replace (p10 (28 - (d_s a + d_s b)) * p10 28)%Z with (p10 (28 - d_s a) * p10 (28 - d_s b))%Z by (rewrite <- !p10_add; f_equal; lia). ring.
Qed.

(** ** Prices of the costs *)
Definition lots_in (P : str -> Z -> Prop) (p : pool) : Prop :=
  forall s a ap, lookup s (p_ann p) = Some a -> an_price a = Some ap -> P s (aunits ap).
Lemma exchange_some p amt cost sym c moment :
  wf_pool p -> wf_amt amt -> wf_amt cost -> a_c amt = Some sym -> pool_find p sym = Some c ->
  (aunits amt <> 0 -> 2 * Z.abs (aunits cost) < (2 ^ 97 - 1) * Z.abs (aunits amt))%Z ->
  (forall a ap, lookup sym (p_ann p) = Some a -> an_price a = Some ap -> (2 * Z.abs (aunits ap * aunits amt) < (2 ^ 97 - 1) * unit1 * unit1)%Z) ->
  exists bd np, exchange p amt cost false moment = Ok (bd, np).
Proof.
  intros W Wa Wc Ca F D L. unfold exchange. rewrite Ca. cbn [unwrap bind deref]. rewrite F. cbn [bind].
  destruct (wp_comm _ W _ _ F) as [Es En].
  assert (pool_get_by_index p (c_index c) = Ok c) as ->. { unfold pool_get_by_index, get_commodity. rewrite En. cbn. rewrite F. reflexivity. }
  cbn [bind]. rewrite Es.
  assert (X : exists q, (if false || amt_is_zero amt then Ok (amt_abs cost) else let* q := amt_div cost amt in Ok (amt_abs q)) = Ok q).
  { cbn [orb]. destruct (amt_is_zero amt) eqn:Z0; [eauto|]. apply is_zero_false_units in Z0; [|exact Wa].
    unfold amt_div. destruct (proj2 (d_div_some (a_q cost) (a_q amt) Wc Wa)) as (r & ->); [split; [exact Z0|apply D, Z0]|]. cbn [bind]. eauto. }
  destruct X as (q & ->). cbn [bind].
  assert (Y : exists b, match lookup sym (p_ann p) with Some a => match an_price a with Some ap => amt_mul ap amt | None => Ok amt_null end | None => Ok cost end = Ok b).
  { destruct (lookup sym (p_ann p)) as [a|] eqn:El; [|eauto]. destruct (an_price a) as [ap|] eqn:Ea; [|eauto].
    destruct (wp_ann _ W _ _ El) as [_ Wp]. specialize (Wp _ Ea). unfold amt_mul.
    destruct (proj2 (d_mul_some (a_q ap) (a_q amt) Wp Wa)) as (r & ->); [exact (L _ _ eq_refl Ea)|]. cbn [bind]. eauto. }
  destruct Y as (b & ->). cbn [bind]. eauto.
Qed.
Lemma add_price_some p c x s t cs ct w : wf_pool p -> pool_find p s = Some cs -> pool_find p t = Some ct -> s <> t ->
  c = Some s -> a_c x = Some t -> exists p', pool_add_price p c w x = Ok p' /\ p_ann p' = p_ann p.
Proof.
  intros W F1 F2 N -> E. unfold pool_add_price. cbn [deref]. rewrite F1. cbn [bind]. destruct (wp_comm _ W _ _ F1) as [-> _].
  destruct (comm_eqb_spec (Some s) (a_c x)) as [X|X]; [congruence|]. rewrite E. cbn [deref]. rewrite F2. cbn [bind]. eauto.
Qed.

(** A posting as read. *)
Definition worth_is (v : wvalue) (b : amount) : Prop :=
  wf_amt b /\ aunits b = worth_units v /\ (d_s (a_q b) <= worth_decimals v /\ (exact_worth v -> d_s (a_q b) = worth_decimals v)) /\ a_c b = commodity_of (worth_symbol v).
Definition raw_full (fp : fposting) (p : post) : Prop :=
  po_account p = components (fp_account fp) /\ po_note p = last_of (fp_notes fp) None
  /\ match fp_value fp with
     | None => po_amount p = None /\ po_cost p = None
     | Some v => exists a b, po_amount p = Some a /\ (amount_of a (wv_amount v) /\ plain a) /\ cost_is v (po_cost p) /\ worth p = Some b /\ worth_is v b
     end.
Definition both_known (pl : pool) (v : wvalue) : Prop :=
  (wa_symbol (wv_amount v) <> [] -> exists x, pool_find pl (wa_symbol (wv_amount v)) = Some x)
  /\ forall u c, wv_cost v = Some (u, c) -> wa_symbol c <> [] -> exists x, pool_find pl (wa_symbol c) = Some x.
Lemma both_known_extends pl pl' v : pool_extends pl pl' -> both_known pl v -> both_known pl' v.
Proof.
  intros E [K1 K2]. split.
  - intros N. destruct (K1 N) as (x & X). exists x. apply E, X.
  - intros u c H N. destruct (K2 u c H N) as (x & X). exists x. apply E, X.
Qed.

Lemma commodity_some s : s <> [] -> commodity_of s = Some s.
Proof. destruct s; [congruence|reflexivity]. Qed.
Lemma set_amount_same p a : po_amount p = Some a -> set_amount p a = p.
Proof. destruct p. cbn. intros ->. reflexivity. Qed.

(** A posting whose price can be computed. *)
Definition lot_small (P : str -> Z -> Prop) (s : str) (z : Z) : Prop := forall u, P s u -> (2 * Z.abs (u * z) < (2 ^ 97 - 1) * unit1 * unit1)%Z.
Definition priceable (P : str -> Z -> Prop) (pl : pool) (p : post) : Prop :=
  forall cost, po_cost p = Some cost -> exists amt s t xs xt, po_amount p = Some amt /\ wf_amt amt /\ wf_amt cost
    /\ a_c amt = Some s /\ a_c cost = Some t /\ s <> t /\ pool_find pl s = Some xs /\ pool_find pl t = Some xt
    /\ (aunits amt <> 0 -> 2 * Z.abs (aunits cost) < (2 ^ 97 - 1) * Z.abs (aunits amt))%Z /\ lot_small P s (aunits amt).
Lemma priceable_extends P pl pl' p : pool_extends pl pl' -> priceable P pl p -> priceable P pl' p.
Proof.
  intros E H cost Hc. destruct (H cost Hc) as (amt & s & t & xs & xt & H1 & H2 & H3 & H4 & H5 & H6 & H7 & H8 & H9). exists amt, s, t, xs, xt.
  apply E in H7, H8. auto 10.
Qed.
Lemma price_loop_some d (P : str -> Z -> Prop) ps : valid_date d -> forall pl, wf_pool pl -> lots_in P pl -> Forall (priceable P pl) ps ->
  exists pl', price_loop (Some d) pl ps = Ok (pl', ps) /\ lots_in P pl'.
Proof.
  intros Vd. induction ps as [|p ps IH]; intros pl W L K; cbn [price_loop]; [eauto|]. inversion K as [|? ? K1 K2]; subst.
  assert (X : exists pl1, match po_cost p with
        | None => Ok (pl, p)
        | Some cost =>
            match po_amount p with
            | None => Panic PExplicit
            | Some amt =>
                if comm_eqb (a_c amt) (a_c cost) then Panic PExplicit
                else
                  let* d := unwrap (Some d) in
                  let* (bd, np) := exchange pl amt cost false (mkDT d midnight) in
                  let* pool' := match np with
                                | Some pr => pool_add_price_struct pl pr
                                | None => Ok pl
                                end in
                  Ok (pool', set_amount p (bd_amount bd))
            end
        end = Ok (pl1, p) /\ wf_pool pl1 /\ lots_in P pl1 /\ pool_extends pl pl1).
  { destruct (po_cost p) as [cost|] eqn:Ec; [|exists pl; split; [reflexivity|]; split; [exact W|]; split; [exact L|apply extends_refl]].
    destruct (K1 cost Ec) as (amt & s & t & xa & xc & Pa & Wa & Wc & Ca & Cc & N3 & Fa & Fc & Q & B). rewrite Pa.
    destruct (comm_eqb_spec (a_c amt) (a_c cost)) as [E|E]; [congruence|].
    cbn [unwrap bind].
    destruct (exchange_some pl amt cost _ xa (mkDT d midnight) W Wa Wc Ca Fa Q) as (bd & np & Ex).
    { intros a ap La Lp. apply B. eapply L; eassumption. }
    rewrite Ex. cbn [bind]. pose proof (exchange_amount _ _ _ _ _ _ _ Ex) as Eb.
    destruct (exchange_unit _ _ _ _ _ _ _ W Wa Wc Ex) as (u & _ & _ & Hs).
    destruct np as [pr|].
    - destruct (Hs pr eq_refl) as (E1 & E2 & E3 & _ & Wp). unfold pool_add_price_struct. rewrite E2.
      destruct (add_price_some pl (pr_commodity pr) (pr_price pr) _ _ _ _ (mkDT d midnight) W Fa Fc) as (pl1 & Ea & An); [exact N3|rewrite E1; exact Ca|rewrite E3; exact Cc|].
      rewrite Ea. cbn [bind]. exists pl1. rewrite Eb. split.
      + rewrite set_amount_same by exact Pa. reflexivity.
      + split; [|split].
        * eapply wf_add_price; [exact W| |exact Wp|exact Ea]. split; [exact Vd|apply midnight_valid].
        * unfold lots_in. rewrite An. exact L.
        * eapply add_price_extends. exact Ea.
    - cbn [bind]. exists pl. rewrite Eb. split; [rewrite set_amount_same by exact Pa; reflexivity|]. split; [exact W|]. split; [exact L|apply extends_refl]. }
  destruct X as (pl1 & -> & W1 & L1 & X1). cbn [bind].
  destruct (IH pl1 W1 L1) as (pl2 & -> & L2); [|cbn [bind]; eauto].
  eapply Forall_impl; [|exact K2]. intros v. apply priceable_extends, X1.
Qed.
Lemma raw_priceable (P : str -> Z -> Prop) pl fp p : raw_full fp p ->
  (forall v, fp_value fp = Some v -> cost_fits v /\ both_known pl v /\ (wv_cost v <> None -> lot_small P (wa_symbol (wv_amount v)) (wa_units (wv_amount v)))) -> priceable P pl p.
Proof.
  intros (_ & _ & R) H cost Ec. destruct (fp_value fp) as [v|]; [|destruct R; congruence]. destruct (H v eq_refl) as (C & [K1 K2] & B).
  destruct R as (amt & b & Pa & [A _] & Ci & Wo & Wi). unfold worth in Wo. rewrite Ec in Wo. injection Wo as <-. unfold cost_fits in C. rewrite Ec in Ci. unfold cost_is in Ci.
  destruct (wv_cost v) as [[un c]|] eqn:Ev; [|discriminate]. destruct C as (N1 & N2 & N3 & Q). destruct (K1 N1) as (xa & Fa). destruct (K2 _ _ eq_refl N2) as (xc & Fc).
  destruct A as (Wa & Ua & _ & Ca). destruct Wi as (Wc & Uc & _ & Cc). unfold worth_symbol in Cc. rewrite Ev in Cc. rewrite commodity_some in Ca, Cc by assumption.
  exists amt, (wa_symbol (wv_amount v)), (wa_symbol c), xa, xc. split; [exact Pa|]. split; [exact Wa|]. split; [exact Wc|]. split; [exact Ca|]. split; [exact Cc|].
  split; [intros X; apply N3; symmetry; exact X|]. split; [exact Fa|]. split; [exact Fc|]. rewrite Uc, Ua. split; [exact Q|]. apply B. discriminate.
Qed.
Lemma raws_priceable (P : str -> Z -> Prop) pl fps ps : Forall2 raw_full fps ps -> Forall cost_fits (values_of fps) -> Forall (both_known pl) (values_of fps) ->
  Forall (fun v => wv_cost v <> None -> lot_small P (wa_symbol (wv_amount v)) (wa_units (wv_amount v))) (values_of fps) -> Forall (priceable P pl) ps.
Proof.
  induction 1 as [|fp p fps ps R F IH]; intros C K B; [constructor|]. unfold values_of in C, B, K. cbn [flat_map] in C, B, K. fold (values_of fps) in C, B, K.
  apply Forall_app in C as [C1 C]. apply Forall_app in B as [B1 B]. apply Forall_app in K as [K1 K]. constructor; [|apply IH; assumption].
  eapply raw_priceable; [exact R|]. intros v Ev. rewrite Ev in *. inversion C1; inversion B1; inversion K1; subst. auto.
Qed.

(** ** The sum of a transaction *)
Lemma single_balance b l c : l <> [] -> only_in c l -> is_balance_of b l -> exists x, b = [x] /\ a_c x = c.
Proof.
  intros Ne O [Hc _]. assert (X : Forall (fun d => d = c) (map a_c l)) by (apply Forall_map; exact O).
  destruct (firsts_only c _ X) as [Y|Y]; rewrite Y in Hc.
  - destruct l as [|a l]; [congruence|]. discriminate Y.
  - destruct b as [|x [|y b]]; try discriminate. injection Hc as Hc. eauto.
Qed.
Lemma only_no_infer posts b l c : only_in c l -> is_balance_of b l -> infer_costs posts b = Ok (posts, b).
Proof.
  intros O [Hc _]. assert (X : Forall (fun d => d = c) (map a_c l)) by (apply Forall_map; exact O).
  destruct (firsts_only c _ X) as [Y|Y]; rewrite Y in Hc; destruct b as [|x [|y b]]; try discriminate; reflexivity.
Qed.
Lemma open_no_infer posts b l : is_balance_of b l ->
  (forall x y, x <> y -> Forall (fun a => a_c a = x \/ a_c a = y) l -> total x l <> 0%Z -> total y l <> 0%Z -> False) ->
  infer_costs posts b = Ok (posts, b).
Proof.
  intros [Hc Hv] N. destruct b as [|x [|y [|z b]]]; try reflexivity. cbn [infer_costs]. destruct (top_amount posts); [|reflexivity].
  destruct (negb (amt_is_zero x) && negb (amt_is_zero y)) eqn:E; [|reflexivity]. exfalso.
  apply andb_prop in E as [E1 E2]. apply negb_true_iff in E1, E2.
  destruct (Hv x (or_introl eq_refl)) as [Wx Ux]. destruct (Hv y (or_intror (or_introl eq_refl))) as [Wy Uy].
  apply is_zero_false_units in E1; [|exact Wx]. apply is_zero_false_units in E2; [|exact Wy]. cbn [map] in Hc.
  apply (N (a_c x) (a_c y)).
  - pose proof (firsts_nodup (map a_c l)) as ND. rewrite <- Hc in ND. inversion ND as [|? ? X _]; subst. intros Y. apply X. left. symmetry. exact Y.
  - apply Forall_forall. intros z Hz. assert (I : In (a_c z) (firsts (map a_c l))) by (apply firsts_in, in_map, Hz). rewrite <- Hc in I. cbn in I. intuition.
  - rewrite <- Ux. exact E1.
  - rewrite <- Uy. exact E2.
Qed.
Lemma finalize_complete_full date pl pl' posts b : complete posts -> fold_outcome bal_add (worths posts) bal_new = Ok b -> length posts <> 1 ->
  infer_costs posts b = Ok (posts, b) -> price_loop date pl posts = Ok (pl', posts) -> finalize_posts date pl posts = Ok (pl', posts).
Proof.
  intros C Eb L I P. unfold finalize_posts. rewrite sum_posts_complete by exact C. rewrite Eb. cbn [bind].
  destruct (Nat.eqb_spec (length posts) 1); [contradiction|]. rewrite I. cbn [bind]. rewrite P. reflexivity.
Qed.
Lemma fold_same k c l b : fits_amts l -> only_in c l -> Forall (fun x => d_s (a_q x) = k) l -> fold_outcome bal_add l bal_new = Ok b ->
  Forall (fun x => d_s (a_q x) = k) b.
Proof.
  intros [W Fi] O K E. destruct l as [|a0 l0]; [injection E as <-; constructor|]. set (l := a0 :: l0) in *.
  assert (Ic : in_comm c l = l). { clear -O. unfold in_comm. induction O as [|x r Hx _ IH]; [reflexivity|]. cbn [filter]. rewrite Hx. destruct (comm_dec c c); [|congruence]. f_equal. exact IH. }
  destruct (Fi c) as (s & L & S & B). rewrite Ic in S, B. rewrite Forall_map in S. pose proof (units_scaled_sum s l W S L) as U.
  assert (Ks : k <= s). { inversion K; inversion S; subst. assumption. }
  assert (R : (weight l < 2 ^ 96 * 10 ^ Z.of_nat (28 - k))%Z).
  { unfold weight. rewrite <- map_map, U. eapply Z.lt_le_trans; [apply Z.mul_lt_mono_pos_r; [apply Z.pow_pos_nonneg; lia|exact B]|].
    apply Z.mul_le_mono_nonneg_l; [apply Z.pow_nonneg; lia|]. apply Z.pow_le_mono_r; lia. }
  destruct (fold_alike (fun _ => k) (fun _ => True) (weight l) (fun _ => True) (fun _ _ => R) (fun _ _ _ _ _ _ => I) l bal_new b) as [A _].
  - constructor.
  - unfold alike. rewrite Forall_forall in *. intros x Hx. auto.
  - apply Z.le_refl.
  - exact E.
  - eapply Forall_impl; [|exact A]. intros x (_ & _ & X & _). exact X.
Qed.
Lemma finalize_elided_full date pl pl' posts l1 p l2 c :
  one_elided posts l1 p l2 -> fits_amts (worths posts) -> only_in c (worths posts) -> 2 <= length posts ->
  price_loop date pl posts = Ok (pl', posts) ->
  exists a, finalize_posts date pl posts = Ok (pl', l1 ++ set_amount p a :: l2)
    /\ a_c a = c /\ wf_amt a /\ aunits a = (- Z.abs (total c (worths posts)))%Z
    /\ (forall k, Forall (fun x => d_s (a_q x) <= k) (worths posts) -> d_s (a_q a) <= k)
    /\ forall k, Forall (fun x => d_s (a_q x) = k) (worths posts) -> d_s (a_q a) = k.
Proof.
  intros E F O L P. destruct (bal_of_list (worths posts)) as (b & Eb & I); [apply F|intros d n; apply fits_amts_prefix, F|].
  assert (Ne : worths posts <> []).
  { destruct E as (-> & V & C1 & C2). rewrite worths_app, worths_cons, V. cbn [app]. intros X. apply app_eq_nil in X as [X1 X2].
    rewrite app_length in L. cbn [length] in L. destruct l1 as [|q l1].
    - destruct l2 as [|q l2]; [cbn in L; lia|]. inversion C2; subst. rewrite worths_cons in X2. destruct (worth q); [discriminate X2|congruence].
    - inversion C1; subst. rewrite worths_cons in X1. destruct (worth q); [discriminate X1|congruence]. }
  destruct (single_balance _ _ _ Ne O I) as (x & -> & Cx). destruct I as [_ Hv]. destruct (Hv x (or_introl eq_refl)) as [Wx Ux].
  destruct (amt_inverse_neg_abs x Wx) as [Ci Ui].
  exists (amt_inverse x). split; [|split; [congruence|split; [apply wf_amt_inverse, Wx|split; [rewrite Ui, Ux, Cx; reflexivity|split]]]].
  3: { intros k K. pose proof (fold_same k c _ _ F O K Eb) as S. inversion S; subst. unfold amt_inverse. cbn [a_q]. destruct (d_is_sign_positive (a_q x)); cbn [d_set_neg d_s]; first [assumption|reflexivity]. }
  2: { intros k K. pose proof (fold_bal_scale k _ _ _ Eb (Forall_nil _) K) as S. inversion S; subst. unfold amt_inverse. cbn [a_q]. destruct (d_is_sign_positive (a_q x)); cbn [d_set_neg d_s]; assumption. }
  destruct E as (-> & V & C1 & C2). unfold finalize_posts. rewrite sum_posts_elided by assumption. rewrite Eb. cbn [bind].
  destruct (Nat.eqb_spec (length (l1 ++ p :: l2)) 1); [lia|]. rewrite P. cbn [bind Nat.add].
  rewrite (update_nth_mid (fun p => set_amount p (amt_inverse x))). reflexivity.
Qed.

Lemma raw_worth_values fps ps (Q : amount -> Prop) : Forall2 raw_full fps ps -> (forall v b, In v (values_of fps) -> worth_is v b -> Q b) -> Forall Q (worths ps).
Proof.
  intros F H. induction F as [|fp p fps ps R F IH]; [constructor|]. rewrite worths_cons. unfold values_of in H. cbn [flat_map] in H. fold (values_of fps) in H.
  apply Forall_app. split; [|apply IH; intros v b Hv; apply H, in_or_app; right; exact Hv].
  destruct R as (_ & _ & R). destruct (fp_value fp) as [v|].
  - destruct R as (a & b & _ & _ & _ & -> & Wi). constructor; [|constructor]. apply (H v); [left; reflexivity|exact Wi].
  - destruct R as [A C]. unfold worth. rewrite A, C. constructor.
Qed.
Lemma raw_worth_units fps ps (f : amount -> Z) (g : wvalue -> Z) : Forall2 raw_full fps ps -> (forall v b, worth_is v b -> f b = g v) -> map f (worths ps) = map g (values_of fps).
Proof.
  intros F H. induction F as [|fp p fps ps R F IH]; [reflexivity|]. rewrite worths_cons, map_app, IH. unfold values_of. cbn [flat_map]. fold (values_of fps). rewrite map_app. f_equal.
  destruct R as (_ & _ & R). destruct (fp_value fp) as [v|].
  - destruct R as (a & b & _ & _ & _ & -> & Wi). cbn [map]. rewrite (H v b Wi). reflexivity.
  - destruct R as [A C]. unfold worth. rewrite A, C. reflexivity.
Qed.
Lemma raw_full_fits w fps ps : xact_ok w -> fx_posts w = fps -> Forall2 raw_full fps ps -> fits_amts (worths ps).
Proof.
  intros (_ & _ & _ & (scale & L & K & B) & _) <- F. rewrite Forall_forall in K.
  assert (W : Forall wf_amt (worths ps)) by (eapply raw_worth_values; [exact F|intros v b _ Wi; apply Wi]).
  assert (S : Forall (fun a => d_s (a_q a) <= scale) (worths ps)).
  { eapply raw_worth_values; [exact F|]. intros v b Hv (_ & _ & [S _] & _). specialize (K v Hv). lia. }
  split; [exact W|]. intros c. exists scale. split; [exact L|]. split.
  - apply Forall_map. unfold in_comm. rewrite Forall_forall in *. intros a Ha. apply filter_In in Ha as [Ha _]. auto.
  - pose proof (units_scaled_sum scale _ W S L) as E. rewrite map_map in E.
    rewrite (raw_worth_units _ _ (fun a => Z.abs (aunits a)) (fun v => Z.abs (worth_units v)) F) in E by (intros v b (_ & -> & _); reflexivity).
    rewrite E in B. apply Z.mul_lt_mono_pos_r in B; [|apply Z.pow_pos_nonneg; lia].
    eapply Z.le_lt_trans; [|exact B]. rewrite !map_map. apply in_comm_sum_le. rewrite Forall_forall in W. intros a Ha. apply scaled_abs_nonneg, W, Ha.
Qed.
Lemma total_sum c l : total c l = sumZ (map (fun a => if comm_dec (a_c a) c then aunits a else 0%Z) l).
Proof.
  unfold total, in_comm. induction l as [|a l IH]; [reflexivity|]. cbn [filter]. destruct (comm_dec (a_c a) c) eqn:E; cbn [map sumZ fold_right]; rewrite E; change (fold_right Z.add 0%Z) with sumZ; rewrite IH; [reflexivity|].
  rewrite Z.add_0_l. reflexivity.
Qed.
Lemma commodity_inj s t : commodity_of s = commodity_of t -> s = t.
Proof. destruct s, t; cbn; congruence. Qed.
Lemma raw_total fps ps s : Forall2 raw_full fps ps -> total (commodity_of s) (worths ps) = sum_of s (values_of fps).
Proof.
  intros F. rewrite total_sum. unfold sum_of. f_equal. apply raw_worth_units with (1 := F). intros v b (_ & -> & _ & C).
  rewrite C. destruct (str_eqb (worth_symbol v) s) eqn:E.
  - apply str_eqb_eq in E. rewrite E. destruct (comm_dec _ _); [reflexivity|congruence].
  - apply str_eqb_neq in E. destruct (comm_dec _ _) as [X|]; [|reflexivity]. apply commodity_inj in X. contradiction.
Qed.
Lemma elided_full (fps : list fposting) :
  Forall (fun fp => fp_value fp <> None) fps
  \/ exists l1 fp l2, fps = l1 ++ fp :: l2 /\ fp_value fp = None /\ Forall (fun fp => fp_value fp <> None) l1.
Proof.
  induction fps as [|fp fps [IH|(l1 & x & l2 & -> & E & F)]]; [left; constructor| |].
  - destruct (fp_value fp) eqn:E; [left; constructor; [congruence|exact IH]|right]. exists [], fp, fps. auto.
  - destruct (fp_value fp) eqn:E'; right; [exists (fp :: l1), x, l2|exists [], fp, (l1 ++ x :: l2)]; (split; [reflexivity|]); (split; [assumption|]); [|constructor].
    constructor; [congruence|exact F].
Qed.
Lemma raw_full_complete fps ps : Forall2 raw_full fps ps -> Forall (fun fp => fp_value fp <> None) fps -> complete ps.
Proof.
  induction 1 as [|fp p fps ps R F IH]; intros H; [constructor|]. inversion H; subst. constructor; [|apply IH; assumption].
  destruct R as (_ & _ & R). destruct (fp_value fp) as [v|]; [|congruence]. destruct R as (a & b & _ & _ & _ & -> & _). discriminate.
Qed.
Lemma raw_full_is w fps ps : (forall x y r, ~ priced_at w x y r) -> Forall2 raw_full fps ps -> Forall (fun fp => fp_value fp <> None) fps -> Forall2 (fposting_is w) fps ps.
Proof.
  intros NP. induction 1 as [|fp p fps ps R F IH]; intros H; [constructor|]. inversion H; subst. constructor; [|apply IH; assumption].
  destruct R as (A & B & R). split; [exact A|]. split; [exact B|]. destruct (fp_value fp) as [v|]; [|congruence]. destruct R as (a & b & Pa & A' & C & _).
  exists a. split; [exact Pa|]. split; [exact A'|]. split; [intros _; exact C|]. intros y r X. elim (NP _ _ _ X).
Qed.
Lemma total_nonzero_in c l : total c l <> 0%Z -> exists a, In a l /\ a_c a = c.
Proof.
  unfold total. destruct (in_comm c l) as [|a r] eqn:E; [intros X; elim X; reflexivity|]. intros _. exists a.
  assert (I : In a (in_comm c l)) by (rewrite E; left; reflexivity). unfold in_comm in I. apply filter_In in I as [I C]. destruct (comm_dec (a_c a) c); [auto|discriminate].
Qed.
Lemma raw_comm fps ps a : Forall2 raw_full fps ps -> In a (worths ps) -> exists v, In v (values_of fps) /\ a_c a = commodity_of (worth_symbol v).
Proof.
  intros F. assert (X : Forall (fun a => exists v, In v (values_of fps) /\ a_c a = commodity_of (worth_symbol v)) (worths ps)).
  { eapply raw_worth_values; [exact F|]. intros v b Hv (_ & _ & _ & C). eauto. }
  rewrite Forall_forall in X. apply X.
Qed.
Lemma raw_not_open fps ps : Forall2 raw_full fps ps -> ~ two_open (values_of fps) ->
  forall x y, x <> y -> Forall (fun a => a_c a = x \/ a_c a = y) (worths ps) -> total x (worths ps) <> 0%Z -> total y (worths ps) <> 0%Z -> False.
Proof.
  intros F N x y Nxy A Tx Ty. apply N. destruct (total_nonzero_in _ _ Tx) as (a & Ia & <-). destruct (total_nonzero_in _ _ Ty) as (b & Ib & <-).
  destruct (raw_comm _ _ _ F Ia) as (v & _ & Ev). destruct (raw_comm _ _ _ F Ib) as (v' & _ & Ev'). rewrite Ev in *. rewrite Ev' in *.
  exists (worth_symbol v), (worth_symbol v'). split; [congruence|]. split; [|rewrite <- !(raw_total fps ps) by exact F; auto].
  clear -F A. induction F as [|fp p fps ps R F IH]; [constructor|]. rewrite worths_cons in A. apply Forall_app in A as [A1 A2].
  unfold values_of. cbn [flat_map]. fold (values_of fps). apply Forall_app. split; [|apply IH, A2].
  destruct R as (_ & _ & R). destruct (fp_value fp) as [u|]; [|constructor]. destruct R as (a & b & _ & _ & _ & E & (_ & _ & _ & C)). rewrite E in A1. inversion A1 as [|? ? X _]; subst.
  constructor; [|constructor]. rewrite C in X. destruct X as [X|X]; apply commodity_inj in X; auto.
Qed.
Lemma raw_wf_post fp p : raw_full fp p -> wf_post p.
Proof.
  intros (_ & _ & R). destruct (fp_value fp) as [v|].
  - destruct R as (a & b & Pa & [A _] & C & _). split; [intros x X; rewrite Pa in X; injection X as <-; apply A|].
    intros x X. rewrite X in C. unfold cost_is in C. destruct (wv_cost v) as [[[|] w]|]; [| |discriminate].
    + destruct C as (y & [= <-] & Wy & _). exact Wy.
    + destruct C as (y & [= <-] & Wy & _). exact Wy.
  - destruct R as [A C]. split; intros x X; congruence.
Qed.
Lemma raw_wf_posts fps ps : Forall2 raw_full fps ps -> Forall wf_post ps.
Proof. induction 1; constructor; [eapply raw_wf_post; eassumption|assumption]. Qed.
Lemma sum_all s vs : Forall (fun v => worth_symbol v = s) vs -> sum_of s vs = sumZ (map worth_units vs).
Proof.
  unfold sum_of. induction 1 as [|v vs E _ IH]; [reflexivity|]. cbn [map sumZ fold_right]. change (fold_right Z.add 0%Z) with sumZ. rewrite IH, E, str_eqb_refl. reflexivity.
Qed.

(** ** Implied costs *)
Lemma raw_two w x y r ps : priced_at w x y r -> Forall2 raw_full (fx_posts w) ps -> two_commodities ps (commodity_of x) (commodity_of y).
Proof.
  intros (N & A & O & Sx & Sy & (v & rest & Ev & Hv) & _) F. split; [intros X; apply N, commodity_inj, X|].
  rewrite !(raw_total _ _ _ F). split; [|split; [exact Sx|split; [exact Sy|]]].
  - intros c. split.
    + intros H. apply in_map_iff in H as (a & <- & Ha). destruct (raw_comm _ _ _ F Ha) as (u & Hu & ->). rewrite Forall_forall in O. destruct (O u Hu) as [->| ->]; auto.
    + intros [->| ->].
      * rewrite <- (raw_total _ _ _ F) in Sx. destruct (total_nonzero_in _ _ Sx) as (a & Ha & <-). apply in_map, Ha.
      * rewrite <- (raw_total _ _ _ F) in Sy. destruct (total_nonzero_in _ _ Sy) as (a & Ha & <-). apply in_map, Ha.
  - destruct (fx_posts w) as [|fp fps]; [discriminate Ev|]. inversion A as [|? ? Nf _]; subst. inversion F as [|? p ? ps' R F']; subst.
    destruct R as (_ & _ & R). unfold values_of in Ev. cbn [flat_map] in Ev. destruct (fp_value fp) as [u|]; [|congruence]. cbn [app] in Ev. injection Ev as -> _.
    destruct R as (a & b & Pa & ((_ & _ & _ & Ca) & _) & _ & Wo & (_ & _ & _ & Cb)). exists a. split; [exists [], p, ps'; split; [reflexivity|split; [exact Pa|constructor]]|].
    rewrite Ca. destruct Hv as [->|[N1 E1]]; [left; reflexivity|right]. split; [intros X; apply N1, commodity_inj, X|].
    rewrite worths_cons, Wo. cbn [app map]. rewrite Cb, E1. cbn [firsts]. eexists. reflexivity.
Qed.
Lemma priced_unique w x y r x' y' r' ps : Forall2 raw_full (fx_posts w) ps -> priced_at w x y r -> priced_at w x' y' r' -> x' = x /\ y' = y /\ r' = r.
Proof.
  intros F H H'. destruct (two_unique _ _ _ _ _ (raw_two _ _ _ _ _ H F) (raw_two _ _ _ _ _ H' F)) as [E1 E2]. apply commodity_inj in E1, E2. subst.
  split; [reflexivity|]. split; [reflexivity|]. destruct H as (_ & _ & _ & Sx & _ & _ & E). destruct H' as (_ & _ & _ & _ & _ & _ & E').
  rewrite <- E in E'. apply Z.mul_reg_r in E'; [exact E'|]. lia.
Qed.
Lemma dec_multiple d n : d_s d <= n -> n <= 28 -> (p10 (28 - n) | units d)%Z.
Proof. intros L L'. rewrite units_eq. apply Z.divide_mul_r, p10_divide. lia. Qed.
Lemma total_multiple m c l : Forall (fun a => (m | aunits a)%Z) l -> (m | total c l)%Z.
Proof.
  rewrite total_sum. induction 1 as [|a l H _ IH]; cbn [map sumZ fold_right]; [apply Z.divide_0_r|]. change (fold_right Z.add 0%Z) with sumZ.
  apply Z.divide_add_r; [|exact IH]. destruct (comm_dec _ _); [exact H|apply Z.divide_0_r].
Qed.
Lemma representable_bound r : representable r -> (Z.abs r <= (2 ^ 96 - 1) * unit1)%Z.
Proof.
  intros (d & [M S] & <-). rewrite units_eq. assert (A : Z.abs (d_signed d) = d_m d) by (unfold d_signed; destruct (d_neg d); lia).
  rewrite Z.abs_mul, A. pose proof (p10_pos (28 - d_s d)) as P. rewrite (Z.abs_eq (p10 _)) by lia.
  assert (L : (p10 (28 - d_s d) <= unit1)%Z). { rewrite unit1_p10. unfold p10. apply Z.pow_le_mono_r; lia. }
  apply Z.mul_le_mono_nonneg; lia.
Qed.
Lemma str_dec (s t : str) : s = t \/ s <> t.
Proof. destruct (str_eqb s t) eqn:E; [left; apply str_eqb_eq, E|right; apply str_eqb_neq, E]. Qed.
Lemma loads_bound x y r fps ps : x <> y -> Forall2 raw_full fps ps -> Forall (fun v => wa_symbol (wv_amount v) = x -> wv_cost v = None) (values_of fps) ->
  (Z.abs (total (commodity_of x) (worths ps)) + Z.abs (total (commodity_of y) (worths ps)) + sumZ (map (load (commodity_of x) r) ps)
   <= sumZ (map (fun v => 2 * Z.abs (worth_units v) + if str_eqb (wa_symbol (wv_amount v)) x then Z.abs (rate_cost r v) else 0) (values_of fps)))%Z.
Proof.
  intros N F. rewrite !total_sum. induction F as [|fp p fps ps R F IH]; intros H; [apply Z.le_refl|].
  unfold values_of in *. cbn [flat_map] in *. fold (values_of fps) in *. apply Forall_app in H as [H1 H2]. specialize (IH H2). rewrite worths_cons, !map_app.
  cbn [map]. change (sumZ (load (commodity_of x) r p :: map (load (commodity_of x) r) ps)) with (load (commodity_of x) r p + sumZ (map (load (commodity_of x) r) ps))%Z.
  rewrite !sumZ_app. destruct R as (_ & _ & R). destruct (fp_value fp) as [v|].
  2: { destruct R as [A C]. unfold worth, load. rewrite A, C. exact IH. }
  destruct R as (a & b & Pa & ((_ & Ua & _ & Ca) & _) & _ & Wo & (_ & Ub & _ & Cb)). rewrite Wo. inversion H1 as [|? ? H1' _]; subst. unfold load at 1. rewrite Pa.
  cbn [map sumZ fold_right]. rewrite !Z.add_0_r, Ca, Cb, Ua, Ub.
  assert (B : (Z.abs (if comm_dec (commodity_of (worth_symbol v)) (commodity_of x) then worth_units v else 0)
     + Z.abs (if comm_dec (commodity_of (worth_symbol v)) (commodity_of y) then worth_units v else 0) <= Z.abs (worth_units v))%Z).
  { destruct (comm_dec _ (commodity_of x)) as [E|]; destruct (comm_dec _ (commodity_of y)) as [E'|]; try lia. exfalso. apply N, commodity_inj. congruence. }
  assert (D : ((if comm_dec (commodity_of (wa_symbol (wv_amount v))) (commodity_of x) then Z.abs (wa_units (wv_amount v)) + Z.abs (at_rate r (wa_units (wv_amount v))) else 0)
     <= Z.abs (worth_units v) + if str_eqb (wa_symbol (wv_amount v)) x then Z.abs (rate_cost r v) else 0)%Z).
  { destruct (str_eqb _ x) eqn:E.
    - apply str_eqb_eq in E. destruct (comm_dec (commodity_of (wa_symbol (wv_amount v))) (commodity_of x)) as [_|X]; [|elim X; rewrite E; reflexivity]. unfold worth_units. rewrite (H1' E). apply Z.le_refl.
    - apply str_eqb_neq in E. destruct (comm_dec (commodity_of (wa_symbol (wv_amount v))) (commodity_of x)) as [X|_]; [apply commodity_inj in X; contradiction|]. lia. }
  lia.
Qed.
Lemma raw_payable x r scale fps ps : Forall2 raw_full fps ps -> Forall (fun fp => fp_value fp <> None) fps -> scale <= 28 ->
  Forall (fun v => worth_decimals v <= scale) (values_of fps) ->
  Forall (fun v => wa_symbol (wv_amount v) = x ->
        wv_cost v = None /\ (rate_cost r v * unit1 = r * wa_units (wv_amount v))%Z /\ (10 ^ Z.of_nat (28 - scale) | rate_cost r v)%Z) (values_of fps) ->
  Forall (payable (commodity_of x) r scale) ps.
Proof.
  intros F A L. induction F as [|fp p fps ps R F IH]; intros D H; [constructor|]. inversion A as [|? ? N A']; subst.
  unfold values_of in *. cbn [flat_map] in *. fold (values_of fps) in *. apply Forall_app in H as [H1 H2]. apply Forall_app in D as [D1 D2]. constructor; [|apply IH; assumption].
  destruct R as (_ & _ & R). destruct (fp_value fp) as [v|]; [|congruence]. destruct R as (a & b & Pa & ((Wa & Ua & Sa & Ca) & _) & _). exists a. split; [exact Pa|]. split; [exact Wa|].
  rewrite Ca. intros E. apply commodity_inj in E. inversion H1 as [|? ? H1' _]; inversion D1 as [|? ? D1' _]; subst. destruct (H1' eq_refl) as (C & K & M).
  unfold worth_decimals in D1'. rewrite C in D1'. rewrite <- Ua in K. split; [apply dec_multiple; [rewrite Sa|]; assumption|]. unfold rate_cost in *. rewrite Ua in *. split; [exact M|exact K].
Qed.
Lemma rate_price r k a : representable r -> (k * unit1 = r * a)%Z -> (a <> 0 -> 2 * Z.abs k < (2 ^ 97 - 1) * Z.abs a)%Z.
Proof.
  intros R E N. apply representable_bound in R. assert (U : (0 < unit1)%Z) by reflexivity. set (u := unit1) in *. clearbody u.
  assert (E' : (Z.abs k * u = Z.abs r * Z.abs a)%Z) by (rewrite <- Z.abs_mul, <- E, Z.abs_mul; lia).
  assert (M : (Z.abs r * Z.abs a <= (2 ^ 96 - 1) * u * Z.abs a)%Z) by (apply Z.mul_le_mono_nonneg_r; lia).
  assert (K : (Z.abs k <= (2 ^ 96 - 1) * Z.abs a)%Z). { apply (Zmult_le_reg_r _ _ u); [lia|]. rewrite E'. lia. }
  lia.
Qed.

Lemma costed_posts (P : str -> Z -> Prop) w x y r pl cy fps ps : priced_at w x y r ->
  (forall x' y' r', priced_at w x' y' r' -> x' = x /\ y' = y /\ r' = r) -> x <> y -> x <> [] -> y <> [] -> representable r -> pool_find pl y = Some cy ->
  Forall2 raw_full fps ps -> forall ps', Forall2 (costed (commodity_of x) (commodity_of y) r) ps ps' ->
  Forall (fun fp => fp_value fp <> None) fps -> Forall (both_known pl) (values_of fps) ->
  Forall (fun v => has_cost w v -> lot_small P (wa_symbol (wv_amount v)) (wa_units (wv_amount v))) (values_of fps) -> Forall cost_fits (values_of fps) ->
  Forall2 (fposting_is w) fps ps' /\ Forall (priceable P pl) ps' /\ Forall wf_post ps'.
Proof.
  intros HP U N Nx Ny Rr Fy F. induction F as [|fp p fps ps R F IH]; intros ps' Fc A K Lo C; inversion Fc as [|? p' ? ps1 Cp Fc']; subst; [split; [|split]; constructor|].
  inversion A as [|? ? Nf A']; subst. unfold values_of in *. cbn [flat_map] in *. fold (values_of fps) in *.
  apply Forall_app in K as [K1 K2]. apply Forall_app in Lo as [Lo1 Lo2]. apply Forall_app in C as [C1 C2].
  destruct (IH ps1 Fc' A' K2 Lo2 C2) as (I1 & I2 & I3). pose proof R as (Ra & Rn & Rv). destruct (fp_value fp) as [v|] eqn:Ev; [|congruence].
  inversion K1 as [|? ? K1' _]; inversion Lo1 as [|? ? Lo1' _]; inversion C1 as [|? ? C1' _]; subst.
  destruct Rv as (a & b & Pa & [Am Pl] & Ci & Wo & Wi). destruct Cp as (a' & Pa' & Ko & Kc). rewrite Pa in Pa'. injection Pa' as <-. pose proof Am as (Wa & Ua & Sa & Ca).
  destruct (str_dec (wa_symbol (wv_amount v)) x) as [E|E].
  - destruct Kc as (k & -> & Wk & Ck & Uk); [rewrite Ca, E; reflexivity|]. rewrite Ua in Uk. split; [|split].
    + constructor; [|exact I1]. split; [exact Ra|]. split; [exact Rn|]. cbn [po_amount po_cost]. rewrite Ev. exists a. split; [reflexivity|]. split; [split; [exact Am|exact Pl]|].
      rewrite E. split; [intros X; elim (X _ _ HP)|]. intros y' r' X. destruct (U _ _ _ X) as (_ & -> & ->). exists k. auto.
    + constructor; [|exact I2]. intros cost [= <-]. destruct K1' as [K1' _]. rewrite E in *. destruct (K1' Nx) as (cx & Fx). exists a, x, y, cx, cy.
      rewrite commodity_some in Ca, Ck by assumption. split; [reflexivity|]. split; [exact Wa|]. split; [exact Wk|]. split; [exact Ca|]. split; [exact Ck|].
      split; [exact N|]. split; [exact Fx|]. split; [exact Fy|]. rewrite Ua. split; [exact (rate_price r _ _ Rr Uk)|]. apply Lo1'. right. rewrite E. eauto.
    + constructor; [|exact I3]. split; cbn [po_amount po_cost]; intros z [= <-]; assumption.
  - rewrite Ko by (rewrite Ca; intros X; apply E, commodity_inj, X). split; [|split].
    + constructor; [|exact I1]. split; [exact Ra|]. split; [exact Rn|]. rewrite Ev. exists a. split; [exact Pa|]. split; [split; [exact Am|exact Pl]|]. split; [intros _; exact Ci|].
      intros y' r' X. destruct (U _ _ _ X) as (X1 & _). contradiction.
    + constructor; [|exact I2]. eapply raw_priceable; [exact R|]. intros v' Ev'. rewrite Ev in Ev'. injection Ev' as <-. split; [exact C1'|]. split; [exact K1'|]. intros X. apply Lo1'. left. exact X.
    + constructor; [|exact I3]. eapply raw_wf_post. exact R.
Qed.
Lemma finalize_priced (P : str -> Z -> Prop) w d pl ps : exactly_priced w -> 2 <= length (fx_posts w) -> fits_amts (worths ps) -> Forall cost_fits (values_of (fx_posts w)) ->
  Forall2 raw_full (fx_posts w) ps -> valid_date d -> wf_pool pl -> lots_in P pl ->
  Forall (both_known pl) (values_of (fx_posts w)) ->
  Forall (fun v => has_cost w v -> lot_small P (wa_symbol (wv_amount v)) (wa_units (wv_amount v))) (values_of (fx_posts w)) ->
  exists pl' ps' rs, finalize_posts (Some d) pl ps = Ok (pl', ps') /\ Forall2 (fposting_is w) (fx_posts w) ps'
    /\ wf_pool pl' /\ lots_in P pl' /\ price_records (mkDT d midnight) ps' rs /\ prices_after pl rs pl'.
Proof.
  intros (x & y & r & scale & HP & Nx & Ny & Rr & L & D & H & B) L2 Fi C F Vd W Lp K Lo. cbv zeta in *.
  pose proof (raw_two _ _ _ _ _ HP F) as TC. pose proof HP as (N & A & O & Sx & Sy & _ & Er).
  pose proof (raw_full_complete _ _ F A) as Cm.
  destruct (bal_of_list (worths ps)) as (b & Eb & I); [apply Fi|intros z n; apply fits_amts_prefix, Fi|].
  assert (M : forall c, (p10 (28 - scale) | total c (worths ps))%Z).
  { intros c. apply total_multiple. eapply raw_worth_values; [exact F|]. intros v z Hv (_ & _ & [S _] & _). rewrite Forall_forall in D. specialize (D v Hv). apply dec_multiple; [lia|exact L]. }
  assert (H' : Forall (fun v => wa_symbol (wv_amount v) = x -> wv_cost v = None) (values_of (fx_posts w))).
  { eapply Forall_impl; [|exact H]. cbv beta. intros v Hv E. destruct (Hv E) as [X _]. exact X. }
  destruct (infer_some ps b (commodity_of x) (commodity_of y) y r scale I Cm TC (commodity_some _ Ny) L Rr) as (ps' & b' & Ei & Fc).
  { assert (U : (0 < unit1)%Z) by reflexivity. clear -Er Sx U. destruct (Z.le_gt_cases 0 r) as [R|R]; [exact R|]. exfalso. assert (X : (0 < Z.abs (sum_of x (values_of (fx_posts w))))%Z) by lia.
    pose proof (Z.mul_neg_pos _ _ R X) as Y. rewrite Er in Y. pose proof (Z.mul_nonneg_nonneg (Z.abs (sum_of y (values_of (fx_posts w)))) unit1 (Z.abs_nonneg _) (Z.lt_le_incl _ _ U)) as Y'. apply Z.lt_nge in Y. contradiction. }
  { rewrite (raw_total _ _ x F), (raw_total _ _ y F). exact Er. }
  { eapply raw_payable; eassumption. }
  { apply M. } { apply M. }
  { eapply Z.le_lt_trans; [apply (loads_bound x y r _ _ N F H')|exact B]. }
  (* the other commodity is known *)
  assert (Ky : exists c, pool_find pl y = Some c).
  { rewrite <- (raw_total _ _ _ F) in Sy. destruct (total_nonzero_in _ _ Sy) as (a & Ha & Ca). destruct (raw_comm _ _ _ F Ha) as (v & Hv & Cv). rewrite Cv in Ca. apply commodity_inj in Ca.
    rewrite Forall_forall in K. destruct (K v Hv) as [K1 K2]. unfold worth_symbol in Ca. destruct (wv_cost v) as [[u c]|]; subst y; [apply (K2 _ _ eq_refl Ny)|apply K1, Ny]. }
  destruct Ky as (cy & Fy).
  assert (G : Forall2 (fposting_is w) (fx_posts w) ps' /\ Forall (priceable P pl) ps' /\ Forall wf_post ps').
  { eapply (costed_posts P w x y r pl cy (fx_posts w) ps); try eassumption. intros x' y' r'. apply (priced_unique w x y r x' y' r' ps F HP). }
  destruct G as (G1 & G2 & G3).
  destruct (price_loop_some d P ps' Vd pl W Lp G2) as (pl' & Ep & L').
  destruct (price_loop_records d ps' pl pl' ps' W Vd G3 Ep) as (rs & Rr' & Vr & Ra).
  destruct (record_all_prices _ _ _ W Vr Ra) as (W' & _ & Pa).
  exists pl', ps', rs. split; [|auto 10]. unfold finalize_posts. rewrite sum_posts_complete by exact Cm. rewrite Eb. cbn [bind].
  pose proof (Forall2_len _ _ _ F) as Len. destruct (Nat.eqb_spec (length ps) 1); [lia|]. rewrite Ei. cbn [bind]. rewrite Ep. reflexivity.
Qed.

Lemma sum_occurs s vs : sum_of s vs <> 0%Z -> exists v, In v vs /\ worth_symbol v = s.
Proof.
  unfold sum_of. induction vs as [|v vs IH]; cbn [map sumZ fold_right]; [congruence|]. change (fold_right Z.add 0%Z) with sumZ.
  destruct (str_eqb (worth_symbol v) s) eqn:E; [intros _; exists v; split; [left; reflexivity|apply str_eqb_eq, E]|].
  rewrite Z.add_0_l. intros H. destruct (IH H) as (w & Hw & Ew). exists w. split; [right; exact Hw|exact Ew].
Qed.
Lemma one_symbol_unpriced w sym : Forall (fun v => worth_symbol v = sym) (values_of (fx_posts w)) -> forall x y r, ~ priced_at w x y r.
Proof.
  rewrite Forall_forall. intros H x y r (N & _ & _ & Sx & Sy & _). destruct (sum_occurs _ _ Sx) as (v & Hv & <-). destruct (sum_occurs _ _ Sy) as (v' & Hv' & <-).
  apply N. rewrite (H v Hv), (H v' Hv'). reflexivity.
Qed.
Lemma closed_unpriced w : ~ two_open (values_of (fx_posts w)) -> forall x y r, ~ priced_at w x y r.
Proof. intros H x y r (N & _ & O & Sx & Sy & _). apply H. exists x, y. auto. Qed.

Lemma finalize_full (P : str -> Z -> Prop) w d pl ps : xact_ok w -> Forall2 raw_full (fx_posts w) ps -> valid_date d -> wf_pool pl -> lots_in P pl ->
  Forall (both_known pl) (values_of (fx_posts w)) ->
  Forall (fun v => has_cost w v -> lot_small P (wa_symbol (wv_amount v)) (wa_units (wv_amount v))) (values_of (fx_posts w)) ->
  exists pl' ps' rs, finalize_posts (Some d) pl ps = Ok (pl', ps') /\ Forall2 (fposting_is w) (fx_posts w) ps'
    /\ wf_pool pl' /\ lots_in P pl' /\ price_records (mkDT d midnight) ps' rs /\ prices_after pl rs pl'.
Proof.
  intros OK F Vd W L K B. pose proof (raw_full_fits w _ ps OK eq_refl F) as Fi. destruct OK as (L2 & U & C & _ & Cm).
  assert (X : exactly_priced w \/ (forall x y r, ~ priced_at w x y r) /\ ((exists sym, Forall (fun v => worth_symbol v = sym) (values_of (fx_posts w)))
      \/ Forall (fun p => fp_value p <> None) (fx_posts w) /\ ~ two_open (values_of (fx_posts w)))).
  { destruct Cm as [(sym & Hs)|[[A No]|Hp]]; [right|right|left; exact Hp]; (split; [|eauto]); [eapply one_symbol_unpriced; exact Hs|apply closed_unpriced, No]. }
  clear Cm. destruct X as [X|[NP Cm]]; [eapply finalize_priced; eassumption|].
  assert (B' : Forall (fun v => wv_cost v <> None -> lot_small P (wa_symbol (wv_amount v)) (wa_units (wv_amount v))) (values_of (fx_posts w))).
  { eapply Forall_impl; [|exact B]. cbn. intros v Hv Hc. apply Hv. left. exact Hc. }
  pose proof (Forall2_len _ _ _ F) as Len.
  destruct (price_loop_some d P ps Vd pl W L (raws_priceable P pl _ _ F C K B')) as (pl' & Ep & L').
  destruct (price_loop_records d ps pl pl' ps W Vd (raw_wf_posts _ _ F) Ep) as (rs & Rr & Vr & Ra).
  destruct (record_all_prices _ _ _ W Vr Ra) as (W' & _ & Pa).
  destruct (elided_full (fx_posts w)) as [A|(l1 & fp & l2 & E & N & A1)].
  - exists pl', ps, rs. split; [|split; [apply raw_full_is; assumption|auto]].
    destruct (bal_of_list (worths ps)) as (b & Eb & I); [apply Fi|intros x n; apply fits_amts_prefix, Fi|].
    eapply finalize_complete_full; [eapply raw_full_complete; eassumption|exact Eb|lia| |exact Ep].
    destruct Cm as [(sym & Hs)|[_ No]].
    + apply (only_no_infer ps b (worths ps) (commodity_of sym)); [|exact I]. eapply raw_worth_values; [exact F|]. intros v x Hv (_ & _ & _ & ->). rewrite Forall_forall in Hs. rewrite (Hs v Hv). reflexivity.
    + apply (open_no_infer ps b (worths ps) I). apply (raw_not_open _ _ F No).
  - assert (A2 : Forall (fun fp => fp_value fp <> None) l2).
    { apply Forall_forall. intros x Hx Nx. apply In_nth_error in Hx as (i & Hi).
      assert (X : length l1 = length l1 + S i); [|lia]. apply U; rewrite E.
      - rewrite nth_error_app2 by lia. rewrite Nat.sub_diag. cbn. rewrite N. reflexivity.
      - rewrite nth_error_app2 by lia. replace (length l1 + S i - length l1) with (S i) by lia. cbn. rewrite Hi. cbn. rewrite Nx. reflexivity. }
    destruct Cm as [(sym & Hs)|[No _]].
    2: { exfalso. rewrite E in No. apply Forall_app in No as [_ No]. inversion No; subst. congruence. }
    assert (O : only_in (commodity_of sym) (worths ps)).
    { eapply raw_worth_values; [exact F|]. intros v x Hv (_ & _ & _ & ->). rewrite Forall_forall in Hs. rewrite (Hs v Hv). reflexivity. }
    pose proof (raw_total _ _ sym F) as T. rewrite (sum_all _ _ Hs) in T.
    pose proof F as F0. rewrite E in F. apply Forall2_app_inv_l in F as (p1 & p' & F1 & F' & ->). inversion F' as [|? p ? p2 R F2]; subst p'. subst.
    destruct R as (Ra1 & Rn & Rm). rewrite N in Rm. destruct Rm as [Rm Rc].
    assert (OE : one_elided (p1 ++ p :: p2) p1 p p2).
    { split; [reflexivity|]. split; [unfold worth; rewrite Rm, Rc; reflexivity|]. split; eapply raw_full_complete; eassumption. }
    destruct (finalize_elided_full (Some d) pl pl' _ p1 p p2 (commodity_of sym) OE Fi O ltac:(lia) Ep) as (a & Ef & Ca & Wa & Ua & Sa & Se).
    eexists pl', _, rs. split; [exact Ef|]. split; [|split; [exact W'|split; [exact L'|split; [|exact Pa]]]].
    + rewrite E. apply Forall2_app; [apply raw_full_is; assumption|]. constructor; [|apply raw_full_is; assumption].
      split; [exact Ra1|]. split; [exact Rn|]. exists a. split; [reflexivity|]. rewrite N. split; [exact Rc|]. split; [rewrite Ua, T; reflexivity|].
      split; [eapply Forall_impl; [|exact Hs]; intros v Hv; rewrite Hv; exact Ca|]. split; [exact Wa|]. split; intros n Hn; [apply Sa|apply Se]; (eapply raw_worth_values; [exact F0|]); intros v b Hv (_ & _ & [S S'] & _); rewrite Forall_forall in Hn; specialize (Hn v Hv); [lia|].
      destruct Hn as [<- Hn]. apply S', Hn.
    + apply price_records_fill; [|exact Rr]. apply OE.
Qed.
