(** Proofs of C01-C05 from the facts about decimals and balances. *)
From Coq Require Import String List NArith ZArith Bool Lia Permutation ZifyBool ZifyNat ZifyN.
From Verif Require Import Base BaseFacts Decimal Amount Balance SpecDecimal SpecAmount
  DecimalFacts BalanceFacts.
Import ListNotations.
Open Scope Z_scope.

(** Literal amounts and quantities in examples. *)
Ltac wf_lit := unfold wf_amt, wf_dec; cbn [a_q d_m d_s]; lia.

Lemma quantity_round_trip d :
  wf_dec d ->
  exists r, d_from_str (d_to_string d) = Some r /\ units r = units d /\ d_s r = d_s d
            /\ (units d <> 0 -> r = d).
Proof.
  intros H. rewrite d_round_trip by exact H. eexists. split; [reflexivity|]. split; [|split].
  - rewrite !units_eq. cbn [d_make d_s]. rewrite d_signed_make by apply H. reflexivity.
  - reflexivity.
  - rewrite units_zero by exact H. intros Hz. destruct d as [n m s]. cbn [d_m d_neg d_s] in *.
    unfold d_make. destruct (Z.eqb_spec m 0); [contradiction|reflexivity].
Qed.
Lemma quantity_text_injective a b :
  wf_dec a -> wf_dec b -> d_to_string a = d_to_string b -> units a = units b /\ d_s a = d_s b.
Proof.
  intros Ha Hb E. destruct (quantity_round_trip a Ha) as (r & R1 & R2 & R3 & _).
  destruct (quantity_round_trip b Hb) as (t & T1 & T2 & T3 & _). rewrite E, T1 in R1.
  injection R1 as ->. split; congruence.
Qed.
Lemma read_exactly s d :
  d_from_str s = Some d ->
  wf_dec d /\ exists neg whole frac,
      literal_of s neg whole frac /\ d_s d = length frac
      /\ units d = (if neg then - number (whole ++ frac) else number (whole ++ frac))
                   * 10 ^ Z.of_nat (28 - length frac).
Proof.
  intros H. destruct (d_from_str_sound s d H) as (W & n & w & f & L & S & E). split; [exact W|].
  exists n, w, f. split; [exact L|]. split; [exact S|]. rewrite units_eq, E, S. reflexivity.
Qed.
Lemma read_complete sign neg whole pt frac :
  (sign = [] /\ neg = false \/ sign = [plus_c] /\ neg = false
   \/ sign = [minus_c] /\ neg = true) ->
  forallb is_digit whole = true -> forallb is_digit frac = true ->
  (pt = [] /\ frac = [] \/ pt = [point_c]) -> whole ++ frac <> [] ->
  number (whole ++ frac) < 2 ^ 96 -> (length frac <= 28)%nat ->
  exists d, d_from_str (sign ++ whole ++ pt ++ frac) = Some d
            /\ d_s d = length frac
            /\ units d = (if neg then - number (whole ++ frac) else number (whole ++ frac))
                         * 10 ^ Z.of_nat (28 - length frac).
Proof.
  intros. erewrite d_from_str_complete by eassumption. eexists. split; [reflexivity|].
  split; [reflexivity|]. rewrite units_eq. cbn [d_make d_s]. rewrite d_signed_make; [reflexivity|].
  apply number_nonneg, forallb_app_iff; auto.
Qed.
Lemma foreign_character s1 c s2 :
  is_digit c = false -> c <> point_c -> c <> underscore_c ->
  (s1 <> [] \/ (c <> plus_c /\ c <> minus_c)) ->
  d_from_str (s1 ++ c :: s2) = None.
Proof.
  intros Hd Hp Hu Hs. destruct (d_from_str (s1 ++ c :: s2)) as [d|] eqn:E; [|reflexivity]. exfalso.
  apply d_from_str_sound in E as (_ & n & w & f & (sign & body & E & Hsign & Hbody & Dw & Df & _) & _).
  assert (Hin : In c body).
  { destruct Hsign as [[-> _]|[[-> _]|[-> _]]]; cbn [app] in E.
    - rewrite <- E. apply in_or_app. right. left. reflexivity.
    - destruct s1 as [|x s1]; cbn [app] in E; injection E as E1 E2.
      + destruct Hs as [Hs|[Hs _]]; congruence.
      + rewrite <- E2. apply in_or_app. right. left. reflexivity.
    - destruct s1 as [|x s1]; cbn [app] in E; injection E as E1 E2.
      + destruct Hs as [Hs|[_ Hs]]; congruence.
      + rewrite <- E2. apply in_or_app. right. left. reflexivity. }
  assert (Hin' : In c (no_underscores body)).
  { apply filter_In. split; [exact Hin|]. apply N.eqb_neq in Hu. rewrite Hu. reflexivity. }
  rewrite forallb_forall in Dw, Df.
  destruct Hbody as [[E1 _]|E1]; rewrite E1 in Hin'.
  - rewrite (Dw c Hin') in Hd. discriminate.
  - apply in_app_or in Hin' as [Hi|[Hi|Hi]].
    + rewrite (Dw c Hi) in Hd. discriminate.
    + congruence.
    + rewrite (Df c Hi) in Hd. discriminate.
Qed.
Lemma amounts_exact a b :
  wf_amt a -> wf_amt b -> a_c a = a_c b ->
  (representable (aunits a + aunits b) ->
   (exists r, amt_add a b = Ok r /\ a_c r = a_c a /\ aunits r = aunits a + aunits b)
   /\ exists r, amt_plus a b = Ok r /\ a_c r = a_c a /\ aunits r = aunits a + aunits b)
  /\ (representable (aunits a - aunits b) ->
      exists r, amt_minus a b = Ok r /\ a_c r = a_c a /\ aunits r = aunits a - aunits b).
Proof.
  intros Ha Hb Hc. repeat split; intros.
  - destruct (amt_add_exact a b) as (r & E & _ & C & U); eauto.
  - destruct (amt_plus_exact a b) as (r & E & _ & C & U); eauto.
  - destruct (amt_minus_exact a b) as (r & E & _ & C & U); eauto.
Qed.
Lemma product_exact a b d :
  wf_dec a -> wf_dec b -> wf_dec d -> units d * unit1 = units a * units b ->
  exists r, d_mul a b = Ok r /\ units r = units d.
Proof. intros. destruct (d_mul_exact a b d) as (r & E & _ & U); eauto. Qed.
Lemma quotient_exact a b d :
  wf_dec a -> wf_dec b -> wf_dec d -> units b <> 0 -> units d * units b = units a * unit1 ->
  exists r, d_div a b = Ok r /\ units r = units d.
Proof. intros. destruct (d_div_exact a b d) as (r & E & _ & U); eauto. Qed.
Lemma inverse_refuted : exists a, wf_amt a /\ ~ opposite a (amt_inverse a) /\ amt_inverse a = a.
Proof.
  exists (mkAmt (mkDec true 100 0) (Some (lit "EUR"))). split; [split; cbn; lia|].
  split; [|reflexivity]. intros [_ H]. vm_compute in H. discriminate.
Qed.
Lemma inverse_partial a :
  wf_amt a ->
  a_c (amt_inverse a) = a_c a /\ aunits (amt_inverse a) = - Z.abs (aunits a)
  /\ (0 <= aunits a -> opposite a (amt_inverse a)).
Proof.
  intros H. destruct (amt_inverse_neg_abs a H) as [E U]. repeat split; auto. lia.
Qed.
Lemma one_entry_per_commodity b l :
  is_balance_of b l ->
  NoDup (map a_c b) /\ (forall c, In c (map a_c b) <-> exists a, In a l /\ a_c a = c)
  /\ forall c, holds b c = total c l.
Proof.
  intros H. split; [eapply bal_nodup; eauto|]. split.
  - intros c. destruct H as [-> _]. rewrite firsts_in, in_map_iff. split.
    + intros (a & E & I). eauto.
    + intros (a & I & E). eauto.
  - intros c. apply is_balance_of_total, H.
Qed.
Lemma fits_bal l :
  fits_amts l -> exists b, fold_outcome bal_add l bal_new = Ok b /\ is_balance_of b l.
Proof. intros H. apply bal_of_list; [apply H|]. intros. apply fits_amts_prefix, H. Qed.
Lemma order_independent l l' :
  fits_amts l -> Permutation l l' ->
  exists b b', fold_outcome bal_add l bal_new = Ok b /\ fold_outcome bal_add l' bal_new = Ok b'
               /\ is_balance_of b l /\ is_balance_of b' l'
               /\ forall c, holds b c = holds b' c.
Proof.
  intros H P. destruct (fits_bal l H) as (b & E & B).
  destruct (fits_bal l') as (b' & E' & B'); [eapply fits_amts_perm; eauto|].
  exists b, b'. refine (conj E (conj E' (conj B (conj B' _)))). intros c. unfold holds.
  rewrite (is_balance_of_total b l c B), (is_balance_of_total b' l' c B'). apply total_perm, P.
Qed.
