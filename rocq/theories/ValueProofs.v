(** Proofs about values of quantities (C81). *)
From Coq Require Import List NArith ZArith Bool Lia ZifyBool ZifyNat ZifyN.
From Verif Require Import Base BaseFacts Decimal Dates Amount Balance Compare SpecDecimal SpecAmount SpecDates SpecValue DecimalFacts DatesFacts BalanceFacts RoundFacts DefinedFacts.
Import ListNotations.
Open Scope Z_scope.

Lemma rhe_half_even n d : 0 < d -> half_even n d (rhe n d).
Proof.
  intros Hd. unfold half_even, rhe. pose proof (Z.div_mod n d ltac:(lia)) as E. pose proof (Z.mod_pos_bound n d Hd).
  set (q := n / d) in *. set (r := n mod d) in *.
  destruct (Z.ltb_spec (2 * r) d); [left; nia|].
  destruct (Z.ltb_spec d (2 * r)); [left; nia|].
  destruct (Z.even q) eqn:Q; [right; split; [nia|exact Q]|].
  right. split; [nia|]. rewrite Z.even_add, Q. reflexivity.
Qed.

Lemma half_even_scale c n d q : 0 < c -> half_even (n * c) (d * c) q <-> half_even n d q.
Proof.
  intros Hc. unfold half_even. replace (q * (d * c) - n * c) with ((q * d - n) * c) by ring.
  rewrite Z.abs_mul, (Z.abs_eq c) by lia. set (e := Z.abs (q * d - n)).
  replace (2 * (e * c)) with (2 * e * c) by ring.
  split; intros [H|[H H']]; [left|right; split; [|exact H']|left|right; split; [|exact H']]; nia.
Qed.

Lemma half_even_mono d n n' q q' : 0 < d -> n <= n' -> half_even n d q -> half_even n' d q' -> q <= q'.
Proof.
  intros Hd Hn H H'. destruct (Z.le_gt_cases q q') as [L|L]; [exact L|exfalso].
  unfold half_even in *.
  assert (A : 2 * (q * d - n) <= d) by lia. assert (B : - d <= 2 * (q' * d - n')) by lia.
  assert (q = q' + 1) by nia. subst q.
  assert (n = n') by nia. subst n'.
  destruct H as [H|[H E]]; [nia|]. destruct H' as [H'|[H' E']]; [nia|].
  rewrite Z.even_add, E' in E. discriminate.
Qed.

Lemma half_even_unique d n q q' : 0 < d -> half_even n d q -> half_even n d q' -> q = q'.
Proof.
  intros Hd H H'. apply Z.le_antisymm; eapply half_even_mono; eauto; lia.
Qed.

Lemma nearest_rounded num den q : den <> 0 -> nearest num den q -> rounded num den q.
Proof.
  intros Hden [W H]. split; [exact W|]. destruct H as [H|(s & m & Hs & Hq & M & Hm & F & U)]; [left; exact H|].
  right. exists s. split; [exact Hs|]. split; [exact Hq|]. unfold mantissa_at in *.
  change (10 ^ 28) with unit1 in *.
  change (10 ^ Z.of_nat (28 - s)) with (p10 (28 - s)) in *. change (10 ^ Z.of_nat s) with (p10 s) in *.
  pose proof (p10_split 28 s Hs) as E28. rewrite <- unit1_p10 in E28.
  pose proof (p10_pos s) as Ps. pose proof (p10_pos (28 - s)) as Pt.
  set (P := p10 s) in *. set (T := p10 (28 - s)) in *.
  split.
  - assert (A : Z.abs (units q * den - num) = Z.abs (m * T * Z.abs den - Z.abs num)).
    { rewrite U. pose proof (Z.sgn_abs num) as Sn. pose proof (Z.sgn_abs den) as Sd.
      destruct (Z.lt_trichotomy num 0) as [N|[N|N]].
      - rewrite (Z.sgn_neg num N) in *. destruct (Z.lt_trichotomy den 0) as [D|[D|D]]; [|lia|].
        + rewrite (Z.sgn_neg den D), (Z.abs_neq num), (Z.abs_neq den) by lia. 
          rewrite <- Z.abs_opp. f_equal. ring.
        + rewrite (Z.sgn_pos den D), (Z.abs_neq num), (Z.abs_eq den) by lia. 
          rewrite <- Z.abs_opp. f_equal. ring.
      - assert (M0 : m = 0).
        { eapply (half_even_unique (Z.abs den * unit1)); [|exact M|].
          - assert (0 < unit1) by reflexivity. apply Z.mul_pos_pos; lia.
          - subst num. left. change (Z.abs 0) with 0. rewrite !Z.mul_0_l, Z.sub_0_l. change (2 * Z.abs (- 0)) with 0.
            assert (0 < unit1) by reflexivity. apply Z.mul_pos_pos; lia. }
        subst m num. reflexivity.
      - rewrite (Z.sgn_pos num N) in *. destruct (Z.lt_trichotomy den 0) as [D|[D|D]]; [|lia|].
        + rewrite (Z.sgn_neg den D), (Z.abs_eq num), (Z.abs_neq den) by lia. f_equal. ring.
        + rewrite (Z.sgn_pos den D), (Z.abs_eq num), (Z.abs_eq den) by lia. f_equal. ring. }
    rewrite A. assert (B : 2 * Z.abs (m * (Z.abs den * unit1) - Z.abs num * P) <= Z.abs den * unit1) by (destruct M as [M|[M _]]; lia).
    rewrite E28 in B. replace (m * (Z.abs den * (T * P)) - Z.abs num * P) with ((m * T * Z.abs den - Z.abs num) * P) in B by ring.
    rewrite Z.abs_mul, (Z.abs_eq P) in B by lia. set (e := Z.abs (m * T * Z.abs den - Z.abs num)) in *. nia.
  - destruct F as [F|(m' & M' & L)]; [left; exact F|]. right.
    change (10 ^ Z.of_nat (S s)) with (p10 (S s)) in *. set (P' := p10 (S s)) in *.
    assert (B : 2 * Z.abs (m' * (Z.abs den * unit1) - Z.abs num * P') <= Z.abs den * unit1) by (destruct M' as [M'|[M' _]]; lia).
    assert (0 < Z.abs den * unit1) by (assert (0 < unit1) by reflexivity; nia).
    replace (2 ^ 97) with (2 * 2 ^ 96) by reflexivity.
    replace ((2 * 2 ^ 96 - 1) * Z.abs den * unit1) with ((2 * 2 ^ 96 - 1) * (Z.abs den * unit1)) by ring.
    replace (2 * Z.abs num * P') with (2 * (Z.abs num * P')) by ring.
    set (D := Z.abs den * unit1) in *. set (N := Z.abs num * P') in *. set (X := 2 ^ 96) in *. nia.
Qed.

Lemma nearest_unique num den q q' : den <> 0 -> nearest num den q -> nearest num den q' -> units q = units q'.
Proof.
  intros Hden H H'. pose proof (nearest_rounded _ _ _ Hden H) as R. pose proof (nearest_rounded _ _ _ Hden H') as R'.
  destruct H as [W [E|(s & m & Hs & _ & M & Hm & F & U)]].
  { symmetry. exact (rounded_exact _ _ _ _ Hden R' W E). }
  destruct H' as [W' [E|(s' & m' & Hs' & _ & M' & Hm' & F' & U')]].
  { exact (rounded_exact _ _ _ _ Hden R W' E). }
  unfold mantissa_at in *.
  assert (D : 0 < Z.abs den * 10 ^ 28) by (assert (0 < 10 ^ 28) by reflexivity; nia).
  assert (G : forall s s' m m1, (s < s')%nat -> (s' <= 28)%nat -> half_even (Z.abs num * 10 ^ Z.of_nat s') (Z.abs den * 10 ^ 28) m ->
              m < 2 ^ 96 -> half_even (Z.abs num * 10 ^ Z.of_nat (S s)) (Z.abs den * 10 ^ 28) m1 -> 2 ^ 96 <= m1 -> False).
  { intros x y u v Lt _ A B A' B'. enough (v <= u) by lia. apply (half_even_mono _ _ _ _ _ D) with (2 := A') (3 := A).
    apply Z.mul_le_mono_nonneg_l; [lia|]. apply Z.pow_le_mono_r; lia. }
  assert (s = s').
  { destruct (Nat.lt_trichotomy s s') as [L|[L|L]]; [exfalso|exact L|exfalso].
    - destruct F as [F|(m1 & M1 & L1)]; [lia|]. exact (G s s' m' m1 L Hs' M' Hm' M1 L1).
    - destruct F' as [F'|(m1 & M1 & L1)]; [lia|]. exact (G s' s m m1 L Hs M Hm M1 L1). }
  subst s'. rewrite U, U'. rewrite (half_even_unique _ _ _ _ D M M'). reflexivity.
Qed.

Lemma d_reduced_nearest z sg num den r :
  0 < den -> num * p10 sg = z * unit1 * den -> d_reduced z sg = Ok r -> nearest num den r.
Proof.
  intros Hden Hn H. pose proof (d_reduced_wf _ _ _ H) as W. split; [exact W|].
  unfold d_reduced in H. destruct (reduce (Z.abs z) sg) as [[m s]|] eqn:R; [|discriminate].
  injection H as <-. unfold reduce in R. assert (R' := R). apply reduce_from_wf in R'; [|lia]. destruct R' as (Rm & Rs & Rsg).
  apply reduce_from_spec in R as (k & Hks & -> & -> & _ & _ & Hk).
  set (m := rhe (Z.abs z) (p10 k)) in *. set (s := (sg - k)%nat) in *.
  assert (U : units (d_make (z <? 0) m s) = (if z <? 0 then - m else m) * p10 (28 - s)).
  { rewrite units_eq, d_signed_make by lia. reflexivity. }
  assert (Pu : 0 < unit1) by reflexivity. pose proof (p10_pos sg) as Psg.
  assert (An : Z.abs num * p10 sg = Z.abs z * unit1 * den).
  { assert (A : Z.abs (num * p10 sg) = Z.abs (z * unit1 * den)) by (rewrite Hn; reflexivity).
    rewrite !Z.abs_mul in A. rewrite (Z.abs_eq (p10 sg)), (Z.abs_eq unit1), (Z.abs_eq den) in A by lia. exact A. }
  assert (Mant : forall j, (j <= sg)%nat -> mantissa_at num den (sg - j) (rhe (Z.abs z) (p10 j))).
  { intros j Hj. unfold mantissa_at. change (10 ^ Z.of_nat (sg - j)) with (p10 (sg - j)). change (10 ^ 28) with unit1.
    rewrite (Z.abs_eq den) by lia. pose proof (p10_pos j) as Pj.
    apply (half_even_scale (p10 j)); [exact Pj|].
    replace (Z.abs num * p10 (sg - j) * p10 j) with (Z.abs z * (unit1 * den)).
    2:{ rewrite (p10_split sg j Hj) in An. transitivity (Z.abs z * unit1 * den); [ring|]. rewrite <- An. ring. }
    replace (den * unit1 * p10 j) with (p10 j * (unit1 * den)) by ring.
    apply half_even_scale; [nia|]. apply rhe_half_even, Pj. }
  destruct Hk as [->|(k0 & -> & Hk0)].
  - left. change (p10 0) with 1 in m. assert (m = Z.abs z) as ->.
    { unfold m. rewrite rhe_exact; [apply Z.div_1_r|lia|apply Z.divide_1_l]. }
    subst s. rewrite Nat.sub_0_r in *. rewrite U. unfold MAXS in Rs.
    pose proof (p10_split 28 sg Rs) as E. rewrite <- unit1_p10 in E.
    apply (Z.mul_reg_r _ _ (p10 sg)); [lia|]. rewrite Hn.
    replace (if z <? 0 then - Z.abs z else Z.abs z) with z by (destruct (Z.ltb_spec z 0); lia).
    rewrite E. ring.
  - right. exists s, m. unfold MAXS, MAXM in *. split; [exact Rs|]. split; [cbn [d_make d_s]; lia|].
    split; [apply Mant; lia|]. split; [apply Rm|]. split.
    + destruct Hk0 as [Hk0|Hk0]; [|left; unfold s; lia]. right. exists (rhe (Z.abs z) (p10 k0)). split; [|exact Hk0].
      replace (S s) with (sg - k0)%nat by (unfold s; lia). apply Mant. lia.
    + rewrite U. change (10 ^ Z.of_nat (28 - s)) with (p10 (28 - s)). f_equal.
      rewrite (Z.sgn_pos den Hden).
      assert (Sg : Z.sgn num = Z.sgn z).
      { assert (A : Z.sgn (num * p10 sg) = Z.sgn (z * unit1 * den)) by (rewrite Hn; reflexivity).
        rewrite !Z.sgn_mul, (Z.sgn_pos (p10 sg)), (Z.sgn_pos unit1), (Z.sgn_pos den) in A by lia. lia. }
      rewrite Sg. destruct (Z.ltb_spec z 0) as [N|N]; [rewrite Z.sgn_neg by lia; ring|].
      destruct (Z.eq_dec z 0) as [Ez|Nz]; [|rewrite Z.sgn_pos by lia; ring].
      rewrite Ez. cbn [Z.sgn]. unfold m. rewrite Ez. change (Z.abs 0) with 0.
      rewrite rhe_exact; [|apply p10_pos|apply Z.divide_0_r]. rewrite Z.div_0_l by (pose proof (p10_pos (S k0)); lia). ring.
Qed.

Lemma d_add_nearest a b r : wf_dec a -> wf_dec b -> d_add a b = Ok r -> nearest (units a + units b) 1 r.
Proof.
  intros Wa Wb H. unfold d_add in H. destruct (d_is_zero a) eqn:Za.
  { injection H as <-. apply d_is_zero_units in Za; [|exact Wa]. split; [exact Wb|]. left. lia. }
  destruct (d_is_zero b) eqn:Zb.
  { injection H as <-. apply d_is_zero_units in Zb; [|exact Wb]. split; [exact Wa|]. left. lia. }
  eapply d_reduced_nearest; [|  |exact H]; [lia|].
  destruct (align a b) as [Aa Ab]; [apply Wa|apply Wb|]. rewrite <- Aa, <- Ab. rewrite Z.mul_1_r, unit1_p10.
  assert (Nat.max (d_s a) (d_s b) <= 28)%nat by (destruct Wa, Wb; lia).
  rewrite (p10_split 28 (Nat.max (d_s a) (d_s b))) by assumption. ring.
Qed.

Lemma d_sub_nearest a b r : wf_dec a -> wf_dec b -> d_sub a b = Ok r -> nearest (units a - units b) 1 r.
Proof.
  intros Wa Wb H. unfold d_sub in H. destruct (d_is_zero a) eqn:Za.
  { injection H as <-. apply d_is_zero_units in Za; [|exact Wa]. destruct (d_is_zero b) eqn:Zb.
    - apply d_is_zero_units in Zb; [|exact Wb]. split; [exact Wb|]. left. lia.
    - split; [exact Wb|]. left. rewrite Za, !units_eq. unfold d_signed. cbn [d_neg d_m d_s]. destruct (d_neg b); cbn [negb]; ring. }
  destruct (d_is_zero b) eqn:Zb.
  { injection H as <-. apply d_is_zero_units in Zb; [|exact Wb]. split; [exact Wa|]. left. lia. }
  eapply d_reduced_nearest; [|  |exact H]; [lia|].
  destruct (align a b) as [Aa Ab]; [apply Wa|apply Wb|]. rewrite <- Aa, <- Ab. rewrite Z.mul_1_r, unit1_p10.
  assert (Nat.max (d_s a) (d_s b) <= 28)%nat by (destruct Wa, Wb; lia).
  rewrite (p10_split 28 (Nat.max (d_s a) (d_s b))) by assumption. ring.
Qed.

Lemma d_mul_nearest a b r : wf_dec a -> wf_dec b -> d_mul a b = Ok r -> nearest (units a * units b) unit1 r.
Proof.
  intros Wa Wb H. pose proof (d_mul_wf _ _ _ H) as Wr. unfold d_mul in H.
  destruct (d_is_zero a || d_is_zero b) eqn:Z0.
  { injection H as <-. split; [exact Wr|]. left. change (units d_zero) with 0.
    apply orb_prop in Z0 as [Z0|Z0]; apply d_is_zero_units in Z0; auto; rewrite Z0; lia. }
  destruct (_ && _) eqn:C.
  - injection H as <-. split; [exact Wr|]. right. exists 28%nat, 0.
    split; [lia|]. split; [cbn; lia|]. split; [|split; [reflexivity|split; [left; reflexivity|]]].
    2:{ change (units d_zero) with 0. ring. }
    left. rewrite Z.mul_0_l, Z.sub_0_l, Z.abs_opp.
    rewrite !andb_true_iff in C. destruct C as [[C1 C2] C3].
    apply Z.ltb_lt in C1, C2. apply Nat.ltb_lt in C3. rewrite !units_eq.
    destruct Wa as [Wa Sa], Wb as [Wb Sb].
    replace (d_signed a * p10 (28 - d_s a) * (d_signed b * p10 (28 - d_s b)))
      with (d_signed a * d_signed b * p10 (56 - (d_s a + d_s b)))
      by (replace (56 - (d_s a + d_s b))%nat with ((28 - d_s a) + (28 - d_s b))%nat by lia; rewrite p10_add; ring).
    change (10 ^ Z.of_nat 28) with unit1. change (10 ^ 28) with unit1.
    rewrite !Z.abs_mul, !abs_signed by lia.
    rewrite (Z.abs_eq (p10 _)) by (pose proof (p10_pos (56 - (d_s a + d_s b))); lia).
    rewrite (Z.abs_eq (Z.abs unit1 * unit1)) || idtac.
    rewrite (Z.abs_eq unit1) by (vm_compute; discriminate).
    rewrite ?(Z.abs_eq (d_m a * d_m b)) by nia.
    assert (p10 (56 - (d_s a + d_s b)) <= p10 8).
    { rewrite (p10_split 8 (56 - (d_s a + d_s b))) by lia. pose proof (p10_ge1 (8 - (56 - (d_s a + d_s b)))).
      pose proof (p10_pos (56 - (d_s a + d_s b))). nia. }
    change (p10 8) with 100000000 in *.
    assert (d_m a * d_m b < 2 ^ 64) by (change (2 ^ 64) with (2 ^ 32 * 2 ^ 32); nia).
    assert (B : d_m a * d_m b * p10 (56 - (d_s a + d_s b)) <= 2 ^ 64 * 100000000).
    { pose proof (p10_pos (56 - (d_s a + d_s b))). assert (0 <= d_m a * d_m b) by nia. nia. }
    assert (B' : 2 * (d_m a * d_m b * p10 (56 - (d_s a + d_s b))) < unit1).
    { apply Z.le_lt_trans with (2 * (2 ^ 64 * 100000000)); [lia|]. vm_compute; reflexivity. }
    rewrite !Z.abs_eq by (try (vm_compute; discriminate); try lia; apply Z.lt_le_incl, p10_pos).
    set (X := d_m a * d_m b * p10 (56 - (d_s a + d_s b))) in *.
    assert (0 < unit1) by reflexivity. set (u := unit1) in *. clearbody u X. nia.
  - apply d_reduced_nearest with (z := d_signed a * d_signed b) (sg := (d_s a + d_s b)%nat); auto; [reflexivity|].
    rewrite !units_eq, unit1_p10, p10_add. destruct Wa as [_ Sa], Wb as [_ Sb].
    pose proof (p10_split 28 (d_s a) Sa) as E1. pose proof (p10_split 28 (d_s b) Sb) as E2.
    transitivity (d_signed a * d_signed b * (p10 (28 - d_s a) * p10 (d_s a)) * (p10 (28 - d_s b) * p10 (d_s b))); [ring|].
    rewrite <- E1, <- E2. reflexivity.
Qed.

Lemma d_div_nearest a b r : wf_dec a -> wf_dec b -> d_div a b = Ok r -> units b <> 0 /\ nearest (units a * unit1) (units b) r.
Proof.
  intros Wa Wb H. pose proof (d_div_wf _ _ _ Wa Wb H) as Wr. unfold d_div in H.
  destruct (d_is_zero b) eqn:Zb; [discriminate|].
  assert (Nb : units b <> 0).
  { intros E. apply d_is_zero_units in E; [congruence|exact Wb]. }
  split; [exact Nb|]. split; [exact Wr|].
  destruct (d_is_zero a) eqn:Za.
  { injection H as <-. left. apply d_is_zero_units in Za; [|exact Wa]. rewrite Za. change (units d_zero) with 0. lia. }
  unfold d_is_zero in Za, Zb. destruct Wa as [Ham Has], Wb as [Hbm Hbs].
  assert (Pb : 0 < d_m b) by lia. assert (Pa : 0 < d_m a) by lia.
  set (num := fun s : nat => d_m a * p10 (s + d_s b - d_s a)) in *.
  set (s0 := (d_s a - d_s b)%nat) in *.
  change (d_m a * p10 (s0 + d_s b - d_s a)) with (num s0) in H.
  set (neg := xorb (d_neg a) (d_neg b)) in *.
  assert (Ub : Z.abs (units b) = d_m b * p10 (28 - d_s b)).
  { rewrite units_eq, Z.abs_mul, abs_signed by lia. pose proof (p10_pos (28 - d_s b)). rewrite (Z.abs_eq (p10 _)) by lia. reflexivity. }
  assert (Ua : Z.abs (units a) = d_m a * p10 (28 - d_s a)).
  { rewrite units_eq, Z.abs_mul, abs_signed by lia. pose proof (p10_pos (28 - d_s a)). rewrite (Z.abs_eq (p10 _)) by lia. reflexivity. }
  assert (Sg : Z.sgn (units a * unit1) * Z.sgn (units b) = if neg then -1 else 1).
  { pose proof (p10_pos (28 - d_s a)). pose proof (p10_pos (28 - d_s b)).
    rewrite Z.sgn_mul, !units_eq, !Z.sgn_mul, (Z.sgn_pos unit1), !(Z.sgn_pos (p10 _)), !Z.mul_1_r by (reflexivity || assumption).
    unfold d_signed, neg. destruct (d_neg a), (d_neg b); cbn [xorb];
      rewrite ?Z.sgn_opp, ?(Z.sgn_pos (d_m a)), ?(Z.sgn_pos (d_m b)) by lia; reflexivity. }
  assert (Mant : forall s, (s0 <= s)%nat -> mantissa_at (units a * unit1) (units b) s (rhe (num s) (d_m b))).
  { intros s Hs. unfold mantissa_at. rewrite Z.abs_mul, Ua, Ub. change (10 ^ Z.of_nat s) with (p10 s).
    change (Z.abs unit1) with (p10 28). change (10 ^ 28) with (p10 28).
    replace (d_m a * p10 (28 - d_s a) * p10 28 * p10 s) with (num s * (p10 (28 - d_s b) * p10 28)).
    2:{ unfold num. rewrite <- !Z.mul_assoc, <- !p10_add. do 2 f_equal. unfold s0 in *. lia. }
    rewrite <- (Z.mul_assoc (d_m b)). apply half_even_scale.
    - pose proof (p10_pos (28 - d_s b)). pose proof (p10_pos 28). apply Z.mul_pos_pos; assumption.
    - apply rhe_half_even, Pb. }
  destruct (num s0 mod d_m b =? 0) eqn:E0.
  - destruct (_ <? MAXM) eqn:E1; [|discriminate]. injection H as <-. left.
    assert (Q : num s0 = d_m b * (num s0 / d_m b)).
    { pose proof (Z.div_mod (num s0) (d_m b) ltac:(lia)). lia. }
    assert (Hq : 0 <= num s0 / d_m b).
    { apply Z.div_pos; [|lia]. unfold num. pose proof (p10_pos (s0 + d_s b - d_s a)). nia. }
    rewrite (units_eq (d_make _ _ _)), d_signed_make by exact Hq. cbn [d_make d_s].
    change (d_s (d_make neg (num s0 / d_m b) s0)) with s0.
    set (q := num s0 / d_m b) in *. rewrite !units_eq, unit1_p10.
    assert (E : p10 (28 - d_s a) * p10 28 = p10 (s0 + d_s b - d_s a) * (p10 (28 - s0) * p10 (28 - d_s b))).
    { rewrite <- !p10_add. f_equal. unfold s0. lia. }
    rewrite <- (Z.mul_assoc (d_signed a)), E.
    transitivity ((if neg then - q else q) * d_signed b * (p10 (28 - s0) * p10 (28 - d_s b))); [ring|].
    rewrite (Z.mul_assoc (d_signed a)). f_equal.
    unfold num in Q. unfold d_signed, neg. destruct (d_neg a), (d_neg b); cbn [xorb]; lia.
  - destruct (div_scale _ _) as [s|] eqn:Ds; [|discriminate].
    apply div_scale_spec in Ds as (S1 & S2 & S3). apply andb_prop in S2 as [S2 S2'].
    change (d_m a * p10 (s + d_s b - d_s a)) with (num s) in *.
    assert (P : 0 <= rhe (num s) (d_m b)).
    { apply rhe_nonneg; [lia|]. unfold num. pose proof (p10_pos (s + d_s b - d_s a)). nia. }
    pose proof (strip_exact s (rhe (num s) (d_m b)) P) as Hst.
    destruct (strip s (rhe (num s) (d_m b))) as [m' s'] eqn:St. destruct Hst as (M1 & M2 & M3).
    injection H as <-. right. exists s, (rhe (num s) (d_m b)). unfold MAXS in *. split; [lia|]. split; [exact M2|].
    split; [apply Mant; lia|]. split; [unfold MAXM in S2'; lia|]. split.
    + destruct (Nat.eq_dec s 28) as [->|Ns]; [left; reflexivity|]. right. exists (rhe (num (S s)) (d_m b)).
      split; [apply Mant; lia|].
      specialize (S3 (S s) ltac:(lia)). apply andb_false_iff in S3 as [S3|S3]; [lia|].
      change (d_m a * p10 (S s + d_s b - d_s a)) with (num (S s)) in S3. unfold MAXM in S3. lia.
    + rewrite Sg. set (q := rhe (num s) (d_m b)) in *. change (10 ^ Z.of_nat (28 - s)) with (p10 (28 - s)).
      rewrite units_eq, d_signed_make by lia. change (d_s (d_make neg m' s')) with s'.
      assert (m' * p10 (28 - s') = q * p10 (28 - s)).
      { pose proof (p10_split 28 s ltac:(lia)) as X1. pose proof (p10_split 28 s' ltac:(lia)) as X2.
        pose proof (p10_pos s). pose proof (p10_pos s').
        apply (Z.mul_reg_r _ _ (p10 s * p10 s')); [nia|].
        transitivity (m' * p10 s * (p10 (28 - s') * p10 s')); [ring|]. rewrite M3, <- X2, X1. ring. }
      destruct neg; lia.
Qed.

(** ** Operations respect values *)
Lemma same_value_refl a : wf_dec a -> same_value a a.
Proof. intros W. split; [exact W|]. split; [exact W|reflexivity]. Qed.
Lemma same_value_sym a b : same_value a b -> same_value b a.
Proof. intros (A & B & E). split; [exact B|]. split; [exact A|symmetry; exact E]. Qed.
Lemma same_value_trans a b c : same_value a b -> same_value b c -> same_value a c.
Proof. intros (A & B & E) (_ & C & E'). split; [exact A|]. split; [exact C|congruence]. Qed.

Lemma d_reduced_ends z s : (exists r, d_reduced z s = Ok r) \/ d_reduced z s = Panic PArith.
Proof. unfold d_reduced. destruct (reduce _ _) as [[m t]|]; eauto. Qed.
Lemma d_add_ends a b : (exists r, d_add a b = Ok r) \/ d_add a b = Panic PArith.
Proof. unfold d_add. destruct (d_is_zero a); eauto. destruct (d_is_zero b); eauto. apply d_reduced_ends. Qed.
Lemma d_sub_ends a b : (exists r, d_sub a b = Ok r) \/ d_sub a b = Panic PArith.
Proof. unfold d_sub. destruct (d_is_zero a); eauto. destruct (d_is_zero b); eauto. apply d_reduced_ends. Qed.
Lemma d_mul_ends a b : (exists r, d_mul a b = Ok r) \/ d_mul a b = Panic PArith.
Proof. unfold d_mul. destruct (_ || _); eauto. destruct (_ && _); eauto. apply d_reduced_ends. Qed.
Lemma d_div_ends a b : (exists r, d_div a b = Ok r) \/ d_div a b = Panic PArith.
Proof.
  unfold d_div. destruct (d_is_zero b); eauto. destruct (d_is_zero a); eauto. cbv zeta.
  destruct (_ =? 0); [destruct (_ <? MAXM); eauto|].
  destruct (div_scale _ _) as [s|]; eauto. destruct (strip _ _); eauto.
Qed.

Section Congruence.
  Variable f : dec -> dec -> outcome dec.
  Variables (num den : Z -> Z -> Z) (ok : Z -> Z -> Prop).
  Hypothesis f_ends : forall a b, (exists r, f a b = Ok r) \/ f a b = Panic PArith.
  Hypothesis f_some : forall a b, wf_dec a -> wf_dec b -> (exists r, f a b = Ok r) <-> ok (units a) (units b).
  Hypothesis f_nearest : forall a b r, wf_dec a -> wf_dec b -> f a b = Ok r ->
    den (units a) (units b) <> 0 /\ nearest (num (units a) (units b)) (den (units a) (units b)) r.
  Lemma congruent a a' b b' : same_value a a' -> same_value b b' -> same_outcome same_value (f a b) (f a' b').
  Proof.
    intros (A & A' & E) (B & B' & F).
    destruct (f_ends a b) as [[r R]|R], (f_ends a' b') as [[r' R']|R']; rewrite R, R'; cbn [same_outcome].
    - destruct (f_nearest a b r A B R) as [N X]. destruct (f_nearest a' b' r' A' B' R') as [_ X'].
      split; [exact (proj1 X)|]. split; [exact (proj1 X')|]. rewrite <- E, <- F in X'. exact (nearest_unique _ _ _ _ N X X').
    - assert (O : ok (units a) (units b)) by (apply f_some; eauto). rewrite E, F in O. apply f_some in O as [r' O]; auto. congruence.
    - assert (O : ok (units a') (units b')) by (apply f_some; eauto). rewrite <- E, <- F in O. apply f_some in O as [r O]; auto. congruence.
    - reflexivity.
  Qed.
End Congruence.

Lemma d_add_congr a a' b b' : same_value a a' -> same_value b b' -> same_outcome same_value (d_add a b) (d_add a' b').
Proof.
  apply (congruent d_add Z.add (fun _ _ => 1) (fun x y => 2 * Z.abs (x + y) < (2 ^ 97 - 1) * unit1) d_add_ends d_add_some).
  intros x y r X Y H. split; [discriminate|]. apply d_add_nearest; assumption.
Qed.
Lemma d_sub_congr a a' b b' : same_value a a' -> same_value b b' -> same_outcome same_value (d_sub a b) (d_sub a' b').
Proof.
  apply (congruent d_sub Z.sub (fun _ _ => 1) (fun x y => 2 * Z.abs (x - y) < (2 ^ 97 - 1) * unit1) d_sub_ends d_sub_some).
  intros x y r X Y H. split; [discriminate|]. apply d_sub_nearest; assumption.
Qed.
Lemma d_mul_congr a a' b b' : same_value a a' -> same_value b b' -> same_outcome same_value (d_mul a b) (d_mul a' b').
Proof.
  apply (congruent d_mul Z.mul (fun _ _ => unit1) (fun x y => 2 * Z.abs (x * y) < (2 ^ 97 - 1) * unit1 * unit1) d_mul_ends d_mul_some).
  intros x y r X Y H. split; [discriminate|]. apply d_mul_nearest; assumption.
Qed.
Lemma d_div_congr a a' b b' : same_value a a' -> same_value b b' -> same_outcome same_value (d_div a b) (d_div a' b').
Proof.
  apply (congruent d_div (fun x _ => x * unit1) (fun _ y => y) (fun x y => y <> 0 /\ 2 * Z.abs x < (2 ^ 97 - 1) * Z.abs y) d_div_ends d_div_some).
  intros x y r X Y H. apply d_div_nearest; assumption.
Qed.

Lemma d_is_zero_congr a b : same_value a b -> d_is_zero a = d_is_zero b.
Proof. intros (A & B & E). apply eq_true_iff_eq. rewrite !d_is_zero_units by assumption. rewrite E. reflexivity. Qed.
Lemma zero_units a : wf_dec a -> d_m a = 0 -> units a = 0.
Proof. intros W. apply units_zero, W. Qed.
Lemma sign_congr a b : same_value a b -> units a <> 0 -> d_neg a = d_neg b.
Proof.
  intros (A & B & E) N. destruct (Z.lt_trichotomy (units a) 0) as [L|[L|L]]; [|contradiction|].
  - rewrite (units_neg_sign a A L), (units_neg_sign b B); [reflexivity|lia].
  - rewrite (units_pos_sign a A L), (units_pos_sign b B); [reflexivity|lia].
Qed.
(** The two quantities without their signs. *)
Lemma abs_units neg a : units (mkDec neg (d_m a) (d_s a)) = (if neg then -1 else 1) * (d_m a * p10 (28 - d_s a)).
Proof. rewrite units_eq. unfold d_signed. cbn [d_neg d_m d_s]. destruct neg; ring. Qed.
Lemma units_abs a : wf_dec a -> Z.abs (units a) = d_m a * p10 (28 - d_s a).
Proof.
  intros [M _]. rewrite units_eq, Z.abs_mul, abs_signed by lia. pose proof (p10_pos (28 - d_s a)).
  rewrite (Z.abs_eq (p10 _)) by lia. reflexivity.
Qed.
Lemma d_set_congr neg a b : same_value a b -> same_value (mkDec neg (d_m a) (d_s a)) (mkDec neg (d_m b) (d_s b)).
Proof.
  intros (A & B & E). split; [exact A|]. split; [exact B|]. rewrite !abs_units, <- !units_abs by assumption. rewrite E. reflexivity.
Qed.

Lemma same_amount_refl a : wf_amt a -> same_amount a a.
Proof. intros W. split; [reflexivity|apply same_value_refl, W]. Qed.
Lemma same_outcome_bind {A A' B B'} (R : A -> A' -> Prop) (Q : B -> B' -> Prop) x x' k k' :
  same_outcome R x x' -> (forall a a', R a a' -> same_outcome Q (k a) (k' a')) -> same_outcome Q (bind x k) (bind x' k').
Proof. destruct x, x'; cbn; intros H K; try contradiction; auto. Qed.
Lemma same_outcome_ok {A A'} (R : A -> A' -> Prop) a a' : R a a' -> same_outcome R (Ok a) (Ok a').
Proof. exact (fun H => H). Qed.
Lemma same_outcome_refl {A} (R : A -> A -> Prop) x : (forall a, R a a) -> same_outcome R x x.
Proof. intros H. destruct x; cbn; auto. Qed.

Lemma amt_add_congr a a' b b' : same_amount a a' -> same_amount b b' -> same_outcome same_amount (amt_add a b) (amt_add a' b').
Proof.
  intros [Ca A] [Cb B]. unfold amt_add. rewrite <- Ca, <- Cb. destruct (comm_eqb _ _); [|reflexivity].
  rewrite <- (d_is_zero_congr _ _ B). destruct (d_is_zero (a_q b)); [split; assumption|].
  eapply same_outcome_bind; [apply d_add_congr; [exact A|exact B]|]. intros x y H. split; [reflexivity|exact H].
Qed.
Lemma amt_plus_congr a a' b b' : same_amount a a' -> same_amount b b' -> same_outcome same_amount (amt_plus a b) (amt_plus a' b').
Proof.
  intros [Ca A] [Cb B]. unfold amt_plus. rewrite <- Ca, <- Cb. destruct (comm_eqb _ _); [|reflexivity].
  eapply same_outcome_bind; [apply d_add_congr; [exact A|exact B]|]. intros x y H. split; [reflexivity|exact H].
Qed.
Lemma amt_minus_congr a a' b b' : same_amount a a' -> same_amount b b' -> same_outcome same_amount (amt_minus a b) (amt_minus a' b').
Proof.
  intros [Ca A] [Cb B]. unfold amt_minus. rewrite <- Ca, <- Cb. destruct (comm_eqb _ _); [|reflexivity].
  eapply same_outcome_bind; [apply d_sub_congr; [exact A|exact B]|]. intros x y H. split; [reflexivity|exact H].
Qed.
Lemma amt_mul_congr a a' b b' : same_amount a a' -> same_amount b b' -> same_outcome same_amount (amt_mul a b) (amt_mul a' b').
Proof.
  intros [Ca A] [Cb B]. unfold amt_mul. rewrite <- Ca, <- Cb.
  eapply same_outcome_bind; [apply d_mul_congr; [exact A|exact B]|]. intros x y H. split; [reflexivity|exact H].
Qed.
Lemma amt_div_congr a a' b b' : same_amount a a' -> same_amount b b' -> same_outcome same_amount (amt_div a b) (amt_div a' b').
Proof.
  intros [Ca A] [Cb B]. unfold amt_div. rewrite <- Ca, <- Cb.
  eapply same_outcome_bind; [apply d_div_congr; [exact A|exact B]|]. intros x y H. split; [reflexivity|exact H].
Qed.
Lemma amt_abs_congr a a' : same_amount a a' -> same_amount (amt_abs a) (amt_abs a').
Proof. intros [C A]. split; [exact C|]. apply (d_set_congr false), A. Qed.
Lemma sign_change a a' (neg pos : bool) : same_value a a' ->
  same_value (mkDec (if d_is_sign_positive a then neg else pos) (d_m a) (d_s a))
             (mkDec (if d_is_sign_positive a' then neg else pos) (d_m a') (d_s a')).
Proof.
  intros A. destruct (Z.eq_dec (units a) 0) as [Z0|N].
  - destruct A as (W & W' & E). split; [exact W|]. split; [exact W'|]. rewrite !abs_units, <- !units_abs by assumption.
    rewrite <- E, Z0. cbn [Z.abs]. rewrite !Z.mul_0_r. reflexivity.
  - unfold d_is_sign_positive. rewrite (sign_congr _ _ A N). apply d_set_congr, A.
Qed.
Lemma amt_invert_congr a a' : same_amount a a' -> same_amount (amt_invert a) (amt_invert a').
Proof.
  intros [C A]. split; [exact C|]. pose proof (sign_change _ _ true false A) as H. cbn [amt_invert a_q].
  unfold d_set_neg, d_set_pos. destruct (d_is_sign_positive (a_q a)), (d_is_sign_positive (a_q a')); exact H.
Qed.
Lemma amt_inverse_congr a a' : same_amount a a' -> same_amount (amt_inverse a) (amt_inverse a').
Proof.
  intros [C A]. split; [exact C|]. cbn [amt_inverse a_q].
  destruct (Z.eq_dec (units (a_q a)) 0) as [Z0|N].
  - assert (G : forall x, wf_dec x -> units x = 0 -> let y := if d_is_sign_positive x then d_set_neg x else x in wf_dec y /\ units y = 0).
    { intros x W E. cbv zeta. destruct (d_is_sign_positive x); [|split; assumption]. split; [exact W|]. unfold d_set_neg.
      rewrite abs_units, <- units_abs, E by exact W. reflexivity. }
    destruct A as (W & W' & E). destruct (G _ W Z0) as [G1 G2]. destruct (G _ W' ltac:(congruence)) as [G1' G2'].
    split; [exact G1|]. split; [exact G1'|congruence].
  - unfold d_is_sign_positive. rewrite <- (sign_congr _ _ A N). destruct (d_neg (a_q a)); [exact A|apply (d_set_congr true), A].
Qed.
Lemma amt_zero_congr a a' : same_amount a a' -> amt_is_zero a = amt_is_zero a' /\ amt_is_null a = amt_is_null a'.
Proof.
  intros [C A]. unfold amt_is_null, amt_is_zero. rewrite <- C, (d_is_zero_congr _ _ A). split; reflexivity.
Qed.
Lemma amt_remove_congr a a' : same_amount a a' -> same_amount (amt_remove_commodity a) (amt_remove_commodity a').
Proof. intros [C A]. split; [reflexivity|exact A]. Qed.

Lemma bal_add_congr b b' a a' : same_balance b b' -> same_amount a a' -> same_outcome same_balance (bal_add b a) (bal_add b' a').
Proof.
  intros H A. induction H as [|x y b b' X H IH]; cbn [bal_add].
  - constructor; [exact A|constructor].
  - rewrite <- (proj1 X), <- (proj1 A). destruct (comm_eqb _ _).
    + eapply same_outcome_bind; [exact (amt_add_congr _ _ _ _ X A)|]. intros; constructor; assumption.
    + eapply same_outcome_bind; [exact IH|]. intros; constructor; assumption.
Qed.
Lemma bal_sub_congr b b' a a' : same_balance b b' -> same_amount a a' -> same_outcome same_balance (bal_sub b a) (bal_sub b' a').
Proof.
  intros H A. induction H as [|x y b b' X H IH]; cbn [bal_sub].
  - constructor; [apply amt_inverse_congr, A|constructor].
  - rewrite <- (proj1 X), <- (proj1 A). destruct (comm_eqb _ _).
    + eapply same_outcome_bind; [exact (amt_minus_congr _ _ _ _ X A)|]. intros; constructor; assumption.
    + eapply same_outcome_bind; [exact IH|]. intros; constructor; assumption.
Qed.
Lemma fold_congr {A A' S S'} (RA : A -> A' -> Prop) (RS : S -> S' -> Prop) f f' l l' :
  Forall2 RA l l' -> (forall s s' a a', RS s s' -> RA a a' -> same_outcome RS (f s a) (f' s' a')) ->
  forall s s', RS s s' -> same_outcome RS (fold_outcome f l s) (fold_outcome f' l' s').
Proof.
  intros H K. induction H as [|a a' l l' HA H IH]; intros s s' HS; cbn [fold_outcome]; [exact HS|].
  eapply same_outcome_bind; [exact (K _ _ _ _ HS HA)|]. exact IH.
Qed.
Lemma bal_add_bal_congr b b' o o' : same_balance b b' -> same_balance o o' -> same_outcome same_balance (bal_add_bal b o) (bal_add_bal b' o').
Proof. intros B O. unfold bal_add_bal. eapply fold_congr; [exact O| |exact B]. intros; apply bal_add_congr; assumption. Qed.

(** ** Comparisons *)
Lemma units_compare a b : wf_dec a -> wf_dec b -> d_cmp a b = (units a ?= units b).
Proof.
  intros [_ Sa] [_ Sb]. unfold d_cmp. rewrite !units_eq.
  pose proof (p10_split 28 (d_s a) Sa) as Ea. pose proof (p10_split 28 (d_s b) Sb) as Eb.
  pose proof (p10_pos (d_s a)). pose proof (p10_pos (d_s b)). pose proof (p10_pos (28 - d_s a)). pose proof (p10_pos (28 - d_s b)).
  set (x := p10 (28 - d_s a)) in *. set (y := p10 (28 - d_s b)) in *. set (u := p10 (d_s a)) in *. set (v := p10 (d_s b)) in *.
  assert (E : x * u = y * v) by congruence. clear Ea Eb.
  rewrite (Zmult_compare_compat_r (d_signed a * v) (d_signed b * u) (x * u)) by nia.
  rewrite (Zmult_compare_compat_r (d_signed a * x) (d_signed b * y) (u * v)) by nia.
  f_equal; [ring|]. rewrite E. ring.
Qed.
Lemma eqb_units a b : wf_dec a -> wf_dec b -> d_eqb a b = true <-> units a = units b.
Proof. intros [_ A] [_ B]. apply d_eqb_units; assumption. Qed.
Lemma cmp_eqb a b : d_cmp a b = Eq <-> d_eqb a b = true.
Proof. unfold d_cmp, d_eqb. rewrite Z.compare_eq_iff, Z.eqb_eq. reflexivity. Qed.
Lemma max_min_units a b : wf_dec a -> wf_dec b -> units (d_max a b) = Z.max (units a) (units b) /\ units (d_min a b) = Z.min (units a) (units b).
Proof.
  intros A B. unfold d_max, d_min. rewrite (units_compare _ _ A B).
  destruct (Z.compare_spec (units a) (units b)); lia.
Qed.


Lemma amount_eqb a b : wf_amt a -> wf_amt b -> amt_eqb a b = true <-> same_amount a b.
Proof.
  intros A B. unfold amt_eqb, same_amount, same_value. rewrite andb_true_iff, (eqb_units _ _ A B), comm_eqb_eq. 
  split; [intros [E C]|intros (C & _ & _ & E)]; auto.
Qed.
Lemma price_point_eqb a b : valid_dt (pp_when a) -> valid_dt (pp_when b) -> wf_amt (pp_price a) -> wf_amt (pp_price b) ->
  pp_eqb a b = true <-> pp_when a = pp_when b /\ same_amount (pp_price a) (pp_price b).
Proof.
  intros A B A' B'. unfold pp_eqb. rewrite andb_true_iff, Z.eqb_eq, amount_eqb by assumption. split; intros [E S]; (split; [|exact S]).
  - apply DatesFacts.dt_key_eq; assumption.
  - rewrite E. reflexivity.
Qed.
Lemma leb_units a b : wf_dec a -> wf_dec b -> d_leb a b = true <-> units a <= units b.
Proof.
  intros A B. unfold Z.le. rewrite <- (units_compare _ _ A B). unfold d_cmp, d_leb. rewrite Z.leb_le. reflexivity.
Qed.
Lemma ltb_units a b : wf_dec a -> wf_dec b -> d_ltb a b = true <-> units a < units b.
Proof. intros A B. unfold Z.lt, d_ltb. rewrite (units_compare _ _ A B). destruct (_ ?= _); split; congruence. Qed.
Lemma comparisons a b : wf_dec a -> wf_dec b ->
  d_cmp a b = (units a ?= units b) /\ (d_eqb a b = true <-> units a = units b) /\ (d_leb a b = true <-> units a <= units b) /\ (d_ltb a b = true <-> units a < units b).
Proof.
  intros A B. split; [apply units_compare; assumption|]. split; [apply eqb_units; assumption|]. split; [apply leb_units; assumption|apply ltb_units; assumption].
Qed.
