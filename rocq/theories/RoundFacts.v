(** Rounding of sums, products and quotients. *)
From Coq Require Import List NArith ZArith Bool Lia ZifyBool ZifyNat ZifyN.
From Verif Require Import Base BaseFacts Decimal SpecDecimal DecimalFacts.
Import ListNotations.
Open Scope Z_scope.

Lemma unit1_p10 : unit1 = p10 28. Proof. reflexivity. Qed.

Lemma rhe_big n d M : 0 < d -> M <= rhe n d -> (2 * M - 1) * d <= 2 * n.
Proof. intros Hd H. pose proof (rhe_error n d Hd). nia. Qed.

(** What [reduce] drops. *)
Lemma reduce_from_spec fuel : forall k m s m' s',
  reduce_from fuel k m s = Some (m', s') ->
  exists k', (k <= k' <= k + fuel)%nat /\ s' = (s - k')%nat /\ m' = rhe m (p10 k') /\ m' < MAXM /\ (s' <= MAXS)%nat
    /\ (k' = k \/ exists k0, k' = S k0 /\ (MAXM <= rhe m (p10 k0) \/ (MAXS < s - k0)%nat)).
Proof.
  induction fuel as [|f IH]; intros k m s m' s'; cbn [reduce_from].
  - destruct (_ && _) eqn:E; [|discriminate]. intros [= <- <-]. apply andb_prop in E as [E1 E2].
    exists k. repeat split; auto; lia.
  - destruct (_ && _) eqn:E.
    + intros [= <- <-]. apply andb_prop in E as [E1 E2]. exists k. repeat split; auto; lia.
    + intros H. destruct (IH _ _ _ _ _ H) as (k' & Hk & -> & -> & H1 & H2 & H3). exists k'.
      split; [lia|]. repeat split; auto. right. destruct H3 as [->|H3]; [|exact H3].
      exists k. split; [reflexivity|]. apply andb_false_iff in E as [E|E]; lia.
Qed.

Lemma d_reduced_rounded z sg num den r :
  0 < den -> num * p10 sg = z * unit1 * den -> d_reduced z sg = Ok r -> rounded num den r.
Proof.
  intros Hden Hn H. pose proof (d_reduced_wf _ _ _ H) as W. split; [exact W|].
  unfold d_reduced in H. destruct (reduce (Z.abs z) sg) as [[m s]|] eqn:R; [|discriminate].
  injection H as <-. unfold reduce in R. assert (R' := R). apply reduce_from_wf in R'; [|lia]. destruct R' as (Rm & Rs & Rsg).
  apply reduce_from_spec in R as (k & Hks & -> & -> & _ & _ & Hk).
  set (m := rhe (Z.abs z) (p10 k)) in *. set (s := (sg - k)%nat) in *.
  assert (U : units (d_make (z <? 0) m s) = (if z <? 0 then - m else m) * p10 (28 - s)).
  { rewrite units_eq, d_signed_make by lia. reflexivity. }
  pose proof (p10_pos sg) as Psg. pose proof (p10_pos (28 - s)) as P28. pose proof (p10_pos k) as Pk.
  pose proof (p10_pos s) as Ps.
  assert (Esg : p10 sg = p10 s * p10 k) by (rewrite <- p10_add; f_equal; unfold s; lia).
  assert (E28 : unit1 = p10 (28 - s) * p10 s) by (rewrite unit1_p10; apply p10_split; unfold MAXS in Rs; exact Rs).
  pose proof (rhe_error (Z.abs z) (p10 k) Pk) as Er. fold m in Er.
  assert (Dz : Z.abs ((if z <? 0 then - m else m) * p10 k - z) = Z.abs (m * p10 k - Z.abs z)).
  { destruct (Z.ltb_spec z 0); nia. }
  (* (units - num/den) in terms of mantissas *)
  assert (Nm : num * p10 k = z * p10 (28 - s) * den).
  { apply (Z.mul_reg_r _ _ (p10 s)); [lia|]. transitivity (num * p10 sg); [rewrite Esg; ring|]. rewrite Hn, E28. ring. }
  assert (Key : (units (d_make (z <? 0) m s) * den - num) * p10 k
                = ((if z <? 0 then - m else m) * p10 k - z) * (p10 (28 - s) * den)).
  { rewrite U. rewrite Z.mul_sub_distr_r, Nm. ring. }
  destruct Hk as [->|(k0 & -> & Hk0)].
  - left. change (p10 0) with 1 in *. assert (Z.abs ((if z <? 0 then - m else m) * 1 - z) = 0) by lia.
    assert ((if z <? 0 then - m else m) * 1 - z = 0) as E0 by lia. rewrite E0 in Key. lia.
  - right. exists s. unfold MAXS in *. split; [exact Rs|]. split; [cbn [d_make d_s]; lia|]. split.
    + change (10 ^ Z.of_nat (28 - s)) with (p10 (28 - s)). rewrite (Z.abs_eq den) by lia.
      set (D := units (d_make (z <? 0) m s) * den - num) in *.
      assert (A : Z.abs (D * p10 (S k0)) = Z.abs (((if z <? 0 then - m else m) * p10 (S k0) - z) * (p10 (28 - s) * den)))
        by (rewrite Key; reflexivity).
      rewrite !Z.abs_mul, Dz in A. rewrite (Z.abs_eq (p10 (S k0))), (Z.abs_eq (p10 (28 - s))), (Z.abs_eq den) in A by lia.
      set (e := Z.abs (m * p10 (S k0) - Z.abs z)) in *. set (P := p10 (S k0)) in *. set (Q := p10 (28 - s)) in *.
      assert (QD : 0 < Q * den) by (apply Z.mul_pos_pos; assumption).
      apply (Z.mul_le_mono_pos_r _ _ P); [assumption|].
      replace (2 * Z.abs D * P) with (2 * (Z.abs D * P)) by ring. rewrite A.
      replace (2 * (e * (Q * den))) with (2 * e * (Q * den)) by ring.
      replace (den * Q * P) with (P * (Q * den)) by ring.
      apply Z.mul_le_mono_nonneg_r; [lia|exact Er].
    + destruct Hk0 as [Hk0|Hk0]; [|left; unfold s; lia]. right.
      apply rhe_big in Hk0; [|apply p10_pos].
      change (10 ^ Z.of_nat (S s)) with (p10 (S s)). rewrite (Z.abs_eq den) by lia. unfold MAXM in Hk0.
      replace (2 * 2 ^ 96) with (2 ^ 97) in Hk0 by reflexivity.
      assert (A : Z.abs num * p10 (S k0) = Z.abs z * p10 (28 - s) * den).
      { assert (A : Z.abs (num * p10 (S k0)) = Z.abs (z * p10 (28 - s) * den)) by (rewrite Nm; reflexivity).
        rewrite !Z.abs_mul in A. rewrite (Z.abs_eq (p10 (S k0))), (Z.abs_eq (p10 (28 - s))), (Z.abs_eq den) in A by lia. exact A. }
      rewrite p10_S in A. rewrite p10_S, E28. pose proof (p10_pos k0) as Pk0.
      set (M := 2 ^ 97 - 1) in *. set (Q := p10 (28 - s)) in *. set (T := p10 s) in *. set (K := p10 k0) in *.
      assert (B : M * (den * (Q * T)) * K <= 2 * (Z.abs z * Q * den) * T).
      { replace (M * (den * (Q * T)) * K) with (M * K * (den * (Q * T))) by ring.
        replace (2 * (Z.abs z * Q * den) * T) with (2 * Z.abs z * (den * (Q * T))) by ring.
        apply Z.mul_le_mono_nonneg_r; [|exact Hk0].
        apply Z.lt_le_incl, Z.mul_pos_pos; [assumption|]. apply Z.mul_pos_pos; assumption. }
      rewrite <- A in B.
      apply (Z.mul_le_mono_pos_r _ _ K); [exact Pk0|].
      replace (2 * Z.abs num * (10 * T) * K) with (2 * (Z.abs num * (10 * K)) * T) by ring. 
      replace (M * den * (Q * T) * K) with (M * (den * (Q * T)) * K) by ring. exact B.
Qed.

Lemma d_mul_rounded a b r : wf_dec a -> wf_dec b -> d_mul a b = Ok r -> rounded_product a b r.
Proof.
  intros Wa Wb H. unfold rounded_product. pose proof (d_mul_wf _ _ _ H) as Wr. unfold d_mul in H.
  destruct (d_is_zero a || d_is_zero b) eqn:Z0.
  { injection H as <-. split; [exact Wr|]. left. change (units d_zero) with 0.
    apply orb_prop in Z0 as [Z0|Z0]; apply d_is_zero_units in Z0; auto; rewrite Z0; lia. }
  destruct (_ && _) eqn:C.
  - injection H as <-. split; [exact Wr|]. right. exists 28%nat.
    split; [lia|]. split; [cbn; lia|]. split; [|left; reflexivity].
    change (units d_zero) with 0. rewrite !andb_true_iff in C. destruct C as [[C1 C2] C3].
    apply Z.ltb_lt in C1, C2. apply Nat.ltb_lt in C3. rewrite !units_eq.
    destruct Wa as [Wa Sa], Wb as [Wb Sb].
    replace (d_signed a * p10 (28 - d_s a) * (d_signed b * p10 (28 - d_s b)))
      with (d_signed a * d_signed b * p10 (56 - (d_s a + d_s b)))
      by (replace (56 - (d_s a + d_s b))%nat with ((28 - d_s a) + (28 - d_s b))%nat by lia; rewrite p10_add; ring).
    rewrite Z.mul_0_l, Z.sub_0_l, Z.abs_opp, !Z.abs_mul, !abs_signed by lia.
    rewrite (Z.abs_eq (p10 _)) by (pose proof (p10_pos (56 - (d_s a + d_s b))); lia).
    assert (p10 (56 - (d_s a + d_s b)) <= p10 8).
    { rewrite (p10_split 8 (56 - (d_s a + d_s b))) by lia. pose proof (p10_ge1 (8 - (56 - (d_s a + d_s b)))).
      pose proof (p10_pos (56 - (d_s a + d_s b))). nia. }
    change (p10 8) with 100000000 in *. change (Z.of_nat (28 - 28)) with 0. rewrite Z.pow_0_r, Z.mul_1_r.
    rewrite (Z.abs_eq unit1) by (vm_compute; discriminate).
    assert (d_m a * d_m b < 2 ^ 64) by (change (2 ^ 64) with (2 ^ 32 * 2 ^ 32); nia).
    assert (d_m a * d_m b * p10 (56 - (d_s a + d_s b)) <= 2 ^ 64 * 100000000).
    { pose proof (p10_pos (56 - (d_s a + d_s b))). assert (0 <= d_m a * d_m b) by nia. nia. }
    apply Z.le_trans with (2 * (2 ^ 64 * 100000000)); [lia|]. vm_compute; discriminate.
  - apply d_reduced_rounded with (z := d_signed a * d_signed b) (sg := (d_s a + d_s b)%nat); auto; [reflexivity|].
    rewrite !units_eq, unit1_p10, p10_add. destruct Wa as [_ Sa], Wb as [_ Sb].
    pose proof (p10_split 28 (d_s a) Sa) as E1. pose proof (p10_split 28 (d_s b) Sb) as E2.
    transitivity (d_signed a * d_signed b * (p10 (28 - d_s a) * p10 (d_s a)) * (p10 (28 - d_s b) * p10 (d_s b))); [ring|].
    rewrite <- E1, <- E2. reflexivity.
Qed.

Lemma d_add_rounded a b r :
  wf_dec a -> wf_dec b -> d_add a b = Ok r -> rounded (units a + units b) 1 r.
Proof.
  intros Wa Wb H. unfold d_add in H. destruct (d_is_zero a) eqn:Za.
  { injection H as <-. apply d_is_zero_units in Za; [|exact Wa]. split; [exact Wb|]. left. lia. }
  destruct (d_is_zero b) eqn:Zb.
  { injection H as <-. apply d_is_zero_units in Zb; [|exact Wb]. split; [exact Wa|]. left. lia. }
  eapply d_reduced_rounded; [|  |exact H]; [lia|].
  destruct (align a b) as [Aa Ab]; [apply Wa|apply Wb|]. rewrite <- Aa, <- Ab. rewrite Z.mul_1_r, unit1_p10.
  assert (Nat.max (d_s a) (d_s b) <= 28)%nat by (destruct Wa, Wb; lia).
  rewrite (p10_split 28 (Nat.max (d_s a) (d_s b))) by assumption. ring.
Qed.

Lemma d_div_rounded a b r : wf_dec a -> wf_dec b -> d_div a b = Ok r -> rounded_quotient a b r.
Proof.
  intros Wa Wb H. pose proof (d_div_wf _ _ _ Wa Wb H) as Wr. unfold d_div in H.
  destruct (d_is_zero b) eqn:Zb; [discriminate|].
  assert (Nb : units b <> 0).
  { intros E. apply d_is_zero_units in E; [congruence|exact Wb]. }
  split; [exact Nb|]. split; [exact Wr|].
  destruct (d_is_zero a) eqn:Za.
  { injection H as <-. left. apply d_is_zero_units in Za; [|exact Wa]. rewrite Za. change (units d_zero) with 0. lia. }
  unfold d_is_zero in Za, Zb. destruct Wa as [Ham Has], Wb as [Hbm Hbs].
  assert (Pb : 0 < d_m b) by lia. assert (Pa : 0 < d_m a) by lia.
  set (num := fun s : nat => d_m a * p10 (s + d_s b - d_s a)) in *.
  set (s0 := (d_s a - d_s b)%nat) in *.
  change (d_m a * p10 (s0 + d_s b - d_s a)) with (num s0) in H.
  set (neg := xorb (d_neg a) (d_neg b)) in *.
  (* the error at scale s *)
  assert (Key : forall q s, 0 <= q -> (s0 <= s <= 28)%nat -> 
            Z.abs ((if neg then - q else q) * p10 (28 - s) * units b - units a * unit1)
            = Z.abs (q * d_m b - num s) * (p10 (28 - s) * p10 (28 - d_s b))).
  { intros q s Hq Hs. rewrite !units_eq, unit1_p10.
    assert (E : p10 (28 - d_s a) * p10 28 = p10 (s + d_s b - d_s a) * (p10 (28 - s) * p10 (28 - d_s b))).
    { rewrite <- !p10_add. f_equal. unfold s0 in Hs. lia. }
    transitivity (Z.abs (((if neg then - q else q) * d_signed b - d_signed a * p10 (s + d_s b - d_s a)) * (p10 (28 - s) * p10 (28 - d_s b)))).
    { f_equal. rewrite Z.mul_sub_distr_r, <- (Z.mul_assoc (d_signed a)), E. ring. }
    rewrite Z.abs_mul. f_equal.
    - unfold d_signed, num, neg. set (X := p10 (s + d_s b - d_s a)).
      destruct (d_neg a), (d_neg b); cbn [xorb]; 
        solve [apply f_equal; ring | rewrite <- (Z.abs_opp (q * d_m b - d_m a * X)); apply f_equal; ring].
    - pose proof (p10_pos (28 - s)). pose proof (p10_pos (28 - d_s b)). nia. }
  assert (Ub : Z.abs (units b) = d_m b * p10 (28 - d_s b)).
  { rewrite units_eq, Z.abs_mul, abs_signed by lia. pose proof (p10_pos (28 - d_s b)). rewrite (Z.abs_eq (p10 _)) by lia. reflexivity. }
  destruct (num s0 mod d_m b =? 0) eqn:E0.
  - destruct (_ <? MAXM) eqn:E1; [|discriminate]. injection H as <-. left.
    assert (Q : num s0 = d_m b * (num s0 / d_m b)).
    { pose proof (Z.div_mod (num s0) (d_m b) ltac:(lia)). lia. }
    assert (Hq : 0 <= num s0 / d_m b).
    { apply Z.div_pos; [|lia]. unfold num. pose proof (p10_pos (s0 + d_s b - d_s a)). nia. }
    specialize (Key _ s0 Hq ltac:(unfold s0; lia)).
    rewrite (units_eq (d_make _ _ _)), d_signed_make by exact Hq. cbn [d_make d_s].
    change (d_s (d_make neg (num s0 / d_m b) s0)) with s0.
    replace (num s0 / d_m b * d_m b - num s0) with 0 in Key by lia. lia.
  - destruct (div_scale _ _) as [s|] eqn:Ds; [|discriminate].
    apply div_scale_spec in Ds as (S1 & S2 & S3). apply andb_prop in S2 as [S2 S2'].
    change (d_m a * p10 (s + d_s b - d_s a)) with (num s) in *.
    assert (P : 0 <= rhe (num s) (d_m b)).
    { apply rhe_nonneg; [lia|]. unfold num. pose proof (p10_pos (s + d_s b - d_s a)). nia. }
    pose proof (strip_exact s (rhe (num s) (d_m b)) P) as Hst.
    destruct (strip s (rhe (num s) (d_m b))) as [m' s'] eqn:St. destruct Hst as (M1 & M2 & M3).
    injection H as <-. right. exists s. unfold MAXS in *. split; [lia|]. split; [exact M2|].
    set (q := rhe (num s) (d_m b)) in *.
    assert (Ur : units (d_make neg m' s') = (if neg then - q else q) * p10 (28 - s)).
    { rewrite units_eq, d_signed_make by lia. change (d_s (d_make neg m' s')) with s'.
      assert (m' * p10 (28 - s') = q * p10 (28 - s)).
      { pose proof (p10_split 28 s ltac:(lia)) as X1. pose proof (p10_split 28 s' ltac:(lia)) as X2.
        pose proof (p10_pos s). pose proof (p10_pos s').
        apply (Z.mul_reg_r _ _ (p10 s * p10 s')); [nia|].
        transitivity (m' * p10 s * (p10 (28 - s') * p10 s')); [ring|]. rewrite M3, <- X2, X1. ring. }
      destruct neg; lia. }
    rewrite Ur. split.
    + rewrite Key by lia. rewrite Ub. change (10 ^ Z.of_nat (28 - s)) with (p10 (28 - s)).
      pose proof (rhe_error (num s) (d_m b) Pb) as Er. fold q in Er.
      pose proof (p10_pos (28 - s)). pose proof (p10_pos (28 - d_s b)).
      set (e := Z.abs (q * d_m b - num s)) in *. set (X := p10 (28 - s)) in *. set (Y := p10 (28 - d_s b)) in *.
      assert (0 < X * Y) by nia. nia.
    + destruct (Nat.eq_dec s 28) as [->|Ns]; [left; reflexivity|]. right.
      specialize (S3 (S s) ltac:(lia)). apply andb_false_iff in S3 as [S3|S3]; [lia|].
      change (d_m a * p10 (S s + d_s b - d_s a)) with (num (S s)) in S3.
      assert (B : MAXM <= rhe (num (S s)) (d_m b)) by lia. apply rhe_big in B; [|exact Pb].
      unfold MAXM in B. replace (2 * 2 ^ 96) with (2 ^ 97) in B by reflexivity.
      rewrite Ub, unit1_p10. change (10 ^ Z.of_nat (S s)) with (p10 (S s)).
      rewrite Z.abs_mul, units_eq, Z.abs_mul, abs_signed by lia.
      rewrite (Z.abs_eq (p10 _)) by (pose proof (p10_pos (28 - d_s a)); lia).
      rewrite (Z.abs_eq (p10 28)) by (pose proof (p10_pos 28); lia).
      assert (E : d_m a * p10 (28 - d_s a) * p10 28 * p10 (S s) = num (S s) * (p10 (28 - d_s b) * p10 28)).
      { unfold num. rewrite <- !Z.mul_assoc, <- !p10_add. do 2 f_equal. unfold s0 in *. lia. }
      replace (2 * (d_m a * p10 (28 - d_s a) * p10 28) * p10 (S s))
        with (2 * (d_m a * p10 (28 - d_s a) * p10 28 * p10 (S s))) by ring.
      rewrite E. set (M := 2 ^ 97 - 1) in *.
      replace (M * (d_m b * p10 (28 - d_s b)) * p10 28) with (M * d_m b * (p10 (28 - d_s b) * p10 28)) by ring.
      replace (2 * (num (S s) * (p10 (28 - d_s b) * p10 28))) with (2 * num (S s) * (p10 (28 - d_s b) * p10 28)) by ring.
      apply Z.mul_le_mono_nonneg_r; [|exact B]. pose proof (p10_pos (28 - d_s b)). pose proof (p10_pos 28). nia.
Qed.

(** Rounding is exact where the exact result is representable. *)
Lemma rounded_exact num den q d :
  den <> 0 -> rounded num den q -> wf_dec d -> units d * den = num -> units q = units d.
Proof.
  intros Hden [Wq H] Wd Ed. destruct H as [H|(s & Hs & Hsq & He & Hb)].
  - rewrite <- Ed in H. apply Z.mul_reg_r in H; auto.
  - rewrite <- Ed in He.
    replace (units q * den - units d * den) with ((units q - units d) * den) in He by ring. rewrite Z.abs_mul in He.
    change (10 ^ Z.of_nat (28 - s)) with (p10 (28 - s)) in He.
    assert (Hd : (d_s d <= s)%nat \/ units d = 0).
    { destruct Hb as [->|Hb]; [left; apply Wd|].
      destruct (Nat.le_gt_cases (d_s d) s) as [L|L]; [left; exact L|]. exfalso.
      rewrite <- Ed in Hb. change (10 ^ Z.of_nat (S s)) with (p10 (S s)) in Hb. rewrite Z.abs_mul in Hb.
      assert (Hb' : (2 ^ 97 - 1) * unit1 <= 2 * Z.abs (units d) * p10 (S s)).
      { apply (Z.mul_le_mono_pos_r _ _ (Z.abs den)); [lia|].
        replace ((2 ^ 97 - 1) * unit1 * Z.abs den) with ((2 ^ 97 - 1) * Z.abs den * unit1) by ring.
        replace (2 * Z.abs (units d) * p10 (S s) * Z.abs den) with (2 * (Z.abs (units d) * Z.abs den) * p10 (S s)) by ring.
        exact Hb. }
      clear Hb He. destruct Wd as [Wm Ws]. rewrite units_eq, Z.abs_mul, abs_signed in Hb' by lia.
      rewrite (Z.abs_eq (p10 _)) in Hb' by (pose proof (p10_pos (28 - d_s d)); lia).
      rewrite unit1_p10, (p10_split 28 (d_s d)), (p10_split (d_s d) (S s)) in Hb' by lia.
      pose proof (p10_pos (28 - d_s d)). pose proof (p10_pos (S s)). pose proof (p10_ge1 (d_s d - S s)).
      set (X := p10 (28 - d_s d)) in *. set (Y := p10 (S s)) in *. set (Z0 := p10 (d_s d - S s)) in *.
      assert (0 < X * Y) by nia.
      assert ((2 ^ 97 - 1) * Z0 <= 2 * d_m d).
      { apply (Z.mul_le_mono_pos_r _ _ (X * Y)); [assumption|].
        replace ((2 ^ 97 - 1) * Z0 * (X * Y)) with ((2 ^ 97 - 1) * (X * (Z0 * Y))) by ring.
        replace (2 * d_m d * (X * Y)) with (2 * (d_m d * X) * Y) by ring. exact Hb'. }
      assert (2 ^ 97 - 1 <= 2 * d_m d) by nia. lia. }
    assert (Dq : (p10 (28 - s) | units q)).
    { rewrite units_eq. apply Z.divide_mul_r, p10_divide. lia. }
    assert (Dd : (p10 (28 - s) | units d)).
    { destruct Hd as [Hd| ->]; [|apply Z.divide_0_r]. rewrite units_eq. apply Z.divide_mul_r, p10_divide. lia. }
    destruct Dq as [kq Eq], Dd as [kd Ek]. pose proof (p10_pos (28 - s)). rewrite Eq, Ek in *.
    set (P := p10 (28 - s)) in *.
    replace (kq * P - kd * P) with ((kq - kd) * P) in He by ring. rewrite Z.abs_mul, (Z.abs_eq P) in He by lia.
    assert (2 * Z.abs (kq - kd) <= 1).
    { assert (0 < Z.abs den) by lia. apply (Z.mul_le_mono_pos_r _ _ (Z.abs den * P)); [nia|].
      replace (2 * Z.abs (kq - kd) * (Z.abs den * P)) with (2 * (Z.abs (kq - kd) * P * Z.abs den)) by ring. lia. }
    f_equal. lia.
Qed.
