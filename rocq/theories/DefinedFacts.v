(** When decimal arithmetic has a result. *)
From Coq Require Import List NArith ZArith Bool Lia Znumtheory ZifyBool ZifyNat ZifyN.
From Verif Require Import Base Decimal Amount SpecDecimal SpecAmount.
From Verif Require Import BaseFacts DecimalFacts RoundFacts.
Import ListNotations.
Open Scope Z_scope.

Lemma rhe_lt n d M : 0 < d -> Z.even M = true -> rhe n d < M <-> 2 * n < (2 * M - 1) * d.
Proof.
  intros Hd Ev. unfold rhe. pose proof (Z.div_mod n d ltac:(lia)) as E. pose proof (Z.mod_pos_bound n d Hd).
  set (q := n / d) in *. set (r := n mod d) in *. clearbody q r. subst n.
  destruct (Z.ltb_spec (2 * r) d); [split; intros; nia|]. destruct (Z.ltb_spec d (2 * r)); [split; intros; nia|].
  destruct (Z.even q) eqn:Eq; [|split; intros; nia].
  assert (q <> M - 1). { intros ->. rewrite Z.even_sub, Ev in Eq. discriminate. }
  split; intros; nia.
Qed.
Lemma max_even : Z.even MAXM = true. Proof. reflexivity. Qed.

(** A number of [s] decimals can be reduced if and only if it is in range as an integer. *)
Lemma reduce_from_some fuel : forall k m s, s = (k + fuel)%nat -> 0 <= m ->
  ((exists m' s', reduce_from fuel k m s = Some (m', s')) <-> 2 * m < (2 * MAXM - 1) * p10 s).
Proof.
  induction fuel as [|f IH]; intros k m s E Hm; cbn [reduce_from].
  - assert (k = s) as -> by lia. rewrite Nat.sub_diag. pose proof (rhe_lt m (p10 s) MAXM (p10_pos s) max_even) as R.
    destruct (Z.ltb_spec (rhe m (p10 s)) MAXM); cbn [andb Nat.leb].
    + split; [intros _; apply R; assumption|eauto].
    + split; [intros (? & ? & X); discriminate|intros X; apply R in X; lia].
  - destruct (_ && _) eqn:C.
    + split; [intros _|eauto]. apply andb_prop in C as [C _]. apply Z.ltb_lt in C. apply rhe_lt in C; [|apply p10_pos|apply max_even].
      rewrite (p10_split s k) by lia. pose proof (p10_ge1 (s - k)). pose proof (p10_pos k).
      assert (0 < (2 * MAXM - 1) * p10 k) by (apply Z.mul_pos_pos; [reflexivity|assumption]).
      set (W := (2 * MAXM - 1)) in *. clearbody W. replace (W * (p10 (s - k) * p10 k)) with (W * p10 k * p10 (s - k)) by ring. nia.
    + apply IH; lia.
Qed.
Lemma d_reduced_some z s : (exists r, d_reduced z s = Ok r) <-> 2 * Z.abs z < (2 * MAXM - 1) * p10 s.
Proof.
  rewrite <- (reduce_from_some s 0 (Z.abs z) s eq_refl (Z.abs_nonneg z)). unfold d_reduced, reduce.
  destruct (reduce_from s 0 (Z.abs z) s) as [[m' s']|]; split; eauto.
  - intros (? & ?); discriminate.
  - intros (? & ? & ?); discriminate.
Qed.

Lemma two97 : 2 * MAXM - 1 = 2 ^ 97 - 1. Proof. reflexivity. Qed.
Lemma wf_in_range a : wf_dec a -> 2 * Z.abs (units a) < (2 ^ 97 - 1) * unit1.
Proof.
  intros [[M0 M] S]. rewrite units_eq, Z.abs_mul, abs_signed by exact M0. rewrite unit1_p10, (p10_split 28 (d_s a) S).
  rewrite (Z.abs_eq (p10 _)) by (pose proof (p10_pos (28 - d_s a)); lia). pose proof (p10_pos (28 - d_s a)). pose proof (p10_ge1 (d_s a)).
  change (2 ^ 97) with (2 * 2 ^ 96). set (W := 2 ^ 96) in *. assert (1 < W) by reflexivity. clearbody W.
  replace ((2 * W - 1) * (p10 (28 - d_s a) * p10 (d_s a))) with ((2 * W - 1) * p10 (d_s a) * p10 (28 - d_s a)) by ring.
  rewrite Z.mul_assoc. apply Z.mul_lt_mono_pos_r; [assumption|]. nia.
Qed.

Lemma add_range a b s : (d_s a <= s)%nat -> (d_s b <= s)%nat -> (s <= 28)%nat -> forall f : Z -> Z -> Z,
  (forall x y k, f (x * k) (y * k) = f x y * k) ->
  (2 * Z.abs (f (d_signed a * p10 (s - d_s a)) (d_signed b * p10 (s - d_s b))) < (2 * MAXM - 1) * p10 s
   <-> 2 * Z.abs (f (units a) (units b)) < (2 ^ 97 - 1) * unit1).
Proof.
  intros Ha Hb Hs f Hf. rewrite !units_eq, two97, unit1_p10.
  replace (28 - d_s a)%nat with ((s - d_s a) + (28 - s))%nat by lia. replace (28 - d_s b)%nat with ((s - d_s b) + (28 - s))%nat by lia.
  rewrite !p10_add, !Z.mul_assoc, Hf, Z.abs_mul. rewrite (p10_split 28 s Hs). pose proof (p10_pos (28 - s)). rewrite (Z.abs_eq (p10 (28 - s))) by lia.
  set (W := 2 ^ 97 - 1). clearbody W. set (F := Z.abs _). clearbody F. set (P := p10 (28 - s)) in *. clearbody P. set (Q := p10 s). clearbody Q.
  replace (2 * (F * P)) with ((2 * F) * P) by ring. replace (W * (P * Q)) with ((W * Q) * P) by ring. symmetry. symmetry. apply Z.mul_lt_mono_pos_r. assumption.
Qed.
Lemma d_add_some a b : wf_dec a -> wf_dec b ->
  ((exists r, d_add a b = Ok r) <-> 2 * Z.abs (units a + units b) < (2 ^ 97 - 1) * unit1).
Proof.
  intros Wa Wb. unfold d_add. destruct (d_is_zero a) eqn:Za.
  { apply d_is_zero_units in Za; [|exact Wa]. rewrite Za, Z.add_0_l. split; [intros _; apply wf_in_range, Wb|eauto]. }
  destruct (d_is_zero b) eqn:Zb.
  { apply d_is_zero_units in Zb; [|exact Wb]. rewrite Zb, Z.add_0_r. split; [intros _; apply wf_in_range, Wa|eauto]. }
  cbv zeta. rewrite d_reduced_some. destruct Wa as [_ Sa], Wb as [_ Sb]. apply (add_range a b (Nat.max (d_s a) (d_s b)) ltac:(lia) ltac:(lia) ltac:(lia) Z.add). intros; ring.
Qed.
Lemma d_sub_some a b : wf_dec a -> wf_dec b ->
  ((exists r, d_sub a b = Ok r) <-> 2 * Z.abs (units a - units b) < (2 ^ 97 - 1) * unit1).
Proof.
  intros Wa Wb. unfold d_sub. destruct (d_is_zero a) eqn:Za.
  { apply d_is_zero_units in Za; [|exact Wa]. rewrite Za, Z.sub_0_l, Z.abs_opp. split; [intros _; apply wf_in_range, Wb|eauto]. }
  destruct (d_is_zero b) eqn:Zb.
  { apply d_is_zero_units in Zb; [|exact Wb]. rewrite Zb, Z.sub_0_r. split; [intros _; apply wf_in_range, Wa|eauto]. }
  cbv zeta. rewrite d_reduced_some. destruct Wa as [_ Sa], Wb as [_ Sb]. apply (add_range a b (Nat.max (d_s a) (d_s b)) ltac:(lia) ltac:(lia) ltac:(lia) Z.sub). intros; ring.
Qed.
Lemma mul_range a b : wf_dec a -> wf_dec b ->
  (2 * Z.abs (d_signed a * d_signed b) < (2 * MAXM - 1) * p10 (d_s a + d_s b)
   <-> 2 * Z.abs (units a * units b) < (2 ^ 97 - 1) * unit1 * unit1).
Proof.
  intros [_ Sa] [_ Sb]. rewrite two97, !units_eq.
  replace (d_signed a * p10 (28 - d_s a) * (d_signed b * p10 (28 - d_s b))) with (d_signed a * d_signed b * (p10 (28 - d_s a) * p10 (28 - d_s b))) by ring.
  rewrite unit1_p10. pose proof (p10_split 28 (d_s a) Sa) as Ea. pose proof (p10_split 28 (d_s b) Sb) as Eb.
  rewrite p10_add, (Z.abs_mul (d_signed a * d_signed b) (p10 (28 - d_s a) * p10 (28 - d_s b))). pose proof (p10_pos (28 - d_s a)). pose proof (p10_pos (28 - d_s b)).
  assert (0 < p10 (28 - d_s a) * p10 (28 - d_s b)) by (apply Z.mul_pos_pos; assumption). rewrite (Z.abs_eq (p10 (28 - d_s a) * p10 (28 - d_s b))) by lia.
  replace ((2 ^ 97 - 1) * p10 28 * p10 28) with ((2 ^ 97 - 1) * (p10 28 * p10 28)) by ring.
  replace (p10 28 * p10 28) with (p10 (28 - d_s a) * p10 (d_s a) * (p10 (28 - d_s b) * p10 (d_s b))) by (rewrite <- Ea, <- Eb; reflexivity).
  set (W := 2 ^ 97 - 1). clearbody W. set (F := Z.abs _). clearbody F. set (A := p10 (28 - d_s a)) in *. set (B := p10 (28 - d_s b)) in *. clearbody A B.
  clear Ea Eb. set (C := p10 (d_s a)). set (D := p10 (d_s b)). clearbody C D.
  replace (2 * (F * (A * B))) with ((2 * F) * (A * B)) by ring. replace (W * (A * C * (B * D))) with ((W * (C * D)) * (A * B)) by ring. apply Z.mul_lt_mono_pos_r. assumption.
Qed.
Lemma d_mul_some a b : wf_dec a -> wf_dec b ->
  ((exists r, d_mul a b = Ok r) <-> 2 * Z.abs (units a * units b) < (2 ^ 97 - 1) * unit1 * unit1).
Proof.
  intros Wa Wb. unfold d_mul. destruct (d_is_zero a || d_is_zero b) eqn:Z0.
  { split; [intros _|eauto]. assert (units a * units b = 0) as ->; [|reflexivity].
    apply orb_prop in Z0 as [Z0|Z0]; apply d_is_zero_units in Z0; auto; rewrite Z0; lia. }
  destruct (_ && _) eqn:C.
  - split; [intros _|eauto]. rewrite !andb_true_iff in C. destruct C as [[C1 C2] C3].
    apply Z.ltb_lt in C1, C2. apply Nat.ltb_lt in C3. apply mul_range; [exact Wa|exact Wb|]. destruct Wa as [[Ma _] _], Wb as [[Mb _] _].
    rewrite Z.abs_mul, !abs_signed by assumption.
    assert (d_m a * d_m b <= 2 ^ 32 * 2 ^ 32) by (apply Z.mul_le_mono_nonneg; lia). pose proof (p10_ge1 (d_s a + d_s b)).
    apply Z.le_lt_trans with (2 * (2 ^ 32 * 2 ^ 32)); [lia|]. apply Z.lt_le_trans with ((2 * MAXM - 1) * 1); [reflexivity|].
    apply Z.mul_le_mono_nonneg_l; [discriminate|assumption].
  - rewrite d_reduced_some. apply mul_range; assumption.
Qed.

Lemma div_scale_some top f : (exists s, div_scale top f = Some s) <-> exists t, (t <= top)%nat /\ f t = true.
Proof.
  split.
  - intros (s & H). apply div_scale_spec in H as (A & B & _). eauto.
  - intros (t & L & F). destruct (div_scale top f) eqn:E; [eauto|]. rewrite (div_scale_none _ _ E t L) in F. discriminate.
Qed.
Lemma d_div_some a b : wf_dec a -> wf_dec b ->
  ((exists r, d_div a b = Ok r) <-> units b <> 0 /\ 2 * Z.abs (units a) < (2 ^ 97 - 1) * Z.abs (units b)).
Proof.
  intros Wa Wb. unfold d_div. destruct (d_is_zero b) eqn:Zb.
  { apply d_is_zero_units in Zb; [|exact Wb]. split; [intros (r & X); discriminate|]. intros [X _]. contradiction. }
  assert (Nb : units b <> 0). { intros X. apply d_is_zero_units in X; [|exact Wb]. congruence. }
  destruct (d_is_zero a) eqn:Za.
  { apply d_is_zero_units in Za; [|exact Wa]. rewrite Za. split; [intros _; split; [exact Nb|]|eauto]. apply Z.mul_pos_pos; [reflexivity|lia]. }
  assert (Na : units a <> 0). { intros X. apply d_is_zero_units in X; [|exact Wa]. congruence. }
  assert (Mb : 0 < d_m b). { destruct Wb as [[M _] _]. unfold d_is_zero in Zb. lia. }
  assert (Ma : 0 < d_m a). { destruct Wa as [[M _] _]. unfold d_is_zero in Za. lia. }
  cbv zeta. set (s0 := (d_s a - d_s b)%nat). set (num := fun s : nat => d_m a * p10 (s + d_s b - d_s a)).
  change (d_m a * p10 (s0 + d_s b - d_s a)) with (num s0).
  match goal with |- context [ div_scale MAXS ?f ] => change f with (fun s : nat => (s0 <=? s)%nat && (rhe (num s) (d_m b) <? MAXM)) end.
  (* the condition at the natural scale *)
  assert (K : 2 * num s0 < (2 * MAXM - 1) * d_m b <-> 2 * Z.abs (units a) < (2 ^ 97 - 1) * Z.abs (units b)).
  { unfold num. destruct Wa as [[_ Wa] Sa], Wb as [[_ Wb] Sb]. rewrite !units_eq, !Z.abs_mul, !abs_signed by lia.
    pose proof (p10_pos (28 - d_s a)) as Pa. pose proof (p10_pos (28 - d_s b)) as Pb. rewrite !(Z.abs_eq (p10 _)) by lia. rewrite <- two97.
    destruct (Nat.le_gt_cases (d_s a) (d_s b)) as [L|L].
    - unfold s0. replace (d_s a - d_s b + d_s b - d_s a)%nat with (d_s b - d_s a)%nat by lia.
      replace (28 - d_s a)%nat with ((d_s b - d_s a) + (28 - d_s b))%nat by lia. rewrite p10_add.
      set (W := 2 * MAXM - 1). clearbody W. set (P := p10 (28 - d_s b)) in *. clearbody P.
      replace (2 * (d_m a * (p10 (d_s b - d_s a) * P))) with (2 * (d_m a * p10 (d_s b - d_s a)) * P) by ring.
      replace (W * (d_m b * P)) with (W * d_m b * P) by ring. apply Z.mul_lt_mono_pos_r. assumption.
    - unfold s0. replace (d_s a - d_s b + d_s b - d_s a)%nat with 0%nat by lia. rewrite p10_0.
      replace (28 - d_s b)%nat with ((d_s a - d_s b) + (28 - d_s a))%nat by lia. rewrite p10_add.
      pose proof (p10_ge1 (d_s a - d_s b)). set (Q := p10 (d_s a - d_s b)) in *. set (P := p10 (28 - d_s a)) in *. clearbody P Q.
      assert (B : 2 * d_m a < (2 * MAXM - 1) * d_m b). { unfold MAXM in *. set (W := 2 ^ 96) in *. assert (1 < W) by reflexivity. clearbody W. nia. }
      split; intros _; [|rewrite Z.mul_1_r; exact B]. set (W := 2 * MAXM - 1) in *. clearbody W.
      replace (2 * (d_m a * P)) with (2 * d_m a * P) by ring. replace (W * (d_m b * (Q * P))) with (W * d_m b * Q * P) by ring.
      apply Z.mul_lt_mono_pos_r; [assumption|]. nia. }
  assert (R := rhe_lt (num s0) (d_m b) MAXM Mb max_even). rewrite K in R.
  assert (P0 : 0 <= num s0) by (unfold num; pose proof (p10_pos (s0 + d_s b - d_s a)); nia).
  destruct (Z.eqb_spec (num s0 mod d_m b) 0) as [Ez|Ez].
  - rewrite (rhe_exact (num s0) (d_m b) Mb) in R by (apply Z.mod_divide; [lia|exact Ez]).
    destruct (Z.ltb_spec (num s0 / d_m b) MAXM) as [L|L].
    + split; [intros _; split; [exact Nb|apply R, L]|eauto].
    + split; [intros (r & X); discriminate|]. intros [_ X]. apply R in X. lia.
  - assert (D : (exists s, div_scale MAXS (fun s => (s0 <=? s)%nat && (rhe (num s) (d_m b) <? MAXM)) = Some s) <-> rhe (num s0) (d_m b) < MAXM).
    { rewrite div_scale_some. split.
      - intros (t & L & F). apply andb_prop in F as [F1 F2]. apply Nat.leb_le in F1. apply Z.ltb_lt in F2.
        apply rhe_lt in F2; [|exact Mb|apply max_even]. apply rhe_lt; [exact Mb|apply max_even|]. eapply Z.le_lt_trans; [|exact F2].
        unfold num. assert (p10 (s0 + d_s b - d_s a) <= p10 (t + d_s b - d_s a)); [|nia].
        rewrite (p10_split (t + d_s b - d_s a) (s0 + d_s b - d_s a)) by lia. pose proof (p10_ge1 (t + d_s b - d_s a - (s0 + d_s b - d_s a))). pose proof (p10_pos (s0 + d_s b - d_s a)). nia.
      - intros L. exists s0. split; [unfold s0, MAXS; destruct Wa; lia|]. apply andb_true_intro. split; [apply Nat.leb_refl|apply Z.ltb_lt, L]. }
    split.
    + intros (r & H). split; [exact Nb|]. apply R. apply D. destruct (div_scale _ _); [eauto|discriminate].
    + intros [_ X]. apply R in X. apply D in X as (s & ->). destruct (strip s _). eauto.
Qed.
