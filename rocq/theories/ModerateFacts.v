(** Numbers of moderate size do not overflow. *)
From Coq Require Import String List NArith ZArith Bool Lia.
From Verif Require Import Base Decimal Dates Amount Balance Scanner History Pool Account Journal Xact Parser.
From Verif Require Import SpecText SpecDecimal SpecAmount SpecReading SpecLine SpecValue SpecRefused SpecModerate.
From Verif Require Import BaseFacts DecimalFacts BalanceFacts ArithProofs DefinedFacts DefinedProofs ValueProofs.
Import ListNotations.
Local Open Scope Z_scope.

Lemma p10_eq n : 10 ^ Z.of_nat n = p10 n. Proof. reflexivity. Qed.
Lemma max96 : (2 ^ 97 = 2 * 2 ^ 96)%Z. Proof. reflexivity. Qed.

(** ** Exact sums and products *)
Lemma reduced_small z s : (s <= 28)%nat -> Z.abs z < 2 ^ 96 -> d_reduced z s = Ok (d_make (z <? 0) (Z.abs z) s).
Proof.
  intros Hs Hz. unfold d_reduced, reduce. assert (E : rhe (Z.abs z) (p10 0) = Z.abs z).
  { unfold rhe. change (p10 0) with 1. rewrite Z.div_1_r, Z.mod_1_r. reflexivity. }
  destruct s as [|s]; cbn [reduce_from]; rewrite E; rewrite Nat.sub_0_r; unfold MAXM, MAXS; rewrite (proj2 (Z.ltb_lt _ _) Hz); rewrite (proj2 (Nat.leb_le _ _) Hs); reflexivity.
Qed.
Lemma small_le s w w' d : w <= w' -> small s w d -> small s w' d.
Proof. intros H (A & B & C). repeat split; [exact A|exact B|lia]. Qed.
Lemma small_more s s' w d : (s <= s')%nat -> small s w d -> small s' (w * p10 (s' - s)) d.
Proof.
  intros H (A & B & C). repeat split; [exact A|lia|]. replace (s' - d_s d)%nat with ((s - d_s d) + (s' - s))%nat by lia. rewrite p10_eq, p10_add. rewrite p10_eq in C. pose proof (p10_pos (s' - s)). nia.
Qed.
Lemma small_wf s w d : (s <= 28)%nat -> w < 2 ^ 96 -> small s w d -> wf_dec d.
Proof.
  intros H L (A & B & C). split; [split; [exact A|]|lia]. rewrite p10_eq in C. pose proof (p10_ge1 (s - d_s d)). generalize dependent (2 ^ 96). intros. nia.
Qed.
Lemma small_make s w neg m t : (t <= s)%nat -> 0 <= m -> m * p10 (s - t) <= w -> small s w (d_make neg m t).
Proof. intros A B C. repeat split; assumption. Qed.
Lemma signed_abs d : 0 <= d_m d -> Z.abs (d_signed d) = d_m d.
Proof. unfold d_signed. destruct (d_neg d); lia. Qed.
Lemma add_small s w v a b : (s <= 28)%nat -> 0 <= w -> 0 <= v -> w + v < 2 ^ 96 -> small s w a -> small s v b -> exists r, d_add a b = Ok r /\ small s (w + v) r.
Proof.
  intros Hs Hw Hv L A B. unfold d_add. destruct (d_is_zero a); [exists b; split; [reflexivity|apply (small_le _ v); [lia|exact B]]|].
  destruct (d_is_zero b); [exists a; split; [reflexivity|apply (small_le _ w); [lia|exact A]]|].
  destruct A as (A1 & A2 & A3), B as (B1 & B2 & B3). rewrite p10_eq in A3, B3. set (t := Nat.max (d_s a) (d_s b)).
  set (z := d_signed a * p10 (t - d_s a) + d_signed b * p10 (t - d_s b)).
  assert (Z : Z.abs z * p10 (s - t) <= w + v).
  { assert (Z.abs z <= d_m a * p10 (t - d_s a) + d_m b * p10 (t - d_s b)).
    { unfold z. rewrite <- (signed_abs a A1), <- (signed_abs b B1). pose proof (p10_pos (t - d_s a)). pose proof (p10_pos (t - d_s b)).
      rewrite <- (Z.abs_eq (p10 (t - d_s a))) at 2 by lia. rewrite <- (Z.abs_eq (p10 (t - d_s b))) at 2 by lia. rewrite <- !Z.abs_mul. apply Z.abs_triangle. }
    assert (E1 : p10 (s - d_s a) = p10 (t - d_s a) * p10 (s - t)) by (rewrite <- p10_add; f_equal; lia).
    assert (E2 : p10 (s - d_s b) = p10 (t - d_s b) * p10 (s - t)) by (rewrite <- p10_add; f_equal; lia).
    rewrite E1 in A3. rewrite E2 in B3. pose proof (p10_pos (s - t)). nia. }
  exists (d_make (z <? 0) (Z.abs z) t). split.
  - apply reduced_small; [lia|]. pose proof (p10_ge1 (s - t)). generalize dependent (2 ^ 96). intros. nia.
  - apply small_make; [lia|lia|exact Z].
Qed.
Lemma mul_small k w v a b : (k <= 14)%nat -> 0 <= w -> 0 <= v -> w * v < 2 ^ 96 -> small k w a -> small k v b -> exists r, d_mul a b = Ok r /\ small (2 * k) (w * v) r.
Proof.
  intros Hk Hw Hv L A B. unfold d_mul. assert (Z0 : small (2 * k) (w * v) d_zero) by (repeat split; cbn; nia).
  destruct (_ || _); [exists d_zero; auto|]. destruct A as (A1 & A2 & A3), B as (B1 & B2 & B3). rewrite p10_eq in A3, B3.
  rewrite (proj2 (Nat.ltb_ge 47 (d_s a + d_s b))) by lia. rewrite andb_false_r.
  set (z := d_signed a * d_signed b). assert (E : Z.abs z = d_m a * d_m b) by (unfold z; rewrite Z.abs_mul, !signed_abs by assumption; reflexivity).
  assert (Z : Z.abs z * p10 (2 * k - (d_s a + d_s b)) <= w * v).
  { rewrite E. replace (2 * k - (d_s a + d_s b))%nat with ((k - d_s a) + (k - d_s b))%nat by lia. rewrite p10_add. pose proof (p10_pos (k - d_s a)). pose proof (p10_pos (k - d_s b)).
    replace (d_m a * d_m b * (p10 (k - d_s a) * p10 (k - d_s b))) with ((d_m a * p10 (k - d_s a)) * (d_m b * p10 (k - d_s b))) by ring. apply Z.mul_le_mono_nonneg; nia. }
  exists (d_make (z <? 0) (Z.abs z) (d_s a + d_s b)). split.
  - apply reduced_small; [lia|]. pose proof (p10_ge1 (2 * k - (d_s a + d_s b))). generalize dependent (2 ^ 96). intros. nia.
  - apply small_make; [lia|lia|exact Z].
Qed.
Lemma small_units s w d : (s <= 28)%nat -> small s w d -> Z.abs (units d) <= w * p10 (28 - s).
Proof.
  intros Hs (A & B & C). rewrite p10_eq in C. unfold units. rewrite p10_eq. replace (28 - d_s d)%nat with ((s - d_s d) + (28 - s))%nat by lia. rewrite p10_add.
  pose proof (p10_pos (s - d_s d)). pose proof (p10_pos (28 - s)). rewrite Z.abs_mul, (Z.abs_eq (_ * _)) by nia. destruct (d_neg d); rewrite ?Z.abs_opp, Z.abs_eq by lia; nia.
Qed.
Lemma small_grain s w d : (s <= 28)%nat -> small s w d -> d_is_zero d = false -> p10 (28 - s) <= Z.abs (units d).
Proof.
  intros Hs (A & B & C) Nz. apply Z.eqb_neq in Nz. unfold units. rewrite p10_eq. replace (28 - d_s d)%nat with ((s - d_s d) + (28 - s))%nat by lia. rewrite p10_add.
  pose proof (p10_ge1 (s - d_s d)). pose proof (p10_pos (28 - s)). rewrite Z.abs_mul, (Z.abs_eq (_ * _)) by nia. destruct (d_neg d); rewrite ?Z.abs_opp, Z.abs_eq by lia;
    (assert (M : 1 <= d_m d * p10 (s - d_s d)) by nia); rewrite Z.mul_assoc; nia.
Qed.

(** ** Rounded sums, products and quotients *)
Definition bounded (v : Z) (d : dec) : Prop := wf_dec d /\ Z.abs (units d) <= v * unit1.
Lemma unit1_p10 : unit1 = p10 28. Proof. reflexivity. Qed.
Lemma unit1_pos : 0 < unit1. Proof. rewrite unit1_p10. apply p10_pos. Qed.
Lemma rounded_bound num den q : den <> 0 -> rounded num den q -> Z.abs (units q) * Z.abs den <= Z.abs num + Z.abs den * unit1.
Proof.
  intros Nd [_ [E|(s & Hs & _ & E & _)]].
  - rewrite <- E, Z.abs_mul. pose proof unit1_pos. nia.
  - rewrite p10_eq in E. assert (P : p10 (28 - s) <= unit1) by (rewrite unit1_p10, (p10_split 28 s) by lia; pose proof (p10_ge1 s); pose proof (p10_pos (28 - s)); nia).
    rewrite <- Z.abs_mul. pose proof unit1_pos. assert (Z.abs (units q * den - num) <= Z.abs den * unit1) by nia. lia.
Qed.
Lemma bounded_le v v' d : v <= v' -> bounded v d -> bounded v' d.
Proof. intros H [W B]. split; [exact W|]. pose proof unit1_pos. nia. Qed.
Lemma small_bounded s w v d : (s <= 28)%nat -> w < 2 ^ 96 -> w <= v * p10 s -> small s w d -> bounded v d.
Proof.
  intros Hs L H S. split; [eapply small_wf; eassumption|]. pose proof (small_units _ _ _ Hs S). rewrite unit1_p10, (p10_split 28 s Hs). pose proof (p10_pos (28 - s)). nia.
Qed.
Lemma in_range_of x u : 0 <= u -> 0 < x -> u <= (2 ^ 96 - 1) * x -> 2 * u < (2 ^ 97 - 1) * x.
Proof. intros A B C. rewrite max96. generalize dependent (2 ^ 96). intros. nia. Qed.
Lemma add_bounded w v a b : a_c a = a_c b -> w + v < 2 ^ 96 -> bounded w (a_q a) -> bounded v (a_q b) ->
  0 <= v -> exists r, amt_add a b = Ok r /\ bounded (w + v + 1) (a_q r) /\ a_c r = a_c a.
Proof.
  intros C L [Wa A] [Wb B] Hv. pose proof unit1_pos as U.
  assert (Sm : Z.abs (units (a_q a) + units (a_q b)) <= (w + v) * unit1) by lia.
  assert (R : exists r, amt_add a b = Ok r).
  { apply (sum_some a b Wa Wb C). apply in_range_of; [lia|exact U|]. unfold aunits. generalize dependent (2 ^ 96). intros. nia. }
  destruct R as [r R]. exists r. split; [exact R|]. unfold amt_add in R. rewrite C, comm_eqb_refl in R. destruct (d_is_zero (a_q b)).
  - injection R as <-. split; [split; [exact Wa|nia]|reflexivity].
  - inv_bind R. injection R as <-. cbn [a_q a_c]. split; [|symmetry; exact C]. apply (d_add_nearest _ _ _ Wa Wb) in EQ. split; [apply EQ|].
    apply nearest_rounded, rounded_bound in EQ; [|lia|lia]. change (Z.abs 1) with 1 in EQ. lia.
Qed.
Lemma sub_bounded w v a b : a_c a = a_c b -> w + v < 2 ^ 96 -> bounded w (a_q a) -> bounded v (a_q b) ->
  exists r, amt_minus a b = Ok r /\ bounded (w + v + 1) (a_q r) /\ a_c r = a_c a.
Proof.
  intros C L [Wa A] [Wb B]. pose proof unit1_pos as U.
  assert (Sm : Z.abs (units (a_q a) - units (a_q b)) <= (w + v) * unit1) by lia.
  assert (R : exists r, amt_minus a b = Ok r).
  { apply (difference_some a b Wa Wb C). apply in_range_of; [lia|exact U|]. unfold aunits. generalize dependent (2 ^ 96). intros. nia. }
  destruct R as [r R]. exists r. split; [exact R|]. unfold amt_minus in R. rewrite C, comm_eqb_refl in R.
  inv_bind R. injection R as <-. cbn [a_q a_c]. split; [|symmetry; exact C]. apply (d_sub_nearest _ _ _ Wa Wb) in EQ. split; [apply EQ|].
  apply nearest_rounded, rounded_bound in EQ; [|lia|lia]. change (Z.abs 1) with 1 in EQ. lia.
Qed.
(** The product of a factor of at most [w] is at most [w] times the other one, up to one. *)
Lemma mul_bounded w v a b : w * v < 2 ^ 96 -> 0 <= w -> bounded w (a_q a) -> bounded v (a_q b) ->
  exists r, amt_mul a b = Ok r /\ wf_amt r /\ Z.abs (aunits r) <= w * Z.abs (aunits b) + unit1.
Proof.
  intros L Hw [Wa A] [Wb B]. pose proof unit1_pos as U.
  assert (Sm : Z.abs (aunits a * aunits b) <= w * unit1 * Z.abs (aunits b)) by (rewrite Z.abs_mul; unfold aunits; nia).
  assert (R : exists r, amt_mul a b = Ok r).
  { apply (product_some a b Wa Wb). rewrite <- Z.mul_assoc. apply in_range_of; [lia|nia|]. unfold aunits in *. 
    assert (Z.abs (units (a_q a) * units (a_q b)) <= w * v * (unit1 * unit1)) by nia. generalize dependent (2 ^ 96). intros. nia. }
  destruct R as [r R]. exists r. split; [exact R|]. unfold amt_mul in R. inv_bind R. injection R as <-. unfold wf_amt, aunits in *. cbn [a_q]. apply (d_mul_nearest _ _ _ Wa Wb) in EQ. split; [apply EQ|].
  apply nearest_rounded, rounded_bound in EQ; [|lia|lia]. rewrite (Z.abs_eq unit1) in EQ by lia. nia.
Qed.
Lemma div_bounded w a b : wf_amt a -> wf_amt b -> aunits b <> 0 -> 0 <= w -> w < 2 ^ 96 -> Z.abs (aunits a) <= w * Z.abs (aunits b) ->
  exists r, amt_div a b = Ok r /\ bounded (w + 1) (a_q r).
Proof.
  intros Wa Wb Nz Hw L H. pose proof unit1_pos as U.
  assert (R : exists r, amt_div a b = Ok r).
  { apply (quotient_some a b Wa Wb). split; [exact Nz|]. apply in_range_of; [lia|lia|]. generalize dependent (2 ^ 96). intros. nia. }
  destruct R as [r R]. exists r. split; [exact R|]. unfold amt_div in R. inv_bind R. injection R as <-. unfold aunits in *. cbn [a_q]. apply (d_div_nearest _ _ _ Wa Wb) in EQ as [_ EQ]. split; [apply EQ|].
  apply nearest_rounded, rounded_bound in EQ; [|lia|lia]. rewrite Z.abs_mul, (Z.abs_eq unit1) in EQ by lia. nia.
Qed.

(** ** Balances *)
Lemma bal_add_small s w v b a : (s <= 28)%nat -> 0 <= w -> 0 <= v -> w + v < 2 ^ 96 -> Forall (fun e => small s w (a_q e)) b -> small s v (a_q a) ->
  exists b', bal_add b a = Ok b' /\ Forall (fun e => small s (w + v) (a_q e)) b'.
Proof.
  intros Hs Hw Hv L F A. induction F as [|e b E F IH]; cbn [bal_add]; [eexists; split; [reflexivity|]; constructor; [apply (small_le _ v); [lia|exact A]|constructor]|].
  assert (Up : Forall (fun e => small s (w + v) (a_q e)) b) by (eapply Forall_impl; [|exact F]; intros x; apply small_le; lia).
  destruct (comm_eqb (a_c e) (a_c a)) eqn:C.
  - unfold amt_add. rewrite C. destruct (d_is_zero (a_q a)).
    + eexists. split; [reflexivity|]. constructor; [apply (small_le _ w); [lia|exact E]|exact Up].
    + destruct (add_small s w v _ _ Hs Hw Hv L E A) as (r & -> & R). eexists. split; [reflexivity|]. constructor; [exact R|exact Up].
  - destruct IH as (b' & -> & B'). eexists. split; [reflexivity|]. constructor; [apply (small_le _ w); [lia|exact E]|exact B'].
Qed.
Lemma bal_add_bounded w v b a : 0 <= w -> 0 <= v -> w + v < 2 ^ 96 -> Forall (fun e => bounded w (a_q e)) b -> bounded v (a_q a) ->
  exists b', bal_add b a = Ok b' /\ Forall (fun e => bounded (w + v + 1) (a_q e)) b'.
Proof.
  intros Hw Hv L F A. induction F as [|e b E F IH]; cbn [bal_add]; [eexists; split; [reflexivity|]; constructor; [apply (bounded_le v); [lia|exact A]|constructor]|].
  assert (Up : Forall (fun e => bounded (w + v + 1) (a_q e)) b) by (eapply Forall_impl; [|exact F]; intros x; apply bounded_le; lia).
  destruct (comm_eqb_spec (a_c e) (a_c a)) as [C|C].
  - destruct (add_bounded w v e a C L E A Hv) as (r & -> & R & _). eexists. split; [reflexivity|]. constructor; [exact R|exact Up].
  - destruct IH as (b' & -> & B'). eexists. split; [reflexivity|]. constructor; [apply (bounded_le w); [lia|exact E]|exact B'].
Qed.
Lemma inverse_units a : Z.abs (units (a_q (amt_inverse a))) = Z.abs (units (a_q a)).
Proof. unfold amt_inverse, d_is_sign_positive, units. cbn [a_q]. destruct (d_neg (a_q a)) eqn:E; cbn [negb]; [rewrite E; reflexivity|]. cbn [d_set_neg d_neg d_m d_s]. rewrite Z.mul_opp_l, Z.abs_opp. reflexivity. Qed.
Lemma inverse_small s w a : small s w (a_q a) -> small s w (a_q (amt_inverse a)).
Proof. unfold amt_inverse. cbn [a_q]. destruct (d_is_sign_positive _); auto. Qed.
Lemma abs_bounded w a : bounded w (a_q a) -> bounded w (a_q (amt_abs a)).
Proof.
  intros [W B]. unfold amt_abs. cbn [a_q]. split; [destruct W as [W1 W2]; split; assumption|]. unfold units in *. cbn [d_neg d_m d_s d_set_pos] in *. rewrite Z.abs_mul in *. destruct (d_neg (a_q a)); [rewrite Z.abs_opp in B|]; exact B.
Qed.
Lemma bal_sub_bounded w v b a : 0 <= w -> 0 <= v -> w + v < 2 ^ 96 -> Forall (fun e => bounded w (a_q e)) b -> bounded v (a_q a) ->
  exists b', bal_sub b a = Ok b' /\ Forall (fun e => bounded (w + v + 1) (a_q e)) b'.
Proof.
  intros Hw Hv L F A. induction F as [|e b E F IH]; cbn [bal_sub].
  - eexists. split; [reflexivity|]. constructor; [|constructor]. apply (bounded_le v); [lia|]. destruct A as [Wa A]. split; [|rewrite inverse_units; exact A].
    unfold amt_inverse. cbn [a_q]. destruct (d_is_sign_positive _); [destruct Wa as [W1 W2]; split; assumption|exact Wa].
  - assert (Up : Forall (fun e => bounded (w + v + 1) (a_q e)) b) by (eapply Forall_impl; [|exact F]; intros x; apply bounded_le; lia).
    destruct (comm_eqb_spec (a_c e) (a_c a)) as [C|C].
    + destruct (sub_bounded w v e a C L E A) as (r & -> & R & _). eexists. split; [reflexivity|]. constructor; [exact R|exact Up].
    + destruct IH as (b' & -> & B'). eexists. split; [reflexivity|]. constructor; [apply (bounded_le w); [lia|exact E]|exact B'].
Qed.
