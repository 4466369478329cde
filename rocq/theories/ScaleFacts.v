(** Sums of amounts with the same number of decimals. *)
From Coq Require Import List NArith ZArith Bool Lia.
From Verif Require Import Base Decimal Amount Balance SpecDecimal SpecAmount SpecFull.
From Verif Require Import BaseFacts DecimalFacts BalanceFacts.
Import ListNotations.
Open Scope nat_scope.

Definition weight (l : list amount) : Z := sumZ (map (fun a => Z.abs (aunits a)) l).
Lemma weight_app l1 l2 : weight (l1 ++ l2) = (weight l1 + weight l2)%Z.
Proof. unfold weight. rewrite map_app, sumZ_app. reflexivity. Qed.
Lemma weight_cons a l : weight (a :: l) = (Z.abs (aunits a) + weight l)%Z.
Proof. reflexivity. Qed.
Lemma weight_nonneg l : (0 <= weight l)%Z.
Proof. apply sumZ_nonneg. apply Forall_map, Forall_forall. intros; apply Z.abs_nonneg. Qed.

Lemma d_reduced_small z s : (Z.abs z < MAXM)%Z -> s <= 28 -> d_reduced z s = Ok (d_make (z <? 0)%Z (Z.abs z) s).
Proof.
  intros B L. unfold d_reduced, reduce. assert (E : rhe (Z.abs z) (p10 0) = Z.abs z).
  { unfold rhe. change (p10 0) with 1%Z. rewrite Z.div_1_r, Z.mod_1_r. reflexivity. }
  destruct s; cbn [reduce_from]; rewrite E, (proj2 (Z.ltb_lt _ _) B); cbn [andb]; [reflexivity|].
  replace (S s - 0)%nat with (S s) by lia. rewrite (proj2 (Nat.leb_le (S s) MAXS)) by exact L. reflexivity.
Qed.
Lemma d_add_same_scale a b r k : wf_dec a -> wf_dec b -> d_s a = k -> d_s b = k -> (Z.abs (units a) + Z.abs (units b) < 2 ^ 96 * 10 ^ Z.of_nat (28 - k))%Z ->
  d_add a b = Ok r -> wf_dec r /\ d_s r = k /\ units r = (units a + units b)%Z.
Proof.
  intros Wa Wb Ka Kb B H. unfold d_add in H. destruct (d_is_zero a) eqn:Za.
  { injection H as <-. apply d_is_zero_units in Za; [|exact Wa]. rewrite Za. split; [exact Wb|]. split; [exact Kb|]. symmetry. apply Z.add_0_l. }
  destruct (d_is_zero b) eqn:Zb.
  { injection H as <-. apply d_is_zero_units in Zb; [|exact Wb]. rewrite Zb. split; [exact Wa|]. split; [exact Ka|]. symmetry. apply Z.add_0_r. }
  clear Za Zb. rewrite Ka, Kb, Nat.max_id, Nat.sub_diag, p10_0, !Z.mul_1_r in H. rewrite !units_eq, Ka, Kb in *.
  change (10 ^ Z.of_nat (28 - k))%Z with (p10 (28 - k)) in B. pose proof (p10_pos (28 - k)) as P. rewrite !Z.abs_mul, (Z.abs_eq (p10 _)) in B by lia.
  rewrite <- Z.mul_add_distr_r in B. apply Z.mul_lt_mono_pos_r in B; [|exact P].
  assert (S : (Z.abs (d_signed a + d_signed b) < MAXM)%Z) by (eapply Z.le_lt_trans; [apply Z.abs_triangle|exact B]).
  assert (K : k <= 28) by (rewrite <- Ka; apply Wa). rewrite (d_reduced_small _ _ S K) in H. injection H as <-.
  assert (E : d_signed (d_make (d_signed a + d_signed b <? 0)%Z (Z.abs (d_signed a + d_signed b)) k) = (d_signed a + d_signed b)%Z).
  { generalize (d_signed a + d_signed b)%Z. intros z. unfold d_make, d_signed. cbn [d_neg d_m]. destruct (Z.eqb_spec (Z.abs z) 0); [lia|]. destruct (Z.ltb_spec z 0); lia. }
  rewrite E. cbn [d_make d_s]. split; [|split; [reflexivity|ring]]. split; [cbn [d_m]; split; [apply Z.abs_nonneg|exact S]|exact K].
Qed.

(** ** No minus sign in front of zero *)
Lemma plain_add x a r : plain x -> plain a -> amt_add x a = Ok r -> plain r.
Proof.
  unfold plain, amt_add. intros Px Pa H. destruct (comm_eqb _ _); [|discriminate]. destruct (d_is_zero (a_q a)); [injection H as <-; exact Px|].
  inv_bind H. injection H as <-. cbn [a_q]. unfold d_add in EQ. destruct (d_is_zero (a_q x)); [injection EQ as <-; exact Pa|]. destruct (d_is_zero (a_q a)); [injection EQ as <-; exact Px|].
  unfold d_reduced in EQ. destruct (reduce _ _) as [[m s]|]; [|discriminate]. injection EQ as <-. cbn [d_make d_m d_neg]. intros ->. reflexivity.
Qed.
Lemma plain_nonzero a : wf_amt a -> aunits a <> 0%Z -> plain a.
Proof. intros W N E. exfalso. apply N. unfold aunits. apply d_is_zero_units; [exact W|]. unfold d_is_zero. rewrite E. reflexivity. Qed.
Lemma plain_read s q c : d_from_str s = Some q -> plain (mkAmt q c).
Proof.
  unfold d_from_str. intros H. destruct (match s with 45%N :: r => _ | _ => _ end) as [neg body]. destruct (parse_digits _ _ _ _ _) as [[m sc]|]; [|discriminate].
  injection H as <-. unfold plain. cbn [a_q d_make d_m d_neg]. intros ->. reflexivity.
Qed.

Section Scale.
  Variable f : comm -> nat.
  Variable C : comm -> Prop.
  Variable W : Z.
  Variable G : amount -> Prop.
  Hypothesis room : forall c, C c -> (W < 2 ^ 96 * 10 ^ Z.of_nat (28 - f c))%Z.
  Hypothesis G_add : forall x a r, G x -> G a -> amt_add x a = Ok r -> G r.
  Definition alike (a : amount) : Prop := C (a_c a) /\ wf_amt a /\ d_s (a_q a) = f (a_c a) /\ G a.

  Lemma amt_add_alike x a r : alike x -> alike a -> (Z.abs (aunits x) + Z.abs (aunits a) <= W)%Z -> amt_add x a = Ok r ->
    alike r /\ (Z.abs (aunits r) <= Z.abs (aunits x) + Z.abs (aunits a))%Z.
  Proof.
    intros (Cx & Wx & Sx & Gx) (Ca & Wa & Sa & Ga) B H. pose proof (G_add _ _ _ Gx Ga H) as Gr.
    unfold amt_add in H. destruct (comm_eqb_spec (a_c x) (a_c a)) as [E|]; [|discriminate].
    destruct (d_is_zero (a_q a)); [injection H as <-; split; [split; auto|pose proof (Z.abs_nonneg (aunits a)); lia]|]. inv_bind H. injection H as <-.
    assert (Sa' : d_s (a_q a) = f (a_c x)) by (rewrite Sa, E; reflexivity).
    destruct (d_add_same_scale _ _ _ (f (a_c x)) Wx Wa Sx Sa' (Z.le_lt_trans _ _ _ B (room _ Cx)) EQ) as (Wv & Sv & Uv).
    split; [split; [exact Cx|]; split; [exact Wv|]; split; [exact Sv|exact Gr]|]. unfold aunits in *. cbn [a_q]. rewrite Uv. apply Z.abs_triangle.
  Qed.
  Lemma bal_add_alike b : forall a b', Forall alike b -> alike a -> (weight b + Z.abs (aunits a) <= W)%Z -> bal_add b a = Ok b' ->
    Forall alike b' /\ (weight b' <= weight b + Z.abs (aunits a))%Z.
  Proof.
    induction b as [|x b IH]; intros a b' F A B H; cbn [bal_add] in H.
    - injection H as <-. split; [constructor; [exact A|constructor]|]. rewrite weight_cons. change (weight []) with 0%Z. lia.
    - inversion F as [|? ? Fx Fb]; subst. rewrite weight_cons in *. pose proof (weight_nonneg b) as Nb. pose proof (Z.abs_nonneg (aunits x)) as Nx. destruct (comm_eqb _ _); inv_bind H; injection H as <-.
      + destruct (amt_add_alike x a v Fx A) as [Av Bv]; [lia|exact EQ|]. split; [constructor; assumption|]. rewrite weight_cons. lia.
      + destruct (IH a v Fb A) as [Av Bv]; [lia|exact EQ|]. split; [constructor; assumption|]. rewrite weight_cons. lia.
  Qed.
  Lemma fold_alike l : forall b b', Forall alike b -> Forall alike l -> (weight b + weight l <= W)%Z -> fold_outcome bal_add l b = Ok b' ->
    Forall alike b' /\ (weight b' <= weight b + weight l)%Z.
  Proof.
    induction l as [|a l IH]; intros b b' Fb Fl B H; cbn [fold_outcome] in H.
    - injection H as <-. split; [exact Fb|]. change (weight []) with 0%Z. lia.
    - inversion Fl as [|? ? Fa Fl']; subst. rewrite weight_cons in *. pose proof (weight_nonneg l) as Nl. inv_bind H. destruct (bal_add_alike b a v Fb Fa) as [Av Bv]; [lia|exact EQ|].
      destruct (IH v b' Av Fl') as [A' B']; [lia|exact H|]. split; [exact A'|lia].
  Qed.
End Scale.
