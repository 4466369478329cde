(** Facts about the decimal arithmetic of [Decimal.v]. *)
From Coq Require Import List NArith ZArith Bool Lia Permutation ZifyBool ZifyNat ZifyN.
From Verif Require Import Base BaseFacts Decimal SpecDecimal.
Import ListNotations.
Open Scope Z_scope.

(** ** Powers of ten *)
Lemma p10_pos k : 0 < p10 k.
Proof. unfold p10. apply Z.pow_pos_nonneg; lia. Qed.
Lemma p10_add a b : p10 (a + b) = p10 a * p10 b.
Proof. unfold p10. rewrite Nat2Z.inj_add. apply Z.pow_add_r; lia. Qed.
Lemma p10_split a b : (b <= a)%nat -> p10 a = p10 (a - b) * p10 b.
Proof. intros H. rewrite <- p10_add. f_equal. lia. Qed.
Lemma p10_S k : p10 (S k) = 10 * p10 k.
Proof. replace (S k) with (1 + k)%nat by lia. rewrite p10_add. reflexivity. Qed.
Lemma p10_ge1 k : 1 <= p10 k.
Proof. pose proof (p10_pos k). lia. Qed.
Lemma p10_0 : p10 0 = 1.
Proof. reflexivity. Qed.

Lemma units_eq d : units d = d_signed d * p10 (28 - d_s d).
Proof. reflexivity. Qed.
Lemma scaled_abs_eq s d : scaled_abs s d = d_m d * p10 (s - d_s d).
Proof. reflexivity. Qed.
Lemma abs_signed d : 0 <= d_m d -> Z.abs (d_signed d) = d_m d.
Proof. unfold d_signed; destruct (d_neg d); lia. Qed.

(** [units] compares like fractions. *)
Lemma units_cmp a b :
  (d_s a <= 28)%nat -> (d_s b <= 28)%nat ->
  (units a = units b <-> d_signed a * p10 (d_s b) = d_signed b * p10 (d_s a)).
Proof.
  intros Ha Hb. rewrite !units_eq.
  pose proof (p10_split 28 (d_s a) Ha) as Ea. pose proof (p10_split 28 (d_s b) Hb) as Eb.
  pose proof (p10_pos (d_s a)). pose proof (p10_pos (d_s b)).
  pose proof (p10_pos (28 - d_s a)). pose proof (p10_pos (28 - d_s b)).
  set (x := p10 (28 - d_s a)) in *. set (y := p10 (28 - d_s b)) in *.
  set (u := p10 (d_s a)) in *. set (v := p10 (d_s b)) in *.
  assert (E : x * u = y * v) by congruence.
  split; intros H'.
  - apply (Z.mul_reg_r _ _ (x * u)); [nia|].
    replace (d_signed a * v * (x * u)) with (d_signed a * x * (u * v)) by ring. rewrite H'.
    rewrite E. ring.
  - apply (Z.mul_reg_r _ _ (u * v)); [nia|].
    replace (d_signed a * x * (u * v)) with (d_signed a * v * (x * u)) by ring. rewrite H', E. ring.
Qed.

Lemma d_eqb_units a b :
  (d_s a <= 28)%nat -> (d_s b <= 28)%nat -> d_eqb a b = true <-> units a = units b.
Proof. intros Ha Hb. rewrite (units_cmp a b Ha Hb). unfold d_eqb. apply Z.eqb_eq. Qed.

Lemma units_zero d : wf_dec d -> units d = 0 <-> d_m d = 0.
Proof.
  intros [Hm Hs]. rewrite units_eq. pose proof (p10_pos (28 - d_s d)).
  unfold d_signed; destruct (d_neg d); split; nia.
Qed.
Lemma d_is_zero_units d : wf_dec d -> d_is_zero d = true <-> units d = 0.
Proof. intros H. rewrite units_zero by exact H. unfold d_is_zero. apply Z.eqb_eq. Qed.
Lemma d_is_zero_signed d : d_is_zero d = true -> d_signed d = 0.
Proof. unfold d_is_zero, d_signed. rewrite Z.eqb_eq. intros ->. destruct (d_neg d); reflexivity. Qed.

Lemma units_neg_sign d : wf_dec d -> units d < 0 -> d_neg d = true.
Proof.
  intros [Hm Hs]. rewrite units_eq. pose proof (p10_pos (28 - d_s d)).
  unfold d_signed; destruct (d_neg d); auto. nia.
Qed.
Lemma units_pos_sign d : wf_dec d -> 0 < units d -> d_neg d = false.
Proof.
  intros [Hm Hs]. rewrite units_eq. pose proof (p10_pos (28 - d_s d)).
  unfold d_signed; destruct (d_neg d); auto. nia.
Qed.

Lemma wf_d_of_int z : Z.abs z < 2 ^ 96 -> wf_dec (d_of_int z).
Proof. unfold wf_dec, d_of_int; cbn [d_m d_s]. lia. Qed.
Lemma wf_d_zero : wf_dec d_zero. Proof. apply wf_d_of_int. reflexivity. Qed.
Lemma wf_d_one : wf_dec d_one. Proof. apply wf_d_of_int. reflexivity. Qed.
Lemma wf_set_neg d : wf_dec d -> wf_dec (d_set_neg d). Proof. exact (fun H => H). Qed.
Lemma wf_set_pos d : wf_dec d -> wf_dec (d_set_pos d). Proof. exact (fun H => H). Qed.

Lemma d_signed_make neg m s : 0 <= m -> d_signed (d_make neg m s) = if neg then - m else m.
Proof.
  intros Hm. unfold d_signed, d_make; cbn [d_neg d_m]. destruct (Z.eqb_spec m 0) as [->|].
  - destruct neg; reflexivity.
  - reflexivity.
Qed.
Lemma d_signed_make_z z m s :
  0 <= m -> d_signed (d_make (z <? 0) m s) = if z <? 0 then - m else m.
Proof. apply d_signed_make. Qed.

(** ** Rounding *)
Lemma rhe_exact n d : 0 < d -> (d | n) -> rhe n d = n / d.
Proof.
  intros Hd Hdiv. unfold rhe.
  apply Z.mod_divide in Hdiv; [|lia]. rewrite Hdiv. replace (2 * 0 <? d) with true by lia. reflexivity.
Qed.
Lemma rhe_nonneg n d : 0 < d -> 0 <= n -> 0 <= rhe n d.
Proof.
  intros Hd Hn. unfold rhe. pose proof (Z.div_pos n d Hn Hd).
  destruct (_ <? _); [lia|]. destruct (_ <? _); [lia|]. destruct (Z.even _); lia.
Qed.
(** Rounding error: at most half. *)
Lemma rhe_error n d : 0 < d -> 2 * Z.abs (rhe n d * d - n) <= d.
Proof.
  intros Hd. unfold rhe. pose proof (Z.div_mod n d ltac:(lia)) as E.
  pose proof (Z.mod_pos_bound n d Hd). set (q := n / d) in *. set (r := n mod d) in *.
  destruct (Z.ltb_spec (2 * r) d); [nia|].
  destruct (Z.ltb_spec d (2 * r)); [nia|]. destruct (Z.even q); nia.
Qed.

(** ** Reduction to a representable mantissa *)
Lemma reduce_from_wf fuel k m s m' s' :
  0 <= m -> reduce_from fuel k m s = Some (m', s') -> 0 <= m' < MAXM /\ (s' <= MAXS)%nat /\ (s' <= s)%nat.
Proof.
  intros Hm. revert k; induction fuel as [|f IH]; intros k; cbn [reduce_from].
  - destruct (_ && _) eqn:E; [|discriminate]. intros H; injection H as <- <-.
    apply andb_prop in E as [E1 E2].
    pose proof (rhe_nonneg m (p10 k) (p10_pos k) Hm). lia.
  - destruct (_ && _) eqn:E; [|apply IH]. intros H; injection H as <- <-.
    apply andb_prop in E as [E1 E2].
    pose proof (rhe_nonneg m (p10 k) (p10_pos k) Hm). lia.
Qed.
Lemma reduce_fit m s : 0 <= m < MAXM -> (s <= MAXS)%nat -> reduce m s = Some (m, s).
Proof.
  intros Hm Hs. assert (E : rhe m (p10 0) = m).
  { rewrite rhe_exact; [|apply p10_pos|apply Z.divide_1_l]. apply Z.div_1_r. }
  unfold reduce. destruct s as [|s]; cbn [reduce_from]; rewrite E.
  - replace (m <? MAXM) with true by lia. reflexivity.
  - replace (m <? MAXM) with true by lia. rewrite Nat.sub_0_r.
    replace (S s <=? MAXS)%nat with true by (symmetry; apply Nat.leb_le; lia). reflexivity.
Qed.

Lemma p10_divide a b : (a <= b)%nat -> (p10 a | p10 b).
Proof. intros H. exists (p10 (b - a)). apply p10_split, H. Qed.

Lemma reduce_exact m s mr sr :
  0 <= m -> 0 <= mr < MAXM -> (sr <= MAXS)%nat -> m * p10 sr = mr * p10 s ->
  exists m' s', reduce m s = Some (m', s') /\ m' * p10 s = m * p10 s'
                /\ 0 <= m' < MAXM /\ (s' <= MAXS)%nat.
Proof.
  intros Hm Hmr Hsr E.
  destruct (Nat.le_gt_cases s sr) as [Hs|Hs].
  - (* already representable as it is *)
    rewrite (p10_split sr s Hs) in E. pose proof (p10_pos s). pose proof (p10_ge1 (sr - s)).
    assert (m * p10 (sr - s) = mr) by nia.
    exists m, s. rewrite reduce_fit; [|nia|lia]. repeat split; nia || lia.
  - set (kk := (s - sr)%nat).
    assert (Em : m = mr * p10 kk).
    { rewrite (p10_split s sr) in E by lia. pose proof (p10_pos sr). fold kk in E. nia. }
    assert (G : forall fuel k, (k <= kk)%nat -> (fuel + k = s)%nat ->
              exists m' s', reduce_from fuel k m s = Some (m', s') /\ m' * p10 s = m * p10 s'
                            /\ 0 <= m' < MAXM /\ (s' <= MAXS)%nat).
    { induction fuel as [|f IH]; intros k Hk Hf; cbn [reduce_from];
        assert (Ek : rhe m (p10 k) = mr * p10 (kk - k)) by
          (rewrite Em, (p10_split kk k Hk), Z.mul_assoc;
           rewrite rhe_exact; [|apply p10_pos|apply Z.divide_factor_r];
           apply Z.div_mul; pose proof (p10_pos k); lia);
        rewrite Ek.
      all: destruct ((mr * p10 (kk - k) <? MAXM) && (s - k <=? MAXS)%nat) eqn:C;
        [ apply andb_prop in C as [C1 C2]; exists (mr * p10 (kk - k)), (s - k)%nat;
          repeat split; try lia;
          [ rewrite Em; rewrite (p10_split kk k Hk); rewrite (p10_split s k) by lia; ring
          | pose proof (p10_pos (kk - k)); nia ] | ].
      all: assert (k <> kk) by
          (intros ->; apply andb_false_iff in C; rewrite Nat.sub_diag, p10_0 in C;
           destruct C as [C|C]; [lia|]; apply Nat.leb_gt in C; unfold kk in C; lia).
      - lia.
      - apply IH; lia. }
    apply G; lia.
Qed.

(** ** [d_reduced] *)
Lemma d_reduced_wf z s r : d_reduced z s = Ok r -> wf_dec r.
Proof.
  unfold d_reduced. destruct (reduce (Z.abs z) s) as [[m s']|] eqn:E; [|discriminate].
  intros H; injection H as <-. unfold reduce in E.
  apply reduce_from_wf in E; [|lia]. unfold wf_dec, d_make; cbn [d_m d_s].
  unfold MAXM, MAXS in *. lia.
Qed.
(** If the number z / 10^s is representable then [d_reduced] yields it exactly. *)
Lemma d_reduced_exact z s d :
  wf_dec d -> z * p10 (d_s d) = d_signed d * p10 s ->
  exists r, d_reduced z s = Ok r /\ wf_dec r /\ units r = units d.
Proof.
  intros [Hm Hs] E. unfold d_reduced.
  destruct (reduce_exact (Z.abs z) s (d_m d) (d_s d)) as (m' & s' & R & E' & Hm' & Hs'); try assumption.
  - lia.
  - pose proof (p10_pos (d_s d)). pose proof (p10_pos s).
    assert (Z.abs (z * p10 (d_s d)) = Z.abs (d_signed d * p10 s)) as A by (rewrite E; reflexivity).
    rewrite !Z.abs_mul in A. rewrite abs_signed in A by lia. rewrite (Z.abs_eq (p10 _)) in A by lia.
    rewrite (Z.abs_eq (p10 s)) in A by lia. exact A.
  - rewrite R. eexists. split; [reflexivity|].
    assert (W : wf_dec (d_make (z <? 0) m' s')).
    { unfold wf_dec, d_make; cbn [d_m d_s]. unfold MAXM, MAXS in *. lia. }
    split; [exact W|]. apply units_cmp; [apply W|exact Hs|].
    cbn [d_make d_s]. rewrite d_signed_make by lia.
    pose proof (p10_pos (d_s d)). pose proof (p10_pos s). pose proof (p10_pos s').
    assert (Ez : (if z <? 0 then - m' else m') * p10 s = z * p10 s').
    { destruct (Z.ltb_spec z 0); nia. }
    change (d_s (d_make (z <? 0) m' s')) with s'.
    apply (Z.mul_reg_r _ _ (p10 s)); [lia|].
    replace ((if z <? 0 then - m' else m') * p10 (d_s d) * p10 s)
      with ((if z <? 0 then - m' else m') * p10 s * p10 (d_s d)) by ring.
    rewrite Ez. replace (z * p10 s' * p10 (d_s d)) with (z * p10 (d_s d) * p10 s') by ring.
    rewrite E. ring.
Qed.
(** A mantissa that fits is kept as it is. *)
Lemma d_reduced_fit z s :
  Z.abs z < MAXM -> (s <= MAXS)%nat -> d_reduced z s = Ok (d_make (z <? 0) (Z.abs z) s).
Proof. intros Hz Hs. unfold d_reduced. rewrite reduce_fit; auto. lia. Qed.
Lemma units_make_z z s : units (d_make (z <? 0) (Z.abs z) s) = z * p10 (28 - s).
Proof.
  rewrite units_eq, d_signed_make by lia. cbn [d_make d_s]. f_equal. destruct (Z.ltb_spec z 0); lia.
Qed.

(** ** Well-formedness *)
Lemma d_add_wf a b r : wf_dec a -> wf_dec b -> d_add a b = Ok r -> wf_dec r.
Proof.
  unfold d_add. intros Ha Hb. destruct (d_is_zero a); [intros H; congruence|].
  destruct (d_is_zero b); [intros H; congruence|]. apply d_reduced_wf.
Qed.
Lemma d_sub_wf a b r : wf_dec a -> wf_dec b -> d_sub a b = Ok r -> wf_dec r.
Proof.
  unfold d_sub. intros Ha Hb. destruct (d_is_zero a).
  - intros H; injection H as <-. destruct (d_is_zero b); [exact Hb|exact Hb].
  - destruct (d_is_zero b); [intros H; congruence|]. apply d_reduced_wf.
Qed.
Lemma d_mul_wf a b r : d_mul a b = Ok r -> wf_dec r.
Proof.
  unfold d_mul. destruct (_ || _); [intros H; injection H as <-; apply wf_d_zero|].
  destruct (_ && _); [intros H; injection H as <-; apply wf_d_zero|]. apply d_reduced_wf.
Qed.

(** ** Addition and subtraction *)
Lemma align a b :
  let s := Nat.max (d_s a) (d_s b) in
  (d_s a <= 28)%nat -> (d_s b <= 28)%nat ->
  (d_signed a * p10 (s - d_s a)) * p10 (28 - s) = units a
  /\ (d_signed b * p10 (s - d_s b)) * p10 (28 - s) = units b.
Proof.
  intros s Ha Hb. rewrite !units_eq, <- !Z.mul_assoc, <- !p10_add.
  split; f_equal; f_equal; subst s; lia.
Qed.
Lemma units_scale z s d :
  (s <= 28)%nat -> (d_s d <= 28)%nat ->
  units d = z * p10 (28 - s) <-> z * p10 (d_s d) = d_signed d * p10 s.
Proof.
  intros Hs Hd. rewrite units_eq.
  pose proof (p10_split 28 (d_s d) Hd) as E1. pose proof (p10_split 28 s Hs) as E2.
  pose proof (p10_pos (d_s d)). pose proof (p10_pos s).
  pose proof (p10_pos (28 - d_s d)). pose proof (p10_pos (28 - s)).
  set (x := p10 (28 - d_s d)) in *. set (y := p10 (28 - s)) in *.
  set (u := p10 (d_s d)) in *. set (v := p10 s) in *.
  assert (E : x * u = y * v) by congruence. split; intros H'.
  - apply (Z.mul_reg_r _ _ (y * x)); [nia|].
    replace (z * u * (y * x)) with (z * y * (x * u)) by ring. rewrite <- H', E. ring.
  - apply (Z.mul_reg_r _ _ (u * v)); [nia|].
    replace (d_signed d * x * (u * v)) with (d_signed d * v * (x * u)) by ring.
    rewrite <- H', E. ring.
Qed.

Lemma d_add_exact a b :
  wf_dec a -> wf_dec b -> representable (units a + units b) ->
  exists r, d_add a b = Ok r /\ wf_dec r /\ units r = units a + units b.
Proof.
  intros Ha Hb (d & Hd & Ed). unfold d_add.
  destruct (d_is_zero a) eqn:Za.
  { apply d_is_zero_units in Za; [|exact Ha]. exists b. rewrite Za. auto. }
  destruct (d_is_zero b) eqn:Zb.
  { apply d_is_zero_units in Zb; [|exact Hb]. exists a. rewrite Zb, Z.add_0_r. auto. }
  rewrite <- Ed. destruct (align a b) as [Aa Ab]; [apply Ha|apply Hb|].
  apply d_reduced_exact; [exact Hd|].
  apply units_scale; [|apply Hd|].
  - destruct Ha as [_ Ha]; destruct Hb as [_ Hb]. lia.
  - rewrite Z.mul_add_distr_r, Aa, Ab. exact Ed.
Qed.
Lemma d_sub_exact a b :
  wf_dec a -> wf_dec b -> representable (units a - units b) ->
  exists r, d_sub a b = Ok r /\ wf_dec r /\ units r = units a - units b.
Proof.
  intros Ha Hb (d & Hd & Ed). unfold d_sub.
  destruct (d_is_zero a) eqn:Za.
  { apply d_is_zero_units in Za; [|exact Ha]. eexists. split; [reflexivity|].
    destruct (d_is_zero b) eqn:Zb.
    - apply d_is_zero_units in Zb; [|exact Hb]. split; [exact Hb|]. lia.
    - split; [exact Hb|]. rewrite !units_eq in *. cbn [d_s] in *. unfold d_signed in *.
      cbn [d_neg d_m]. destruct (d_neg b); cbn [negb]; lia. }
  destruct (d_is_zero b) eqn:Zb.
  { apply d_is_zero_units in Zb; [|exact Hb]. exists a. rewrite Zb, Z.sub_0_r. auto. }
  rewrite <- Ed. destruct (align a b) as [Aa Ab]; [apply Ha|apply Hb|].
  apply d_reduced_exact; [exact Hd|].
  apply units_scale; [|apply Hd|].
  - destruct Ha as [_ Ha]; destruct Hb as [_ Hb]. lia.
  - rewrite Z.mul_sub_distr_r, Aa, Ab. exact Ed.
Qed.

(** ** Multiplication *)
Lemma d_mul_exact a b d :
  wf_dec a -> wf_dec b -> wf_dec d -> units d * unit1 = units a * units b ->
  exists r, d_mul a b = Ok r /\ wf_dec r /\ units r = units d.
Proof.
  intros Ha Hb Hd Ed.
  assert (Key : d_signed a * d_signed b * p10 (d_s d) = d_signed d * p10 (d_s a + d_s b)).
  { rewrite !units_eq in Ed. change unit1 with (p10 28) in Ed.
    destruct Ha as [_ Ha], Hb as [_ Hb], Hd as [_ Hd]. rewrite p10_add.
    pose proof (p10_split 28 (d_s a) Ha) as E1. pose proof (p10_split 28 (d_s b) Hb) as E2.
    pose proof (p10_split 28 (d_s d) Hd) as E3.
    pose proof (p10_pos (28 - d_s a)). pose proof (p10_pos (28 - d_s b)).
    pose proof (p10_pos (28 - d_s d)). pose proof (p10_pos 28).
    pose proof (p10_pos (d_s a)). pose proof (p10_pos (d_s b)). pose proof (p10_pos (d_s d)).
    set (x := p10 (28 - d_s a)) in *. set (y := p10 (28 - d_s b)) in *.
    set (z := p10 (28 - d_s d)) in *. set (t := p10 28) in *.
    set (u := p10 (d_s a)) in *. set (v := p10 (d_s b)) in *. set (w := p10 (d_s d)) in *.
    set (A := d_signed a) in *. set (B := d_signed b) in *. set (D := d_signed d) in *.
    apply (Z.mul_reg_r _ _ (x * y * z * t)); [nia|].
    transitivity ((A * x * (B * y)) * (z * w) * t); [ring|]. rewrite <- Ed, <- E3.
    transitivity (D * z * t * (t * t)); [ring|]. rewrite E1 at 2. rewrite E2 at 2. ring. }
  unfold d_mul. destruct (d_is_zero a || d_is_zero b) eqn:Z0.
  { exists d_zero. repeat split; try apply wf_d_zero.
    change (units d_zero) with 0. symmetry. apply units_zero; [exact Hd|].
    assert (d_signed a * d_signed b = 0) as P.
    { apply orb_prop in Z0 as [Z0|Z0]; apply d_is_zero_signed in Z0; rewrite Z0; ring. }
    rewrite P in Key. pose proof (p10_pos (d_s a + d_s b)).
    assert (d_signed d = 0) by nia. rewrite <- abs_signed by apply Hd. lia. }
  apply orb_false_iff in Z0 as [Za Zb].
  destruct (_ && _) eqn:C.
  - (* two small mantissas with more than 47 decimals: never representable unless zero *)
    exfalso. rewrite !andb_true_iff in C. destruct C as [[C1 C2] C3].
    apply Z.ltb_lt in C1, C2. apply Nat.ltb_lt in C3.
    unfold d_is_zero in Za, Zb. destruct Ha as [Ha Ha'], Hb as [Hb Hb'], Hd as [Hd Hd'].
    set (k := (d_s a + d_s b - d_s d)%nat). assert (20 <= k)%nat by (unfold k; lia).
    rewrite (p10_split (d_s a + d_s b) (d_s d)) in Key by lia. fold k in Key.
    rewrite Z.mul_assoc in Key. apply Z.mul_reg_r in Key; [|pose proof (p10_pos (d_s d)); lia].
    rewrite (p10_split k 20) in Key by lia. pose proof (p10_pos (k - 20)).
    assert (A : Z.abs (d_signed a * d_signed b) = Z.abs (d_signed d * (p10 (k - 20) * p10 20)))
      by (rewrite Key; reflexivity).
    rewrite !Z.abs_mul, !abs_signed in A by lia. rewrite (Z.abs_eq (p10 _)) in A by lia.
    change (p10 20) with 100000000000000000000 in A.
    rewrite (Z.abs_eq 100000000000000000000) in A by lia.
    assert (d_m a * d_m b < 2 ^ 64).
    { change (2 ^ 64) with (2 ^ 32 * 2 ^ 32). nia. }
    assert (d_m a * d_m b > 0) by nia.
    assert (1 <= d_m d * p10 (k - 20)) by nia. lia.
  - apply d_reduced_exact; assumption.
Qed.

(** ** Division *)
Lemma strip_exact s m :
  0 <= m -> let '(m', s') := strip s m in
            0 <= m' <= m /\ (s' <= s)%nat /\ m' * p10 s = m * p10 s'.
Proof.
  revert m; induction s as [|s IH]; intros m Hm; cbn [strip].
  - repeat split; lia.
  - destruct (Z.eqb_spec (m mod 10) 0) as [E|E].
    + pose proof (Z.div_mod m 10 ltac:(lia)) as D. rewrite E in D.
      specialize (IH (m / 10) ltac:(apply Z.div_pos; lia)).
      destruct (strip s (m / 10)) as [m' s']. destruct IH as (I1 & I2 & I3).
      repeat split; try lia. rewrite p10_S. nia.
    + repeat split; lia.
Qed.
Lemma div_scale_spec top f s :
  div_scale top f = Some s ->
  (s <= top)%nat /\ f s = true /\ forall t, (s < t <= top)%nat -> f t = false.
Proof.
  induction top as [|t IH]; cbn [div_scale].
  - destruct (f 0%nat) eqn:E; [|discriminate]. intros H; injection H as <-. repeat split; auto. lia.
  - destruct (f (S t)) eqn:E.
    + intros H; injection H as <-. repeat split; auto. lia.
    + intros H. destruct (IH H) as (I1 & I2 & I3). repeat split; auto.
      intros u Hu. destruct (Nat.eq_dec u (S t)) as [->|]; [exact E|]. apply I3. lia.
Qed.
Lemma div_scale_none top f : div_scale top f = None -> forall t, (t <= top)%nat -> f t = false.
Proof.
  induction top as [|t IH]; cbn [div_scale].
  - destruct (f 0%nat) eqn:E; [discriminate|]. intros _ t Ht. replace t with 0%nat by lia. exact E.
  - destruct (f (S t)) eqn:E; [discriminate|]. intros H u Hu.
    destruct (Nat.eq_dec u (S t)) as [->|]; [exact E|]. apply IH; [exact H|lia].
Qed.

Lemma d_div_wf a b r : wf_dec a -> wf_dec b -> d_div a b = Ok r -> wf_dec r.
Proof.
  intros [Ham Has] [Hbm Hbs]. unfold d_div. destruct (d_is_zero b) eqn:Zb; [discriminate|].
  destruct (d_is_zero a); [intros H; injection H as <-; apply wf_d_zero|].
  unfold d_is_zero in Zb. assert (0 < d_m b) by lia.
  set (num := fun s : nat => d_m a * p10 (s + d_s b - d_s a)).
  change (d_m a * p10 (d_s a - d_s b + d_s b - d_s a)) with (num (d_s a - d_s b)%nat).
  destruct (num (d_s a - d_s b)%nat mod d_m b =? 0) eqn:E0.
  - destruct (_ <? MAXM) eqn:E1; [|discriminate]. intros H0; injection H0 as <-.
    unfold wf_dec, d_make; cbn [d_m d_s]. unfold MAXM in E1.
    assert (0 <= num (d_s a - d_s b)%nat).
    { unfold num. pose proof (p10_pos (d_s a - d_s b + d_s b - d_s a)). nia. }
    pose proof (Z.div_pos (num (d_s a - d_s b)%nat) (d_m b)). lia.
  - destruct (div_scale _ _) as [s|] eqn:Ds; [|discriminate].
    apply div_scale_spec in Ds as (S1 & S2 & _). apply andb_prop in S2 as [_ S2].
    assert (0 <= rhe (num s) (d_m b)) as P.
    { apply rhe_nonneg; [lia|]. unfold num. pose proof (p10_pos (s + d_s b - d_s a)). nia. }
    pose proof (strip_exact s (rhe (num s) (d_m b)) P) as Hst.
    change (d_m a * p10 (s + d_s b - d_s a)) with (num s) in *.
    destruct (strip s (rhe (num s) (d_m b))) as [m' s'].
    intros H0; injection H0 as <-. unfold wf_dec, d_make; cbn [d_m d_s].
    unfold MAXM, MAXS in *. lia.
Qed.

(** If the quotient is representable then division yields it exactly. *)
Lemma d_div_exact a b d :
  wf_dec a -> wf_dec b -> wf_dec d -> units b <> 0 -> units d * units b = units a * unit1 ->
  exists r, d_div a b = Ok r /\ wf_dec r /\ units r = units d.
Proof.
  intros Ha Hb Hd Hb0 Ed.
  assert (Zb : d_is_zero b = false).
  { destruct (d_is_zero b) eqn:E; [|reflexivity]. apply d_is_zero_units in E; [lia|exact Hb]. }
  (* the equation on mantissas *)
  assert (Key : d_signed d * d_signed b * p10 (d_s a) = d_signed a * p10 (d_s b + d_s d)).
  { rewrite !units_eq in Ed. change unit1 with (p10 28) in Ed.
    destruct Ha as [_ Ha], Hb as [_ Hb], Hd as [_ Hd]. rewrite p10_add.
    pose proof (p10_split 28 (d_s a) Ha) as E1. pose proof (p10_split 28 (d_s b) Hb) as E2.
    pose proof (p10_split 28 (d_s d) Hd) as E3.
    pose proof (p10_pos (28 - d_s a)). pose proof (p10_pos (28 - d_s b)).
    pose proof (p10_pos (28 - d_s d)). pose proof (p10_pos 28).
    pose proof (p10_pos (d_s a)). pose proof (p10_pos (d_s b)). pose proof (p10_pos (d_s d)).
    set (x := p10 (28 - d_s a)) in *. set (y := p10 (28 - d_s b)) in *.
    set (z := p10 (28 - d_s d)) in *. set (t := p10 28) in *.
    set (u := p10 (d_s a)) in *. set (v := p10 (d_s b)) in *. set (w := p10 (d_s d)) in *.
    set (A := d_signed a) in *. set (B := d_signed b) in *. set (D := d_signed d) in *.
    apply (Z.mul_reg_r _ _ (x * y * z * t)); [nia|].
    transitivity ((D * z * (B * y)) * (x * u) * t); [ring|]. rewrite Ed, <- E1.
    transitivity (A * x * t * (t * t)); [ring|]. rewrite E2 at 2. rewrite E3 at 2. ring. }
  unfold d_div. rewrite Zb. destruct (d_is_zero a) eqn:Za.
  { exists d_zero. repeat split; try apply wf_d_zero. change (units d_zero) with 0. symmetry.
    apply units_zero; [exact Hd|]. apply d_is_zero_signed in Za. rewrite Za in Key.
    pose proof (p10_pos (d_s a)).
    assert (d_signed b <> 0).
    { intros Hz. rewrite units_eq, Hz in Hb0. lia. }
    assert (d_signed d = 0) by nia. rewrite <- abs_signed by apply Hd. lia. }
  unfold d_is_zero in Za, Zb.
  destruct Ha as [Ham Has], Hb as [Hbm Hbs], Hd as [Hdm Hds].
  assert (0 < d_m b) by lia. assert (0 < d_m a) by lia.
  (* absolute version *)
  assert (KeyA : d_m d * d_m b * p10 (d_s a) = d_m a * p10 (d_s b + d_s d)).
  { pose proof (p10_pos (d_s a)). pose proof (p10_pos (d_s b + d_s d)).
    assert (A : Z.abs (d_signed d * d_signed b * p10 (d_s a))
              = Z.abs (d_signed a * p10 (d_s b + d_s d))) by (rewrite Key; reflexivity).
    rewrite !Z.abs_mul, !abs_signed, !(Z.abs_eq (p10 _)) in A by lia. exact A. }
  assert (SignK : d_m d = 0 \/ d_neg d = xorb (d_neg a) (d_neg b)).
  { pose proof (p10_pos (d_s a)). pose proof (p10_pos (d_s b + d_s d)).
    destruct (Z.eq_dec (d_m d) 0); [auto|right].
    assert (0 < d_m d * d_m b * p10 (d_s a)) by nia.
    unfold d_signed in Key. destruct (d_neg d), (d_neg a), (d_neg b); cbn [xorb]; auto; exfalso; nia. }
  assert (Dpos : 0 < d_m d).
  { pose proof (p10_pos (d_s a)). pose proof (p10_pos (d_s b + d_s d)). nia. }
  destruct SignK as [|SignK]; [lia|].
  set (num := fun s : nat => d_m a * p10 (s + d_s b - d_s a)).
  set (s0 := (d_s a - d_s b)%nat).
  assert (Hnum : forall s, (s0 <= s)%nat -> num s * p10 (d_s d) = d_m d * d_m b * p10 s).
  { intros s Hs. unfold num.
    assert (p10 (s + d_s b - d_s a) * p10 (d_s a) = p10 s * p10 (d_s b)) as P.
    { rewrite <- !p10_add. f_equal. unfold s0 in Hs. lia. }
    rewrite p10_add in KeyA. pose proof (p10_pos (d_s a)). pose proof (p10_pos (d_s b)).
    apply (Z.mul_reg_r _ _ (p10 (d_s a) * p10 (d_s b))); [nia|].
    transitivity (d_m a * (p10 (s + d_s b - d_s a) * p10 (d_s a)) * (p10 (d_s b) * p10 (d_s d)));
      [ring|].
    rewrite P. transitivity (d_m a * (p10 (d_s b) * p10 (d_s d)) * p10 s * p10 (d_s b)); [ring|].
    rewrite <- KeyA. ring. }
  (* finish from an exact quotient [q] at scale [s] *)
  assert (Fin : forall q s, 0 <= q < MAXM -> (s <= 28)%nat -> q * p10 (d_s d) = d_m d * p10 s ->
            wf_dec (d_make (xorb (d_neg a) (d_neg b)) q s)
            /\ units (d_make (xorb (d_neg a) (d_neg b)) q s) = units d).
  { intros q s Hq Hs Eq. assert (W : wf_dec (d_make (xorb (d_neg a) (d_neg b)) q s)).
    { unfold wf_dec, d_make; cbn [d_m d_s]. unfold MAXM in Hq. lia. }
    split; [exact W|]. apply units_cmp; [apply W|exact Hds|]. cbn [d_make d_s].
    change (d_s (d_make (xorb (d_neg a) (d_neg b)) q s)) with s.
    rewrite d_signed_make by lia. unfold d_signed. rewrite SignK.
    destruct (xorb (d_neg a) (d_neg b)); lia. }
  (* at a scale where the quotient is integral, [num s / d_m b] is exact *)
  assert (Int : forall s, (s0 <= s)%nat -> (d_m b | num s) ->
            num s / d_m b * p10 (d_s d) = d_m d * p10 s).
  { intros s Hs [k Hk]. rewrite Hk, Z.div_mul by lia. specialize (Hnum s Hs). rewrite Hk in Hnum.
    nia. }
  assert (Big : forall s, (s0 <= s)%nat -> (d_s d <= s)%nat -> num s = d_m d * p10 (s - d_s d) * d_m b).
  { intros s Hs Hs'. specialize (Hnum s Hs). rewrite (p10_split s (d_s d) Hs') in Hnum.
    pose proof (p10_pos (d_s d)). nia. }
  change (d_m a * p10 (s0 + d_s b - d_s a)) with (num s0).
  destruct (Z.eqb_spec (num s0 mod d_m b) 0) as [E0|E0].
  - apply Z.mod_divide in E0; [|lia]. pose proof (Int s0 (le_n _) E0) as I.
    assert (num s0 / d_m b < MAXM) as Lt.
    { destruct (Nat.le_gt_cases (d_s b) (d_s a)) as [Hle|Hgt].
      - apply Z.le_lt_trans with (d_m a); [|unfold MAXM; lia].
        unfold num, s0. replace (d_s a - d_s b + d_s b - d_s a)%nat with 0%nat by lia.
        rewrite p10_0, Z.mul_1_r. apply Z.div_le_upper_bound; nia.
      - assert (s0 = 0%nat) as S0 by (unfold s0; lia). rewrite S0 in I |- *.
        rewrite p10_0 in I. pose proof (p10_ge1 (d_s d)). unfold MAXM.
        assert (0 <= num 0%nat / d_m b).
        { apply Z.div_pos; [|lia]. unfold num. pose proof (p10_pos (0 + d_s b - d_s a)). nia. }
        nia. }
    replace (num s0 / d_m b <? MAXM) with true by lia.
    eexists. split; [reflexivity|]. apply Fin; [|unfold s0; lia|exact I].
    split; [|exact Lt]. apply Z.div_pos; [|lia]. unfold num.
    pose proof (p10_pos (s0 + d_s b - d_s a)). nia.
  - (* the quotient has more decimals than s0 *)
    assert (s0 < d_s d)%nat as Hlt.
    { destruct (Nat.le_gt_cases (d_s d) s0) as [Hle|]; [|assumption]. exfalso. apply E0.
      rewrite (Big s0 (le_n _) Hle). apply Z.mod_mul. lia. }
    assert (Rd : forall s, (d_s d <= s)%nat -> rhe (num s) (d_m b) = d_m d * p10 (s - d_s d)).
    { intros s Hs. rewrite (Big s) by lia. rewrite rhe_exact; [|lia|apply Z.divide_factor_r].
      apply Z.div_mul. lia. }
    destruct (div_scale MAXS _) as [s|] eqn:Ds.
    2: { exfalso. pose proof (div_scale_none _ _ Ds (d_s d) ltac:(unfold MAXS; lia)) as C.
         cbv beta in C. change (d_m a * p10 (d_s d + d_s b - d_s a)) with (num (d_s d)) in C.
         rewrite (Rd (d_s d)) in C by lia. rewrite Nat.sub_diag, p10_0 in C.
         apply andb_false_iff in C. destruct C as [C|C].
         - apply Nat.leb_gt in C. fold s0 in C. lia.
         - unfold MAXM in C. lia. }
    apply div_scale_spec in Ds as (S1 & S2 & S3). apply andb_prop in S2 as [S2a S2b].
    assert (d_s d <= s)%nat as Hds'.
    { destruct (Nat.le_gt_cases (d_s d) s) as [|Hc]; [assumption|]. exfalso.
      specialize (S3 (d_s d) ltac:(unfold MAXS; lia)). cbv beta in S3.
      change (d_m a * p10 (d_s d + d_s b - d_s a)) with (num (d_s d)) in S3.
      rewrite (Rd (d_s d)) in S3 by lia. rewrite Nat.sub_diag, p10_0 in S3.
      apply andb_false_iff in S3. destruct S3 as [C|C].
      - apply Nat.leb_gt in C. fold s0 in C. lia.
      - unfold MAXM in C. lia. }
    change (d_m a * p10 (s + d_s b - d_s a)) with (num s) in *.
    rewrite (Rd s Hds') in *. pose proof (p10_pos (s - d_s d)).
    pose proof (strip_exact s (d_m d * p10 (s - d_s d)) ltac:(nia)) as St.
    destruct (strip s (d_m d * p10 (s - d_s d))) as [m' s'].
    destruct St as (T1 & T2 & T3).
    eexists. split; [reflexivity|]. apply Fin; [lia|unfold MAXS in S1; lia|].
    rewrite (p10_split s (d_s d) Hds') in T3. pose proof (p10_pos (d_s d)).
    apply (Z.mul_reg_r _ _ (p10 (s - d_s d))); [lia|]. nia.
Qed.

(** ** Sums of several decimals *)
Lemma signed_scaled s d :
  (d_s d <= s)%nat -> (s <= 28)%nat -> (d_signed d * p10 (s - d_s d)) * p10 (28 - s) = units d.
Proof. intros H1 H2. rewrite units_eq, <- Z.mul_assoc, <- p10_add. f_equal. f_equal. lia. Qed.

Lemma d_add_common s a b :
  (s <= 28)%nat -> 0 <= d_m a -> 0 <= d_m b -> (d_s a <= s)%nat -> (d_s b <= s)%nat ->
  scaled_abs s a + scaled_abs s b < MAXM ->
  exists r, d_add a b = Ok r /\ (d_s r <= s)%nat /\ 0 <= d_m r
            /\ units r = units a + units b /\ scaled_abs s r <= scaled_abs s a + scaled_abs s b.
Proof.
  intros Hs Hma Hmb Ha Hb Hsum. rewrite !scaled_abs_eq in *. unfold d_add.
  pose proof (p10_pos (s - d_s a)) as Pa. pose proof (p10_pos (s - d_s b)) as Pb.
  destruct (d_is_zero a) eqn:Za.
  { exists b. apply d_is_zero_signed in Za. rewrite !units_eq, Za. rewrite scaled_abs_eq.
    repeat split; auto; nia. }
  destruct (d_is_zero b) eqn:Zb.
  { exists a. apply d_is_zero_signed in Zb. rewrite !units_eq, Zb. rewrite scaled_abs_eq.
    repeat split; auto; nia. }
  set (t := Nat.max (d_s a) (d_s b)). assert (t <= s)%nat by lia.
  set (z := d_signed a * p10 (t - d_s a) + d_signed b * p10 (t - d_s b)).
  assert (Ea : p10 (s - d_s a) = p10 (s - t) * p10 (t - d_s a))
    by (rewrite <- p10_add; f_equal; lia).
  assert (Eb : p10 (s - d_s b) = p10 (s - t) * p10 (t - d_s b))
    by (rewrite <- p10_add; f_equal; lia).
  pose proof (p10_ge1 (s - t)). pose proof (p10_pos (t - d_s a)). pose proof (p10_pos (t - d_s b)).
  assert (Zabs : Z.abs z <= d_m a * p10 (t - d_s a) + d_m b * p10 (t - d_s b)).
  { unfold z. etransitivity; [apply Z.abs_triangle|]. rewrite !Z.abs_mul, !abs_signed by assumption.
    rewrite !Z.abs_eq by lia. lia. }
  rewrite d_reduced_fit; [|nia|unfold MAXS; lia].
  eexists. split; [reflexivity|]. rewrite scaled_abs_eq. cbn [d_make d_s d_m]. repeat split; try lia.
  - rewrite units_make_z. unfold z. destruct (align a b) as [Aa Ab]; try lia.
    fold t in Aa, Ab. rewrite Z.mul_add_distr_r, Aa, Ab. reflexivity.
  - rewrite Ea, Eb. nia.
Qed.

(** ** Text: digits *)
Lemma is_digit_range c : is_digit c = true <-> (48 <= c <= 57)%N.
Proof. unfold is_digit. rewrite andb_true_iff, !N.leb_le. lia. Qed.

Definition digit_val (c : char) : Z := Z.of_N c - 48.
Lemma number_acc_app a ds1 ds2 :
  fold_left (fun n c => 10 * n + (Z.of_N c - 48)) (ds1 ++ ds2) a
  = fold_left (fun n c => 10 * n + (Z.of_N c - 48)) ds2
      (fold_left (fun n c => 10 * n + (Z.of_N c - 48)) ds1 a).
Proof. apply fold_left_app. Qed.
Lemma number_acc a ds :
  fold_left (fun n c => 10 * n + (Z.of_N c - 48)) ds a = a * p10 (length ds) + number ds.
Proof.
  unfold number. revert a; induction ds as [|c ds IH]; intros a; cbn [fold_left length].
  - rewrite p10_0. lia.
  - rewrite IH, (IH (10 * 0 + _)), p10_S. ring.
Qed.
Lemma number_app ds1 ds2 : number (ds1 ++ ds2) = number ds1 * p10 (length ds2) + number ds2.
Proof. unfold number at 1. rewrite number_acc_app. rewrite number_acc. reflexivity. Qed.
Lemma number_nonneg ds : forallb is_digit ds = true -> 0 <= number ds.
Proof.
  induction ds as [|c ds IH] using rev_ind; [cbn; lia|].
  rewrite forallb_app_iff. cbn [forallb]. rewrite andb_true_r. intros [H1 H2].
  rewrite number_app. cbn [length]. apply is_digit_range in H2.
  change (p10 1) with 10. unfold number at 2; cbn [fold_left]. specialize (IH H1). lia.
Qed.
Lemma number_zeros k ds : number (repeat 48%N k ++ ds) = number ds.
Proof.
  rewrite number_app. assert (number (repeat 48%N k) = 0) as ->; [|lia].
  induction k as [|k IH]; [reflexivity|]. cbn [repeat]. unfold number in *; cbn [fold_left].
  exact IH.
Qed.

(** ** Parsing literals *)
Lemma digit_step c m :
  is_digit c = true -> m * 10 + Z.of_N (c - 48) = 10 * m + (Z.of_N c - 48).
Proof. intros H. apply is_digit_range in H. lia. Qed.
Lemma digit_not_underscore c : is_digit c = true -> (c =? underscore_c)%N = false.
Proof. rewrite is_digit_range. unfold underscore_c. intros H. apply N.eqb_neq. lia. Qed.
Lemma number_cons c ds : number (c :: ds) = (Z.of_N c - 48) * p10 (length ds) + number ds.
Proof. change (c :: ds) with ([c] ++ ds). rewrite number_app. reflexivity. Qed.

Lemma parse_digits_point s : forall has m sc m' sc',
  0 <= m < MAXM -> (sc < 28)%nat \/ s = [] -> (sc <= 28)%nat ->
  parse_digits s true has m sc = Some (m', sc') ->
  forallb is_digit (no_underscores s) = true
  /\ m' = m * p10 (length (no_underscores s)) + number (no_underscores s)
  /\ sc' = (sc + length (no_underscores s))%nat
  /\ (has = false -> no_underscores s <> []) /\ 0 <= m' < MAXM /\ (sc' <= 28)%nat.
Proof.
  induction s as [|c s IH]; intros has m sc m' sc' Hm Hsc Hsc2; cbn [parse_digits].
  - destruct has; [|discriminate]. intros H; injection H as <- <-.
    cbn [no_underscores filter length forallb]. rewrite p10_0, Nat.add_0_r. change (number []) with 0.
    repeat split; try lia; discriminate.
  - destruct (is_digit c) eqn:D.
    + rewrite digit_step by exact D. set (n := 10 * m + (Z.of_N c - 48)).
      destruct (MAXM <=? n) eqn:E1; [discriminate|]. cbn [andb].
      destruct ((MAXS <=? S sc)%nat && negb (is_empty s)) eqn:E2; [discriminate|].
      intros H. destruct Hsc as [Hsc|]; [|discriminate].
      assert (Hs2 : (S sc < 28)%nat \/ s = []).
      { apply andb_false_iff in E2 as [E2|E2].
        - left. apply Nat.leb_gt in E2. exact E2.
        - right. destruct s; [reflexivity|discriminate]. }
      apply IH in H; [|apply is_digit_range in D; lia|exact Hs2|lia].
      destruct H as (I1 & I2 & I3 & I4 & I5 & I6).
      cbn [no_underscores filter]. rewrite digit_not_underscore by exact D. cbn [negb].
      fold (no_underscores s). cbn [forallb length]. rewrite D, I1. rewrite number_cons, p10_S.
      repeat split; try lia; try discriminate.
    + replace ((c =? 46)%N && negb true) with false by (rewrite andb_false_r; reflexivity).
      destruct ((c =? 95)%N && has) eqn:E; [|discriminate].
      apply andb_prop in E as [E ->]. intros H.
      cbn [no_underscores filter]. unfold underscore_c. rewrite E. cbn [negb].
      destruct Hsc as [Hsc|]; [|discriminate].
      apply IH in H; auto.
Qed.
Lemma parse_digits_sound s : forall has m m' sc',
  0 <= m < MAXM ->
  parse_digits s false has m 0 = Some (m', sc') ->
  exists whole frac,
    (no_underscores s = whole /\ frac = [] \/ no_underscores s = whole ++ point_c :: frac)
    /\ forallb is_digit whole = true /\ forallb is_digit frac = true
    /\ m' = m * p10 (length (whole ++ frac)) + number (whole ++ frac)
    /\ sc' = length frac
    /\ (has = false -> whole ++ frac <> []) /\ 0 <= m' < MAXM /\ (sc' <= 28)%nat.
Proof.
  induction s as [|c s IH]; intros has m m' sc' Hm; cbn [parse_digits].
  - destruct has; [|discriminate]. intros H; injection H as <- <-. exists [], [].
    cbn [app length]. rewrite p10_0. change (number []) with 0.
    repeat split; auto; try lia; discriminate.
  - destruct (is_digit c) eqn:D.
    + rewrite digit_step by exact D. set (n := 10 * m + (Z.of_N c - 48)).
      destruct (MAXM <=? n) eqn:E1; [discriminate|]. cbn [andb].
      intros H. apply IH in H; [|apply is_digit_range in D; lia].
      destruct H as (w & f & I1 & I2 & I3 & I4 & I5 & I6 & I7 & I8).
      exists (c :: w), f. cbn [no_underscores filter]. rewrite digit_not_underscore by exact D.
      cbn [negb]. fold (no_underscores s). cbn [app forallb length]. rewrite D, I2, number_cons, p10_S.
      split; [|repeat split; auto; try lia; try discriminate].
      destruct I1 as [[-> ->]| ->]; auto.
    + destruct ((c =? 46)%N && negb false) eqn:P.
      * rewrite andb_true_r in P. apply N.eqb_eq in P. subst c. intros H.
        apply parse_digits_point in H; [|exact Hm|left; lia|lia].
        destruct H as (I1 & I2 & I3 & I4 & I5 & I6).
        exists [], (no_underscores s). cbn [app].
        split; [right; reflexivity|]. repeat split; auto; try lia.
      * destruct ((c =? 95)%N && has) eqn:E; [|discriminate].
        apply andb_prop in E as [E ->]. intros H.
        cbn [no_underscores filter]. unfold underscore_c. rewrite E. cbn [negb].
        apply IH in H; auto.
Qed.

Lemma d_make_signed neg m s : 0 <= m -> d_signed (d_make neg m s) = if neg then - m else m.
Proof. apply d_signed_make. Qed.

Lemma d_from_str_sound s d :
  d_from_str s = Some d ->
  wf_dec d /\ exists neg whole frac,
      literal_of s neg whole frac /\ d_s d = length frac
      /\ d_signed d = (if neg then - number (whole ++ frac) else number (whole ++ frac)).
Proof.
  unfold d_from_str.
  assert (G : forall sign neg body,
             s = sign ++ body ->
             (sign = [] /\ neg = false \/ sign = [plus_c] /\ neg = false
              \/ sign = [minus_c] /\ neg = true) ->
             match parse_digits body false false 0 0 with
             | Some (m, sc) => Some (d_make neg m sc) | None => None end = Some d ->
             wf_dec d /\ exists neg whole frac,
                 literal_of s neg whole frac /\ d_s d = length frac
                 /\ d_signed d = (if neg then - number (whole ++ frac) else number (whole ++ frac))).
  { intros sign neg body Es Hsign. destruct (parse_digits body false false 0 0) as [[m sc]|] eqn:P;
      [|discriminate].
    intros H; injection H as <-. apply parse_digits_sound in P; [|unfold MAXM; lia].
    destruct P as (w & f & I1 & I2 & I3 & I4 & I5 & I6 & I7 & I8).
    split; [unfold wf_dec, d_make; cbn [d_m d_s]; unfold MAXM in I7; lia|].
    exists neg, w, f. split; [|split; [exact I5|]].
    - exists sign, body. repeat split; auto.
    - rewrite d_signed_make by lia. rewrite Z.mul_0_l, Z.add_0_l in I4. rewrite I4. reflexivity. }
  destruct s as [|c s]; [apply (G [] false []); auto|].
  destruct (N.eqb_spec c 45) as [->|N1]; [apply (G [minus_c] true s); auto|].
  destruct (N.eqb_spec c 43) as [->|N2]; [apply (G [plus_c] false s); auto|].
  pose proof (G [] false (c :: s) eq_refl (or_introl (conj eq_refl eq_refl))) as G'.
  do 7 (try destruct c as [|c]; try exact G'; try (exfalso; apply N1; reflexivity);
        try (exfalso; apply N2; reflexivity)).
  all: try exact G'.
  all: repeat (destruct c as [c|c|]; try exact G'; try (exfalso; apply N1; reflexivity);
        try (exfalso; apply N2; reflexivity)).
Qed.

Lemma number_mono ds1 ds2 :
  forallb is_digit ds1 = true -> forallb is_digit ds2 = true -> number ds1 <= number (ds1 ++ ds2).
Proof.
  intros H1 H2. rewrite number_app. pose proof (number_nonneg _ H1). pose proof (number_nonneg _ H2).
  match goal with |- context [p10 ?k] => pose proof (p10_ge1 k); generalize dependent (p10 k) end.
  intros. nia.
Qed.
Lemma number_acc_bound m ds :
  0 <= m -> forallb is_digit ds = true -> m <= m * p10 (length ds) + number ds.
Proof.
  intros H1 H2. pose proof (number_nonneg _ H2). 
  match goal with |- context [p10 ?k] => pose proof (p10_ge1 k); generalize dependent (p10 k) end.
  intros. nia.
Qed.

Lemma parse_digits_point_complete s : forall has m sc,
  0 <= m -> forallb is_digit s = true -> has = true \/ s <> [] ->
  m * p10 (length s) + number s < MAXM -> (sc + length s <= 28)%nat ->
  parse_digits s true has m sc = Some (m * p10 (length s) + number s, (sc + length s)%nat).
Proof.
  induction s as [|c s IH]; intros has m sc Hm Hd Hh Hlt Hsc; cbn [parse_digits].
  - cbn [length]. rewrite p10_0, Nat.add_0_r, Z.mul_1_r. change (number []) with 0.
    destruct Hh as [->|]; [|congruence]. rewrite Z.add_0_r. reflexivity.
  - cbn [forallb] in Hd. apply andb_prop in Hd as [Hc Hd]. rewrite Hc.
    rewrite digit_step by exact Hc. cbn [length] in *. rewrite number_cons, p10_S in *.
    set (n := 10 * m + (Z.of_N c - 48)).
    assert (En : m * (10 * p10 (length s)) + ((Z.of_N c - 48) * p10 (length s) + number s)
                 = n * p10 (length s) + number s) by (unfold n; ring).
    rewrite En in *. apply is_digit_range in Hc.
    pose proof (number_acc_bound n s ltac:(lia) Hd).
    replace (MAXM <=? n) with false by lia. cbn [andb].
    replace ((MAXS <=? S sc)%nat && negb (is_empty s)) with false.
    2: { symmetry. apply andb_false_iff. destruct s; [right; reflexivity|left].
         apply Nat.leb_gt. unfold MAXS. cbn [length] in Hsc. lia. }
    rewrite IH; auto; try lia. f_equal. f_equal. lia.
Qed.
Lemma parse_digits_complete whole pt frac : forall has m,
  0 <= m -> forallb is_digit whole = true -> forallb is_digit frac = true ->
  pt = [] /\ frac = [] \/ pt = [point_c] -> has = true \/ whole ++ frac <> [] ->
  m * p10 (length (whole ++ frac)) + number (whole ++ frac) < MAXM -> (length frac <= 28)%nat ->
  parse_digits (whole ++ pt ++ frac) false has m 0
  = Some (m * p10 (length (whole ++ frac)) + number (whole ++ frac), length frac).
Proof.
  induction whole as [|c s IH]; intros has m Hm Hd Hf Hpt Hh Hlt Hsc; cbn [app].
  - destruct Hpt as [[-> ->]| ->].
    + cbn [app length parse_digits] in *. destruct Hh as [->|]; [|congruence]. rewrite p10_0.
      change (number []) with 0. rewrite Z.mul_1_r, Z.add_0_r. reflexivity.
    + cbn [app parse_digits point_c]. change (is_digit 46) with false. cbn [negb andb N.eqb Pos.eqb].
      cbn [app] in *. rewrite parse_digits_point_complete; auto.
  - cbn [forallb] in Hd. apply andb_prop in Hd as [Hc Hd]. cbn [parse_digits]. rewrite Hc.
    rewrite digit_step by exact Hc. cbn [length app] in *. rewrite number_cons, p10_S in *.
    set (n := 10 * m + (Z.of_N c - 48)).
    assert (En : m * (10 * p10 (length (s ++ frac)))
                 + ((Z.of_N c - 48) * p10 (length (s ++ frac)) + number (s ++ frac))
                 = n * p10 (length (s ++ frac)) + number (s ++ frac)) by (unfold n; ring).
    rewrite En in *. apply is_digit_range in Hc.
    assert (Hdf : forallb is_digit (s ++ frac) = true) by (apply forallb_app_iff; auto).
    pose proof (number_acc_bound n (s ++ frac) ltac:(lia) Hdf).
    replace (MAXM <=? n) with false by lia. cbn [andb].
    rewrite IH; auto; lia.
Qed.

Lemma d_from_str_complete sign neg whole pt frac :
  (sign = [] /\ neg = false \/ sign = [plus_c] /\ neg = false \/ sign = [minus_c] /\ neg = true) ->
  forallb is_digit whole = true -> forallb is_digit frac = true ->
  pt = [] /\ frac = [] \/ pt = [point_c] -> whole ++ frac <> [] ->
  number (whole ++ frac) < 2 ^ 96 -> (length frac <= 28)%nat ->
  d_from_str (sign ++ whole ++ pt ++ frac)
  = Some (d_make neg (number (whole ++ frac)) (length frac)).
Proof.
  intros Hsign Hw Hf Hpt Hne Hlt Hlen. unfold d_from_str.
  assert (P : parse_digits (whole ++ pt ++ frac) false false 0 0
              = Some (number (whole ++ frac), length frac)).
  { rewrite parse_digits_complete; auto; lia. }
  destruct Hsign as [[-> ->]|[[-> ->]|[-> ->]]]; cbn [app plus_c minus_c].
  2,3: rewrite P; reflexivity.
  destruct (whole ++ pt ++ frac) as [|c l] eqn:E; [exfalso|].
  { apply Hne. apply app_eq_nil in E as [-> E]. apply app_eq_nil in E as [_ ->]. reflexivity. }
  assert (Hc : (is_digit c || (c =? 46)%N)%bool = true).
  { destruct whole as [|w ws]; cbn [app] in E.
    - destruct Hpt as [[-> ->]| ->]; cbn [app] in E; [discriminate|]. injection E as <- _.
      apply orb_true_r.
    - injection E as <- _. cbn [forallb] in Hw. apply andb_prop in Hw as [-> _]. reflexivity. }
  assert (N1 : c <> 45%N) by (intros ->; discriminate).
  assert (N2 : c <> 43%N) by (intros ->; discriminate).
  transitivity (match parse_digits (c :: l) false false 0 0 with
                | Some (m, sc) => Some (d_make false m sc) | None => None end);
    [|rewrite P; reflexivity].
  clear - N1 N2.
  repeat (destruct c as [|c]; try reflexivity; try (exfalso; apply N1; reflexivity);
        try (exfalso; apply N2; reflexivity)).
  all: repeat (destruct c as [c|c|]; try reflexivity; try (exfalso; apply N1; reflexivity);
        try (exfalso; apply N2; reflexivity)).
Qed.

(** ** Printing *)
Lemma digits_acc_spec fuel : forall m acc,
  0 <= m < p10 fuel ->
  exists ds, digits_acc fuel m acc = ds ++ acc /\ forallb is_digit ds = true /\ number ds = m
             /\ (m = 0 -> ds = []) .
Proof.
  induction fuel as [|f IH]; intros m acc Hm; cbn [digits_acc].
  - rewrite p10_0 in Hm. exists []. repeat split; auto. change (number []) with 0. lia.
  - destruct (Z.eqb_spec m 0) as [->|Hz].
    + exists []. repeat split; auto.
    + rewrite p10_S in Hm. pose proof (Z.div_mod m 10 ltac:(lia)).
      pose proof (Z.mod_pos_bound m 10 ltac:(lia)).
      destruct (IH (m / 10) ((48 + Z.to_N (m mod 10))%N :: acc)) as (ds & E & D & Nn & _).
      { split; [apply Z.div_pos; lia|apply Z.div_lt_upper_bound; lia]. }
      exists (ds ++ [(48 + Z.to_N (m mod 10))%N]). rewrite E, <- app_assoc. repeat split.
      * apply forallb_app_iff. split; [exact D|]. cbn [forallb]. rewrite andb_true_r.
        apply is_digit_range. lia.
      * rewrite number_app, Nn. cbn [length]. change (p10 1) with 10.
        unfold number; cbn [fold_left]. lia.
      * lia.
Qed.
Lemma digits_spec m :
  0 <= m < MAXM -> forallb is_digit (digits m) = true /\ number (digits m) = m.
Proof.
  intros Hm. destruct (digits_acc_spec 40 m []) as (ds & E & D & Nn & _).
  - assert (MAXM < p10 40) by reflexivity. lia.
  - unfold digits. rewrite E, app_nil_r. auto.
Qed.

(** The printed text: optional sign, at least one digit, and all decimals. *)
Lemma d_to_string_shape d :
  wf_dec d ->
  exists whole frac,
    d_to_string d = (if d_neg d then [minus_c] else []) ++ whole
                    ++ (match d_s d with O => [] | _ => [point_c] end) ++ frac
    /\ forallb is_digit whole = true /\ forallb is_digit frac = true /\ whole <> []
    /\ number (whole ++ frac) = d_m d /\ length frac = d_s d.
Proof.
  intros [Hm Hs]. destruct (digits_spec (d_m d) Hm) as [D Nn]. unfold d_to_string.
  set (ds := repeat 48%N (d_s d - length (digits (d_m d))) ++ digits (d_m d)).
  assert (Dds : forallb is_digit ds = true).
  { apply forallb_app_iff. split; [|exact D]. clear. induction (_ - _)%nat; [reflexivity|exact IHn]. }
  assert (Nds : number ds = d_m d) by (unfold ds; rewrite number_zeros; exact Nn).
  assert (Lds : (d_s d <= length ds)%nat).
  { unfold ds. rewrite app_length, repeat_length. lia. }
  set (n := (length ds - d_s d)%nat).
  pose proof (firstn_skipn n ds) as Fs.
  assert (Lf : length (skipn n ds) = d_s d) by (rewrite skipn_length; unfold n; lia).
  assert (Df : forallb is_digit (firstn n ds) = true /\ forallb is_digit (skipn n ds) = true).
  { apply forallb_app_iff. rewrite Fs. exact Dds. }
  destruct Df as [Df1 Df2].
  assert (Tail : (match d_s d with O => [] | _ => 46%N :: skipn n ds end)
                 = (match d_s d with O => [] | _ => [point_c] end) ++ skipn n ds).
  { destruct (d_s d); [|reflexivity]. destruct (skipn n ds); [reflexivity|discriminate]. }
  rewrite Tail. destruct (firstn n ds) as [|w ws] eqn:Fw.
  - exists [48%N], (skipn n ds). repeat split; auto; try discriminate.
    change ([48%N] ++ skipn n ds) with (repeat 48%N 1 ++ skipn n ds). rewrite number_zeros.
    cbn [app] in Fs. rewrite Fs. exact Nds.
  - exists (w :: ws), (skipn n ds). repeat split; auto; try discriminate.
    rewrite <- Fw, firstn_skipn. exact Nds.
Qed.

Lemma d_round_trip d :
  wf_dec d -> d_from_str (d_to_string d) = Some (d_make (d_neg d) (d_m d) (d_s d)).
Proof.
  intros H. destruct (d_to_string_shape d H) as (w & f & E & D1 & D2 & Hne & Nn & Lf).
  rewrite E. rewrite d_from_str_complete with (neg := d_neg d); auto.
  - rewrite Nn, Lf. reflexivity.
  - destruct (d_neg d); auto.
  - destruct (d_s d) eqn:Es; [left|right; reflexivity]. split; [reflexivity|].
    destruct f; [reflexivity|discriminate].
  - destruct w; [congruence|discriminate].
  - rewrite Nn. apply H.
  - rewrite Lf. apply H.
Qed.
