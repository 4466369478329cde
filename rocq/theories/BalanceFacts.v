(** Facts about amounts and balances. *)
From Coq Require Import List NArith ZArith Bool Lia Permutation ZifyBool ZifyNat ZifyN.
From Verif Require Import Base BaseFacts Decimal SpecDecimal DecimalFacts Amount Balance SpecAmount.
Import ListNotations.
Open Scope Z_scope.

(** ** Commodities *)
Lemma comm_eqb_eq a b : comm_eqb a b = true <-> a = b.
Proof.
  destruct a as [a|], b as [b|]; cbn [comm_eqb]; split; try discriminate; auto.
  - intros H. apply str_eqb_eq in H. congruence.
  - intros H. injection H as ->. apply str_eqb_refl.
Qed.
Lemma comm_eqb_refl a : comm_eqb a a = true.
Proof. apply comm_eqb_eq. reflexivity. Qed.
Lemma comm_eqb_neq a b : comm_eqb a b = false <-> a <> b.
Proof. rewrite <- not_true_iff_false, comm_eqb_eq. reflexivity. Qed.
Lemma comm_eqb_spec a b : reflect (a = b) (comm_eqb a b).
Proof. apply iff_reflect. symmetry. apply comm_eqb_eq. Qed.

(** ** Signs *)
Lemma units_flip n m s : units (mkDec (negb n) m s) = - units (mkDec n m s).
Proof. unfold units; cbn [d_neg d_m d_s]. destruct n; cbn [negb]; ring. Qed.
Lemma amt_invert_opposite a : opposite a (amt_invert a).
Proof.
  split; [reflexivity|]. unfold aunits, amt_invert, d_is_sign_positive; cbn [a_q].
  destruct (a_q a) as [n m s]; cbn [d_neg]. destruct n; cbn [negb].
  - unfold d_set_pos; cbn [d_m d_s]. exact (units_flip true m s).
  - unfold d_set_neg; cbn [d_m d_s]. exact (units_flip false m s).
Qed.
Lemma amt_invert_involutive a : amt_invert (amt_invert a) = a.
Proof. destruct a as [[n m s] c]. destruct n; reflexivity. Qed.
(** [inverse] yields minus the absolute value. *)
Lemma amt_inverse_neg_abs a :
  wf_amt a -> a_c (amt_inverse a) = a_c a /\ aunits (amt_inverse a) = - Z.abs (aunits a).
Proof.
  intros [Hm Hs]. split; [reflexivity|]. unfold aunits, amt_inverse, d_is_sign_positive; cbn [a_q].
  destruct (a_q a) as [n m s]; cbn [d_neg d_m d_s] in *. rewrite !units_eq.
  pose proof (p10_pos (28 - s)).
  destruct n; cbn [negb]; unfold d_set_neg, d_signed; cbn [d_neg d_m d_s]; nia.
Qed.
Lemma wf_amt_inverse a : wf_amt a -> wf_amt (amt_inverse a).
Proof. unfold wf_amt, amt_inverse; cbn [a_q]. destruct (d_is_sign_positive _); auto. Qed.
Lemma amt_abs_units a : wf_amt a -> aunits (amt_abs a) = Z.abs (aunits a).
Proof.
  intros [Hm Hs]. unfold aunits, amt_abs; cbn [a_q]. rewrite !units_eq. unfold d_set_pos, d_signed.
  cbn [d_neg d_m d_s]. pose proof (p10_pos (28 - d_s (a_q a))). destruct (d_neg (a_q a)); nia.
Qed.
Lemma wf_amt_abs a : wf_amt a -> wf_amt (amt_abs a).
Proof. exact (fun H => H). Qed.

(** ** Amount arithmetic *)
Lemma amt_add_exact a b :
  wf_amt a -> wf_amt b -> a_c a = a_c b -> representable (aunits a + aunits b) ->
  exists r, amt_add a b = Ok r /\ wf_amt r /\ a_c r = a_c a /\ aunits r = aunits a + aunits b.
Proof.
  intros Ha Hb Hc Hr. unfold amt_add. rewrite Hc, comm_eqb_refl.
  destruct (d_is_zero (a_q b)) eqn:Z0.
  - apply d_is_zero_units in Z0; [|exact Hb]. exists a. repeat split; auto; try apply Ha.
    unfold aunits in *. lia.
  - destruct (d_add_exact _ _ Ha Hb Hr) as (r & E & W & U). rewrite E. cbn [bind].
    eexists. split; [reflexivity|]. repeat split; auto; apply W.
Qed.
Lemma amt_plus_exact a b :
  wf_amt a -> wf_amt b -> a_c a = a_c b -> representable (aunits a + aunits b) ->
  exists r, amt_plus a b = Ok r /\ wf_amt r /\ a_c r = a_c a /\ aunits r = aunits a + aunits b.
Proof.
  intros Ha Hb Hc Hr. unfold amt_plus. rewrite Hc, comm_eqb_refl.
  destruct (d_add_exact _ _ Ha Hb Hr) as (r & E & W & U). rewrite E. cbn [bind].
  eexists. split; [reflexivity|]. repeat split; auto; apply W.
Qed.
Lemma amt_minus_exact a b :
  wf_amt a -> wf_amt b -> a_c a = a_c b -> representable (aunits a - aunits b) ->
  exists r, amt_minus a b = Ok r /\ wf_amt r /\ a_c r = a_c a /\ aunits r = aunits a - aunits b.
Proof.
  intros Ha Hb Hc Hr. unfold amt_minus. rewrite Hc, comm_eqb_refl.
  destruct (d_sub_exact _ _ Ha Hb Hr) as (r & E & W & U). rewrite E. cbn [bind].
  eexists. split; [reflexivity|]. repeat split; auto; apply W.
Qed.
Lemma amt_mixed a b :
  a_c a <> a_c b ->
  (exists p, amt_add a b = Panic p) /\ (exists p, amt_plus a b = Panic p)
  /\ exists p, amt_minus a b = Panic p.
Proof.
  intros H. apply comm_eqb_neq in H. unfold amt_add, amt_plus, amt_minus. rewrite H.
  repeat split; eexists; reflexivity.
Qed.
Lemma amt_add_ok a b r :
  wf_amt a -> wf_amt b -> amt_add a b = Ok r -> a_c r = a_c a /\ wf_amt r /\ a_c b = a_c a.
Proof.
  unfold amt_add. intros Ha Hb. destruct (comm_eqb_spec (a_c a) (a_c b)) as [E|]; [|discriminate].
  destruct (d_is_zero (a_q b)); [intros H; injection H as <-; auto|].
  intros H. inv_bind H. injection H as <-. split; [reflexivity|]. split; [|congruence]. unfold wf_amt. cbn [a_q]. eapply d_add_wf; [| |exact EQ]; assumption.
Qed.
Lemma amt_minus_ok a b r :
  wf_amt a -> wf_amt b -> amt_minus a b = Ok r -> a_c r = a_c a /\ wf_amt r /\ a_c b = a_c a.
Proof.
  unfold amt_minus. intros Ha Hb. destruct (comm_eqb_spec (a_c a) (a_c b)) as [E|]; [|discriminate].
  intros H. inv_bind H. injection H as <-. split; [reflexivity|]. split; [|congruence]. unfold wf_amt. cbn [a_q]. eapply d_sub_wf; [| |exact EQ]; assumption.
Qed.
Lemma amt_mul_wf a b r : amt_mul a b = Ok r -> wf_amt r /\ a_c r = comm_or (a_c a) (a_c b).
Proof.
  unfold amt_mul. intros H. inv_bind H. injection H as <-. split; [|reflexivity].
  eapply d_mul_wf; eauto.
Qed.
Lemma amt_div_wf a b r :
  wf_amt a -> wf_amt b -> amt_div a b = Ok r -> wf_amt r /\ a_c r = comm_or (a_c a) (a_c b).
Proof.
  unfold amt_div. intros Ha Hb H. inv_bind H. injection H as <-. split; [|reflexivity].
  eapply d_div_wf; [| |eauto]; assumption.
Qed.

(** ** [total], [firsts] *)
Lemma sumZ_app l1 l2 : sumZ (l1 ++ l2) = sumZ l1 + sumZ l2.
Proof. unfold sumZ. induction l1 as [|x l IH]; cbn [app fold_right]; lia. Qed.
Lemma sumZ_perm l1 l2 : Permutation l1 l2 -> sumZ l1 = sumZ l2.
Proof. unfold sumZ. induction 1; cbn [fold_right]; lia. Qed.
Lemma in_comm_app c l1 l2 : in_comm c (l1 ++ l2) = in_comm c l1 ++ in_comm c l2.
Proof. apply filter_app. Qed.
Lemma total_app c l1 l2 : total c (l1 ++ l2) = total c l1 + total c l2.
Proof. unfold total. rewrite in_comm_app, map_app. apply sumZ_app. Qed.
Lemma total_nil c : total c [] = 0.
Proof. reflexivity. Qed.
Lemma total_one c a : total c [a] = if comm_dec (a_c a) c then aunits a else 0.
Proof. unfold total, in_comm; cbn [filter]. destruct (comm_dec (a_c a) c); cbn; lia. Qed.
Lemma total_cons c a l : total c (a :: l) = (if comm_dec (a_c a) c then aunits a else 0) + total c l.
Proof. change (a :: l) with ([a] ++ l). rewrite total_app, total_one. reflexivity. Qed.
Lemma filter_perm {A} (f : A -> bool) l1 l2 :
  Permutation l1 l2 -> Permutation (filter f l1) (filter f l2).
Proof.
  induction 1 as [|x l1 l2 H IH|x y l|l1 l2 l3 H1 I1 H2 I2]; cbn [filter].
  - constructor.
  - destruct (f x); auto.
  - destruct (f x), (f y); auto using perm_swap, Permutation_refl.
  - eauto using Permutation_trans.
Qed.
Lemma total_perm c l1 l2 : Permutation l1 l2 -> total c l1 = total c l2.
Proof. intros H. apply sumZ_perm, Permutation_map, filter_perm, H. Qed.
Lemma total_absent c l : ~ In c (map a_c l) -> total c l = 0.
Proof.
  induction l as [|a l IH]; [reflexivity|]. cbn [map In]. intros H. rewrite total_cons.
  destruct (comm_dec (a_c a) c); [tauto|]. rewrite IH; tauto.
Qed.

Lemma firsts_in c l : In c (firsts l) <-> In c l.
Proof.
  induction l as [|d l IH]; [reflexivity|]. cbn [firsts In]. rewrite filter_In, IH.
  destruct (comm_dec c d); split; intuition congruence.
Qed.
Lemma firsts_nodup l : NoDup (firsts l).
Proof.
  induction l as [|d l IH]; [constructor|]. cbn [firsts]. constructor.
  - rewrite filter_In. destruct (comm_dec d d); intuition congruence.
  - apply NoDup_filter, IH.
Qed.
Definition minus_list (l1 l2 : list comm) : list comm :=
  filter (fun d => if in_dec comm_dec d l1 then false else true) l2.
Lemma filter_filter {A} (f g : A -> bool) l : filter f (filter g l) = filter (fun x => g x && f x) l.
Proof.
  induction l as [|x l IH]; [reflexivity|]. cbn [filter]. destruct (g x); cbn [filter andb]; [|exact IH].
  destruct (f x); rewrite IH; reflexivity.
Qed.
Lemma firsts_app l1 l2 : firsts (l1 ++ l2) = firsts l1 ++ minus_list l1 (firsts l2).
Proof.
  unfold minus_list. induction l1 as [|d l1 IH]; cbn [app firsts].
  - symmetry. apply forallb_filter_id || (induction (firsts l2) as [|x l IH]; [reflexivity|];
    cbn [filter]; destruct (in_dec comm_dec x []) as [[]|]; f_equal; exact IH).
  - f_equal. rewrite IH, filter_app. f_equal. rewrite filter_filter. apply filter_ext. intros x.
    destruct (in_dec comm_dec x (d :: l1)) as [Hi|Hi]; destruct (in_dec comm_dec x l1) as [Hj|Hj];
      destruct (comm_dec x d) as [->|Hn]; cbn [andb]; try reflexivity; exfalso; cbn [In] in Hi;
      intuition congruence.
Qed.
Lemma firsts_idem l : NoDup l -> firsts l = l.
Proof.
  induction 1 as [|x l Hx Hl IH]; [reflexivity|]. cbn [firsts]. rewrite IH. f_equal.
  clear -Hx. induction l as [|y l IH]; [reflexivity|]. cbn [filter]. cbn [In] in Hx.
  destruct (comm_dec y x) as [->|]; [tauto|]. f_equal. apply IH. tauto.
Qed.

(** A balance as a summary of a list of amounts. *)
Lemma bal_nodup b l : is_balance_of b l -> NoDup (map a_c b).
Proof. intros [H _]. rewrite H. apply firsts_nodup. Qed.
Lemma is_balance_of_nil : is_balance_of bal_new [].
Proof. split; [reflexivity|]. intros a []. Qed.
Lemma total_nodup b a : NoDup (map a_c b) -> In a b -> total (a_c a) b = aunits a.
Proof.
  induction b as [|x b IH]; [intros _ []|]. cbn [map In]. intros Hn [->|Hi]; inversion Hn; subst.
  - rewrite total_cons. destruct (comm_dec (a_c a) (a_c a)); [|congruence].
    rewrite total_absent by assumption. lia.
  - rewrite total_cons, IH by assumption. destruct (comm_dec (a_c x) (a_c a)) as [E|]; [|lia].
    exfalso. apply H1. rewrite E. apply in_map, Hi.
Qed.
Lemma is_balance_of_total b l c : is_balance_of b l -> total c b = total c l.
Proof.
  intros H. pose proof (bal_nodup _ _ H) as Hn. destruct H as [Hc He].
  destruct (in_dec comm_dec c (map a_c b)) as [Hi|Hi].
  - apply in_map_iff in Hi as (a & <- & Hi). rewrite total_nodup by assumption. apply He, Hi.
  - rewrite !total_absent; auto. rewrite <- firsts_in, <- Hc. exact Hi.
Qed.
Lemma is_balance_of_self b l : is_balance_of b l -> is_balance_of b b.
Proof.
  intros H. pose proof (bal_nodup _ _ H) as Hn. split.
  - rewrite firsts_idem; auto.
  - intros a Ha. split; [apply H, Ha|]. symmetry. apply total_nodup; auto.
Qed.
Lemma is_balance_of_ext b l1 l2 :
  firsts (map a_c l1) = firsts (map a_c l2) -> (forall c, total c l1 = total c l2) ->
  is_balance_of b l1 -> is_balance_of b l2.
Proof.
  intros E T [Hc He]. split; [congruence|]. intros a Ha. rewrite <- T. apply He, Ha.
Qed.

Lemma bal_add_structure b : forall a,
  NoDup (map a_c b) -> (forall x, In x b -> wf_amt x) -> wf_amt a ->
  (forall x, In x b -> a_c x = a_c a -> representable (aunits x + aunits a)) ->
  exists b', bal_add b a = Ok b'
    /\ map a_c b' = map a_c b ++ (if in_dec comm_dec (a_c a) (map a_c b) then [] else [a_c a])
    /\ forall y, In y b' ->
        wf_amt y /\ (In y b /\ a_c y <> a_c a \/ y = a /\ ~ In (a_c a) (map a_c b)
         \/ exists x, In x b /\ a_c x = a_c a /\ a_c y = a_c a /\ aunits y = aunits x + aunits a).
Proof.
  induction b as [|x b IH]; intros a Hn Hw Ha Hr; cbn [bal_add].
  - exists [a]. split; [reflexivity|]. split; [reflexivity|]. intros y [<-|[]]. split; [exact Ha|].
    right; left. split; [reflexivity|]. intros [].
  - cbn [map] in Hn. inversion Hn as [|? ? Hx Hnb]; subst.
    destruct (comm_eqb_spec (a_c x) (a_c a)) as [E|E].
    + destruct (amt_add_exact x a) as (r & R & Rw & Rc & Ru); auto.
      { apply Hw. left; reflexivity. } { apply Hr; [left; reflexivity|exact E]. }
      rewrite R. cbn [bind]. exists (r :: b). split; [reflexivity|]. cbn [map]. rewrite Rc. split.
      * destruct (in_dec comm_dec (a_c a) (a_c x :: map a_c b)) as [|C]; [rewrite app_nil_r; reflexivity|].
        exfalso. apply C. left. exact E.
      * intros y [<-|Hy].
        -- split; [exact Rw|]. right; right. exists x. repeat split; auto; [left; reflexivity|congruence].
        -- split; [apply Hw; right; exact Hy|]. left. split; [right; exact Hy|].
           intros C. apply Hx. rewrite E, <- C. apply in_map, Hy.
    + destruct (IH a Hnb) as (b' & R & Rc & Re); auto.
      { intros y Hy. apply Hw. right; exact Hy. } { intros y Hy. apply Hr. right; exact Hy. }
      rewrite R. cbn [bind]. exists (x :: b'). split; [reflexivity|]. cbn [map]. split.
      * rewrite Rc. cbn [app]. f_equal. f_equal.
        destruct (in_dec comm_dec (a_c a) (map a_c b)) as [I|I];
          destruct (in_dec comm_dec (a_c a) (a_c x :: map a_c b)) as [J|J]; try reflexivity;
          exfalso; cbn [In] in J; tauto.
      * intros y [<-|Hy].
        -- split; [apply Hw; left; reflexivity|]. left. split; [left; reflexivity|exact E].
        -- destruct (Re y Hy) as [W [[I1 I2]|[[I1 I2]|(z & I1 & I2)]]]; (split; [exact W|]).
           ++ left. split; [right; exact I1|exact I2].
           ++ right; left. split; [exact I1|]. intros [C|C]; tauto.
           ++ right; right. exists z. split; [right; exact I1|exact I2].
Qed.

Lemma bal_add_spec b l a :
  is_balance_of b l -> wf_amt a -> representable (total (a_c a) (l ++ [a])) ->
  exists b', bal_add b a = Ok b' /\ is_balance_of b' (l ++ [a]).
Proof.
  intros H Ha Hr. pose proof (bal_nodup _ _ H) as Hn. destruct H as [Hc He].
  rewrite total_app, total_one in Hr. destruct (comm_dec (a_c a) (a_c a)) as [_|]; [|congruence].
  destruct (bal_add_structure b a Hn) as (b' & R & Rc & Re); auto.
  { intros x Hx. apply He, Hx. }
  { intros x Hx E. destruct (He x Hx) as [_ ->]. rewrite E. exact Hr. }
  exists b'. split; [exact R|]. split.
  - rewrite Rc, Hc, map_app, firsts_app. f_equal. cbn [map firsts filter].
    unfold minus_list; cbn [filter].
    destruct (in_dec comm_dec (a_c a) (firsts (map a_c l))) as [I|I];
      destruct (in_dec comm_dec (a_c a) (map a_c l)) as [J|J]; try reflexivity; exfalso;
      rewrite firsts_in in I; tauto.
  - intros y Hy. destruct (Re y Hy) as [W C]. split; [exact W|]. rewrite total_app, total_one.
    destruct C as [[I1 I2]|[[-> I2]|(x & I1 & I2 & I3 & I4)]].
    + destruct (comm_dec (a_c a) (a_c y)); [congruence|]. rewrite (proj2 (He y I1)). lia.
    + destruct (comm_dec (a_c a) (a_c a)); [|congruence]. rewrite total_absent; [lia|].
      rewrite <- firsts_in, <- Hc. exact I2.
    + rewrite I3. destruct (comm_dec (a_c a) (a_c a)); [|congruence]. rewrite I4.
      rewrite (proj2 (He x I1)), I2. reflexivity.
Qed.

Lemma bal_fold_spec l2 : forall b l1,
  is_balance_of b l1 -> Forall wf_amt l2 ->
  (forall c n, representable (total c (l1 ++ firstn n l2))) ->
  exists b', fold_outcome bal_add l2 b = Ok b' /\ is_balance_of b' (l1 ++ l2).
Proof.
  induction l2 as [|a l2 IH]; intros b l1 Hb Hw Hr; cbn [fold_outcome].
  - exists b. rewrite app_nil_r. auto.
  - inversion Hw; subst. destruct (bal_add_spec b l1 a) as (b1 & R & B1); auto.
    { apply (Hr _ 1%nat). }
    rewrite R. cbn [bind]. destruct (IH b1 (l1 ++ [a])) as (b' & R' & B'); auto.
    { intros c n. rewrite <- app_assoc. apply (Hr c (S n)). }
    exists b'. rewrite <- app_assoc in B'. auto.
Qed.

Lemma total_firstn_nodup c b n :
  NoDup (map a_c b) -> total c (firstn n b) = 0 \/ total c (firstn n b) = total c b.
Proof.
  revert n; induction b as [|x b IH]; intros n Hn.
  - rewrite firstn_nil. auto.
  - destruct n as [|n]; [left; reflexivity|]. cbn [firstn]. rewrite !total_cons. cbn [map] in Hn.
    inversion Hn as [|? ? Hx Hb]; subst. destruct (comm_dec (a_c x) c) as [<-|E].
    + right. rewrite (total_absent _ b) by exact Hx. rewrite total_absent; [reflexivity|].
      intros C. apply Hx. apply in_map_iff in C as (y & <- & Hy). apply in_map.
      rewrite <- (firstn_skipn n b). apply in_or_app; auto.
    + destruct (IH n Hb) as [->| ->]; auto.
Qed.

Lemma bal_add_bal_spec b1 l1 b2 l2 :
  is_balance_of b1 l1 -> is_balance_of b2 l2 ->
  (forall c, representable (total c l1)) -> (forall c, representable (total c (l1 ++ l2))) ->
  exists b', bal_add_bal b1 b2 = Ok b' /\ is_balance_of b' (l1 ++ l2).
Proof.
  intros H1 H2 R1 R2. unfold bal_add_bal.
  destruct (bal_fold_spec b2 b1 l1) as (b' & E & B); auto.
  - apply Forall_forall. intros x Hx. apply H2, Hx.
  - intros c n. rewrite total_app.
    destruct (total_firstn_nodup c b2 n (bal_nodup _ _ H2)) as [->| ->].
    + rewrite Z.add_0_r. apply R1.
    + rewrite (is_balance_of_total b2 l2 c H2), <- total_app. apply R2.
  - exists b'. split; [exact E|]. revert B. apply is_balance_of_ext.
    + rewrite !map_app, !firsts_app. f_equal. f_equal. destruct H2 as [Hc _].
      rewrite (firsts_idem (map a_c b2)); [exact Hc|]. rewrite Hc. apply firsts_nodup.
    + intros c. rewrite !total_app. f_equal. apply is_balance_of_total, H2.
Qed.

(** ** Sufficient condition: fitting quantities *)
Lemma fits_representable l :
  Forall wf_dec l -> fits l -> representable (sumZ (map units l)).
Proof.
  intros Hw (s & Hs & Hl & Hsum).
  set (z := sumZ (map (fun d => d_signed d * p10 (s - d_s d)) l)).
  assert (Ez : z * p10 (28 - s) = sumZ (map units l)).
  { unfold z. clear Hsum z. induction l as [|d l IH]; [reflexivity|]. inversion Hl; inversion Hw; subst.
    cbn [map sumZ fold_right]. fold (sumZ (map units l)).
    fold (sumZ (map (fun d => d_signed d * p10 (s - d_s d)) l)).
    rewrite Z.mul_add_distr_r, IH by assumption. f_equal. apply signed_scaled; assumption. }
  assert (Az : Z.abs z <= sumZ (map (scaled_abs s) l)).
  { unfold z. clear Ez Hsum z. induction l as [|d l IH]; [reflexivity|]. inversion Hl; inversion Hw; subst.
    cbn [map sumZ fold_right]. fold (sumZ (map (scaled_abs s) l)).
    fold (sumZ (map (fun d => d_signed d * p10 (s - d_s d)) l)).
    specialize (IH H6 H2). rewrite scaled_abs_eq.
    etransitivity; [apply Z.abs_triangle|]. rewrite Z.abs_mul, abs_signed by apply H5.
    rewrite (Z.abs_eq (p10 _)) by (pose proof (p10_pos (s - d_s d)); lia). lia. }
  exists (d_make (z <? 0) (Z.abs z) s). rewrite units_make_z. split; [|exact Ez].
  unfold wf_dec, d_make; cbn [d_m d_s]. lia.
Qed.
Lemma sumZ_nonneg l : Forall (fun z => 0 <= z) l -> 0 <= sumZ l.
Proof. induction 1; cbn [sumZ fold_right]; [lia|]. fold (sumZ l). lia. Qed.
Lemma scaled_nonneg s d : 0 <= d_m d -> 0 <= scaled_abs s d.
Proof. intros H. rewrite scaled_abs_eq. pose proof (p10_pos (s - d_s d)). nia. Qed.
(** Part of a fitting collection fits. *)
Lemma fits_sub l1 l2 l : Forall wf_dec l -> Permutation l (l1 ++ l2) -> fits l -> fits l1.
Proof.
  intros Hw Hp (s & Hs & Hl & Hsum). exists s. split; [exact Hs|].
  assert (Hl' : Forall (fun d => (d_s d <= s)%nat) (l1 ++ l2)) by (eapply Permutation_Forall; eauto).
  apply Forall_app in Hl' as [Hl1 Hl2].
  assert (Hw' : Forall wf_dec (l1 ++ l2)) by (eapply Permutation_Forall; eauto).
  apply Forall_app in Hw' as [Hw1 Hw2].
  split; [exact Hl1|].
  rewrite (sumZ_perm _ (map (scaled_abs s) (l1 ++ l2))) in Hsum by (apply Permutation_map, Hp).
  rewrite map_app, sumZ_app in Hsum.
  pose proof (sumZ_nonneg (map (scaled_abs s) l2)) as P.
  assert (Forall (fun z => 0 <= z) (map (scaled_abs s) l2)).
  { apply Forall_map. eapply Forall_impl; [|exact Hw2]. intros d Hd. apply scaled_nonneg, Hd. }
  specialize (P H). lia.
Qed.
Lemma fits_amts_sub l1 l2 l : Permutation l (l1 ++ l2) -> fits_amts l -> fits_amts l1.
Proof.
  intros Hp [Hw Hf]. split.
  - assert (H : Forall wf_amt (l1 ++ l2)) by (eapply Permutation_Forall; eauto).
    apply Forall_app in H. tauto.
  - intros c. apply (fits_sub _ (map a_q (in_comm c l2)) (map a_q (in_comm c l))); [| |apply Hf].
    + apply Forall_map. apply Forall_forall. intros a Ha. apply filter_In in Ha as [Ha _].
      rewrite Forall_forall in Hw. apply Hw, Ha.
    + rewrite <- map_app, <- in_comm_app. apply Permutation_map, filter_perm, Hp.
Qed.
Lemma fits_amts_total l c : fits_amts l -> representable (total c l).
Proof.
  intros [Hw Hf]. unfold total. unfold aunits. rewrite <- (map_map a_q units).
  apply fits_representable; [|apply Hf]. apply Forall_map. apply Forall_forall. intros a Ha.
  apply filter_In in Ha as [Ha _]. rewrite Forall_forall in Hw. apply Hw, Ha.
Qed.
Lemma fits_amts_perm l l' : Permutation l l' -> fits_amts l -> fits_amts l'.
Proof.
  intros Hp Hf. apply (fits_amts_sub l' [] l); [|exact Hf]. rewrite app_nil_r. exact Hp.
Qed.
Lemma fits_amts_prefix l n c : fits_amts l -> representable (total c (firstn n l)).
Proof.
  intros H. apply fits_amts_total. apply (fits_amts_sub _ (skipn n l) l); [|exact H].
  rewrite firstn_skipn. reflexivity.
Qed.
Lemma fits_amts_app1 l1 l2 : fits_amts (l1 ++ l2) -> fits_amts l1.
Proof. apply fits_amts_sub with (l2 := l2). reflexivity. Qed.
Lemma fits_amts_app2 l1 l2 : fits_amts (l1 ++ l2) -> fits_amts l2.
Proof. apply fits_amts_sub with (l2 := l1). apply Permutation_app_comm. Qed.

Lemma bal_of_list l :
  Forall wf_amt l -> (forall c n, representable (total c (firstn n l))) ->
  exists b, fold_outcome bal_add l bal_new = Ok b /\ is_balance_of b l.
Proof. intros Hw Hr. apply (bal_fold_spec l bal_new []); auto using is_balance_of_nil. Qed.

(** ** What a successful [bal_add] guarantees in any case *)
Lemma bal_add_ok b : forall a b',
  Forall wf_amt b -> wf_amt a -> bal_add b a = Ok b' ->
  Forall wf_amt b' /\ (map a_c b' = map a_c b /\ In (a_c a) (map a_c b)
                       \/ b' = b ++ [a] /\ ~ In (a_c a) (map a_c b)).
Proof.
  induction b as [|x b IH]; intros a b' Hw Ha; cbn [bal_add].
  - intros H; injection H as <-. split; [auto|]. right. split; [reflexivity|]. intros [].
  - inversion Hw as [|? ? Hx Hb]; subst. destruct (comm_eqb_spec (a_c x) (a_c a)) as [E|E].
    + intros H. inv_bind H. injection H as <-. destruct (amt_add_ok _ _ _ Hx Ha EQ) as (C & W & _).
      split; [auto|]. left. cbn [map]. split; [congruence|]. left; exact E.
    + intros H. inv_bind H. injection H as <-. destruct (IH a _ Hb Ha EQ) as [W C].
      split; [auto|]. cbn [map In]. destruct C as [[C1 C2]|[-> C2]]; [left|right].
      * split; [congruence|auto].
      * split; [reflexivity|]. intros [C|C]; tauto.
Qed.
Lemma bal_sub_ok b : forall a b',
  Forall wf_amt b -> wf_amt a -> bal_sub b a = Ok b' ->
  Forall wf_amt b' /\ (map a_c b' = map a_c b /\ In (a_c a) (map a_c b)
                       \/ b' = b ++ [amt_inverse a] /\ ~ In (a_c a) (map a_c b)).
Proof.
  induction b as [|x b IH]; intros a b' Hw Ha; cbn [bal_sub].
  - intros H; injection H as <-. split; [auto using wf_amt_inverse|]. right.
    split; [reflexivity|]. intros [].
  - inversion Hw as [|? ? Hx Hb]; subst. destruct (comm_eqb_spec (a_c x) (a_c a)) as [E|E].
    + intros H. inv_bind H. injection H as <-. destruct (amt_minus_ok _ _ _ Hx Ha EQ) as (C & W & _).
      split; [auto|]. left. cbn [map]. split; [congruence|]. left; exact E.
    + intros H. inv_bind H. injection H as <-. destruct (IH a _ Hb Ha EQ) as [W C].
      split; [auto|]. cbn [map In]. destruct C as [[C1 C2]|[-> C2]]; [left|right].
      * split; [congruence|auto].
      * split; [reflexivity|]. intros [C|C]; tauto.
Qed.
