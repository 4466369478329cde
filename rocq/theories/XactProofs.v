(** Proofs about transactions: C06-C09, C11, C12. *)
From Coq Require Import List NArith ZArith Bool Lia ZifyBool ZifyNat ZifyN.
From Verif Require Import Base BaseFacts Decimal Dates Amount Balance History Pool Account Journal Xact.
From Verif Require Import SpecDecimal SpecAmount SpecDates SpecPool SpecXact.
From Verif Require Import DecimalFacts RoundFacts DatesFacts BalanceFacts PoolFacts PriceFacts PriceProofs XactFacts.
Import ListNotations.
Open Scope Z_scope.

Lemma worths_wf posts : Forall wf_post posts -> Forall wf_amt (worths posts).
Proof.
  induction 1 as [|p posts [Ha Hc] _ IH]; [constructor|]. rewrite worths_cons. apply Forall_app. split; [|exact IH].
  unfold worth. destruct (po_cost p) as [c|]; [constructor; auto|]. destruct (po_amount p); constructor; auto.
Qed.

(** The balance of the worths. *)
Lemma worths_balance posts bal :
  fits_amts (worths posts) -> fold_outcome bal_add (worths posts) bal_new = Ok bal ->
  is_balance_of bal (worths posts).
Proof.
  intros F E. destruct (bal_of_list (worths posts)) as (b & E' & I); [apply F|intros c n; apply fits_amts_prefix, F|].
  rewrite E in E'. injection E' as ->. exact I.
Qed.

Lemma firsts_single l c : firsts l = [c] -> Forall (fun d => d = c) l.
Proof.
  intros H. rewrite Forall_forall. intros d Hd. apply firsts_in in Hd. rewrite H in Hd. destruct Hd as [->|[]]. reflexivity.
Qed.

(** ** C06 *)
Lemma elided_value date pool posts pool' posts' l1 p l2 :
  one_elided posts l1 p l2 -> fits_amts (worths posts) ->
  finalize_posts date pool posts = Ok (pool', posts') ->
  exists a c, only_in c (worths posts)
    /\ posts' = l1 ++ mkPost (po_account p) (Some a) (po_cost p) (po_note p) :: l2
    /\ a_c a = c /\ wf_amt a /\ aunits a = - Z.abs (total c (worths posts)).
Proof.
  intros E F H. apply finalize_inv in H as (_ & bal & Hb & [(C & _)|(m1 & q & m2 & b & E' & -> & P & ->)]).
  - exfalso. destruct E as (-> & V & _). unfold complete in C. apply Forall_app in C as [_ C]. inversion C; congruence.
  - assert (Es : m1 = l1 /\ q = p /\ m2 = l2).
    { destruct E as (-> & V & C1 & C2), E' as (E' & V' & C1' & C2'). clear -E' V V' C1 C2 C1' C2'.
      revert m1 E' C1'. induction l1 as [|x l1 IH]; intros [|y m1] E' C1'; cbn in E'; injection E' as E1 E2; subst.
      - auto.
      - inversion C1'; congruence.
      - inversion C1; congruence.
      - inversion C1; inversion C1'; subst. destruct (IH H2 _ E2 H6) as (-> & -> & ->). auto. }
    destruct Es as (-> & -> & ->). apply worths_balance in Hb; [|exact F]. destruct Hb as [Hc Hv].
    destruct (Hv b (or_introl eq_refl)) as [Wb Ub]. destruct (amt_inverse_neg_abs b Wb) as [Ci Ui].
    exists (amt_inverse b), (a_c b). cbn in Hc. split.
    + symmetry in Hc. apply firsts_single in Hc. unfold only_in. rewrite Forall_forall in *. intros a Ha. apply Hc, in_map, Ha.
    + split; [reflexivity|]. split; [exact Ci|]. split; [apply wf_amt_inverse, Wb|]. rewrite Ui, Ub. reflexivity.
Qed.

Lemma only_in_total c d l : only_in c l -> c <> d -> total d l = 0.
Proof.
  intros H N. apply total_absent. intros I. apply in_map_iff in I as (a & <- & Ha). unfold only_in in H.
  rewrite Forall_forall in H. apply N. symmetry. apply H, Ha.
Qed.

Lemma filled_worths l1 p l2 a :
  worth p = None -> worths (l1 ++ mkPost (po_account p) (Some a) (po_cost p) (po_note p) :: l2)
                    = worths l1 ++ a :: worths l2
  /\ worths (l1 ++ p :: l2) = worths l1 ++ worths l2.
Proof.
  intros V. rewrite !worths_app, !worths_cons, V. cbn [app]. split; [|reflexivity].
  unfold worth in *. cbn [po_cost po_amount]. destruct (po_cost p); [|reflexivity].
  destruct (po_amount p); discriminate.
Qed.

(** When the filled-in amount balances the transaction. *)
Lemma elided_balances date pool posts pool' posts' l1 p l2 c :
  one_elided posts l1 p l2 -> fits_amts (worths posts) -> only_in c (worths posts) ->
  finalize_posts date pool posts = Ok (pool', posts') ->
  (balanced posts' <-> 0 <= total c (worths posts)).
Proof.
  intros E F O H. pose proof (finalize_complete _ _ _ _ _ H) as [_ Am].
  destruct (elided_value _ _ _ _ _ _ _ _ E F H) as (a & c' & O' & E' & Ca & Wa & Ua).
  destruct E as (Ep & V & C1 & C2).
  destruct (filled_worths l1 p l2 a V) as [W1 W2]. rewrite Ep, W2 in *. subst posts'.
  destruct (comm_dec c' c) as [->|N].
  - assert (T : forall d, total d (worths l1 ++ a :: worths l2)
                          = total d (worths l1 ++ worths l2) + (if comm_dec c d then aunits a else 0)).
    { intros d. rewrite !total_app, total_cons, Ca. lia. }
    split.
    + intros [_ B]. specialize (B c). unfold balanced_in in B. rewrite W1, T in B.
      destruct (comm_dec c c); [|congruence]. lia.
    + intros P. split.
      * eapply Forall_impl; [|exact Am]. intros q (a0 & -> & _). discriminate.
      * intros d. unfold balanced_in. rewrite W1, T. destruct (comm_dec c d) as [<-|Nd]; [lia|].
        rewrite (only_in_total c d); auto.
  - (* no worths at all *)
    assert (Z0 : forall d, total d (worths l1 ++ worths l2) = 0).
    { intros d. destruct (comm_dec c d) as [<-|Nd]; [|apply (only_in_total c); auto]. apply (only_in_total c'); auto. }
    split; [intros _; rewrite Z0; lia|]. intros _. split.
    + eapply Forall_impl; [|exact Am]. intros q (a0 & -> & _). discriminate.
    + intros d. unfold balanced_in. rewrite W1, total_app, total_cons.
      rewrite Z0 in Ua. specialize (Z0 d). rewrite total_app in Z0. destruct (comm_dec (a_c a) d); lia.
Qed.

(** Sums have no more decimals than what is summed. *)
Lemma d_add_scale a b r k : d_add a b = Ok r -> (d_s a <= k)%nat -> (d_s b <= k)%nat -> (d_s r <= k)%nat.
Proof.
  unfold d_add, d_reduced. intros H A B. destruct (d_is_zero a); [injection H as <-; exact B|]. destruct (d_is_zero b); [injection H as <-; exact A|].
  destruct (reduce _ _) as [[m s]|] eqn:E; [|discriminate]. injection H as <-. apply reduce_from_wf in E as (_ & _ & L); [|apply Z.abs_nonneg]. cbn [d_make d_s]. lia.
Qed.
Lemma bal_add_scale k b a : forall b', bal_add b a = Ok b' -> Forall (fun x => (d_s (a_q x) <= k)%nat) b -> (d_s (a_q a) <= k)%nat ->
  Forall (fun x => (d_s (a_q x) <= k)%nat) b'.
Proof.
  induction b as [|x b IH]; intros b' H F A; cbn [bal_add] in H.
  - injection H as <-. auto.
  - inversion F; subst. destruct (comm_eqb (a_c x) (a_c a)); inv_bind H; injection H as <-.
    + constructor; [|assumption]. unfold amt_add in EQ. destruct (comm_eqb _ _); [|discriminate]. destruct (d_is_zero _); [injection EQ as <-; assumption|].
      inv_bind EQ. injection EQ as <-. cbn [a_q]. eapply d_add_scale; eassumption.
    + constructor; [assumption|]. eapply IH; eauto.
Qed.
Lemma fold_bal_scale k l : forall b b', fold_outcome bal_add l b = Ok b' -> Forall (fun x => (d_s (a_q x) <= k)%nat) b ->
  Forall (fun x => (d_s (a_q x) <= k)%nat) l -> Forall (fun x => (d_s (a_q x) <= k)%nat) b'.
Proof.
  induction l as [|a l IH]; intros b b' H F G; cbn [fold_outcome] in H; [injection H as <-; exact F|]. inversion G; subst. inv_bind H.
  eapply IH; [exact H| |assumption]. eapply bal_add_scale; eassumption.
Qed.
(** Such a transaction without costs is accepted. *)
Lemma elided_accepted date pool posts l1 p l2 c :
  one_elided posts l1 p l2 -> Forall (fun p => po_cost p = None) posts ->
  fits_amts (worths posts) -> only_in c (worths posts) -> (2 <= length posts)%nat ->
  exists a, finalize_posts date pool posts
            = Ok (pool, l1 ++ mkPost (po_account p) (Some a) None (po_note p) :: l2)
    /\ a_c a = c /\ wf_amt a /\ aunits a = - Z.abs (total c (worths posts))
    /\ forall k, Forall (fun x => (d_s (a_q x) <= k)%nat) (worths posts) -> (d_s (a_q a) <= k)%nat.
Proof.
  intros E NC F O L.
  destruct (bal_of_list (worths posts)) as (b & Eb & I); [apply F|intros d n; apply fits_amts_prefix, F|].
  assert (X : exists x, b = [x] /\ a_c x = c).
  { destruct E as (-> & V & C1 & C2). destruct (filled_worths l1 p l2 (mkAmt d_zero None) V) as [_ W].
    destruct (worths (l1 ++ p :: l2)) as [|w ws] eqn:Ew.
    - exfalso. clear Ew. symmetry in W. rename W into Ew. destruct l1 as [|q l1].
      + destruct l2 as [|q l2]; [cbn in L; lia|]. inversion C2 as [|? ? Cq _]; subst. cbn [app] in Ew. change (worths []) with (@nil amount) in Ew. cbn [app] in Ew. rewrite worths_cons in Ew.
        destruct (worth q); [discriminate Ew|congruence].
      + inversion C1 as [|? ? Cq _]; subst. rewrite worths_cons in Ew. destruct (worth q); [discriminate Ew|congruence].
    - destruct I as [Hc _]. cbn [map] in Hc. inversion O as [|? ? Ow Os]; subst.
      assert (N : filter (fun d => if comm_dec d (a_c w) then false else true) (firsts (map a_c ws)) = []).
      { destruct (filter _ _) as [|d ds] eqn:Ef; [reflexivity|]. exfalso.
        assert (Hd : In d (d :: ds)) by (left; reflexivity). rewrite <- Ef in Hd. apply filter_In in Hd as [Hd Hn].
        apply (proj1 (firsts_in d _)) in Hd. apply in_map_iff in Hd as (y & <- & Hy). rewrite Forall_forall in Os.
        rewrite (Os y Hy) in Hn. destruct (comm_dec (a_c w) (a_c w)); congruence. }
      cbn [firsts] in Hc. rewrite N in Hc. destruct b as [|x [|? ?]]; try discriminate. exists x. split; [reflexivity|].
      cbn in Hc. congruence. }
  destruct X as (x & -> & Cx). destruct I as [Hc Hv]. destruct (Hv x (or_introl eq_refl)) as [Wx Ux].
  destruct (amt_inverse_neg_abs x Wx) as [Ci Ui].
  exists (amt_inverse x). split; [|split; [congruence|split; [apply wf_amt_inverse, Wx|split; [rewrite Ui, Ux, Cx; reflexivity|]]]].
  2: { intros k K. pose proof (fold_bal_scale k _ _ _ Eb (Forall_nil _) K) as S. inversion S; subst. unfold amt_inverse. cbn [a_q]. destruct (d_is_sign_positive (a_q x)); cbn [d_set_neg d_s]; assumption. }
  destruct E as (-> & V & C1 & C2). unfold finalize_posts. rewrite sum_posts_elided by assumption. rewrite Eb. cbn [bind].
  destruct (Nat.eqb_spec (length (l1 ++ p :: l2)) 1); [lia|]. rewrite price_loop_plain by exact NC. cbn [bind].
  cbn [Nat.add]. rewrite (update_nth_mid (fun p => set_amount p (amt_inverse x))). unfold set_amount. repeat f_equal.
  apply Forall_app in NC as [_ NC]. inversion NC; subst. assumption.
Qed.

(** ** C11 *)
Lemma is_zero_false_units a : wf_amt a -> amt_is_zero a = false <-> aunits a <> 0.
Proof.
  intros W. pose proof (d_is_zero_units (a_q a) W) as Z0. unfold amt_is_zero, aunits.
  destruct (d_is_zero (a_q a)); [|split; [|reflexivity]].
  - split; [discriminate|]. intros X. exfalso. apply X, Z0. reflexivity.
  - intros _ X. apply Z0 in X. discriminate.
Qed.
Lemma two_unique posts x y x' y' :
  two_commodities posts x y -> two_commodities posts x' y' -> x' = x /\ y' = y.
Proof.
  intros (N & I & _ & _ & top & T & C) (N' & I' & _ & _ & top' & T' & C').
  rewrite (first_amount_det _ _ _ T' T) in *. clear T T' top'.
  assert (S : x' = x /\ y' = y \/ x' = y /\ y' = x).
  { pose proof (proj1 (I x') (proj2 (I' x') (or_introl eq_refl))) as A.
    pose proof (proj1 (I y') (proj2 (I' y') (or_intror eq_refl))) as B.
    destruct A as [->| ->], B as [->| ->]; auto; congruence. }
  destruct S as [S|[-> ->]]; [exact S|]. exfalso.
  destruct C as [C|[C [r C1]]], C' as [C'|[C' [r' C1']]]; try congruence.
Qed.

Lemma two_of_balance posts x0 y0 top x y :
  is_balance_of [x0; y0] (worths posts) -> amt_is_zero x0 = false -> amt_is_zero y0 = false ->
  first_amount posts top ->
  (x = x0 /\ y = y0 /\ a_c x0 = a_c top \/ x = y0 /\ y = x0 /\ a_c x0 <> a_c top) ->
  two_commodities posts (a_c x) (a_c y)
  /\ wf_amt x /\ wf_amt y
  /\ aunits x = total (a_c x) (worths posts) /\ aunits y = total (a_c y) (worths posts).
Proof.
  intros B Zx Zy T C. pose proof (bal_nodup _ _ B) as ND. destruct B as [Hc Hv].
  destruct (Hv x0 (or_introl eq_refl)) as [Wx Ux]. destruct (Hv y0 (or_intror (or_introl eq_refl))) as [Wy Uy].
  apply is_zero_false_units in Zx; [|exact Wx]. apply is_zero_false_units in Zy; [|exact Wy].
  cbn [map] in *. inversion ND as [|? ? Nx _]; subst.
  assert (N : a_c x0 <> a_c y0) by (intros E; apply Nx; left; auto).
  assert (I : forall c, In c (map a_c (worths posts)) <-> c = a_c x0 \/ c = a_c y0).
  { intros c. rewrite <- firsts_in, <- Hc. cbn. intuition congruence. }
  destruct C as [(-> & -> & E)|(-> & -> & E)].
  - split; [|repeat split; try apply Wx; try apply Wy; auto]. split; [exact N|]. split; [exact I|]. rewrite <- Ux, <- Uy.
    split; [exact Zx|]. split; [exact Zy|]. exists top. split; [exact T|]. left. congruence.
  - split; [|repeat split; try apply Wx; try apply Wy; auto]. split; [congruence|]. split; [intros c; rewrite I; tauto|].
    rewrite <- Ux, <- Uy. split; [exact Zy|]. split; [exact Zx|]. exists top. split; [exact T|]. right.
    split; [congruence|]. exists [a_c y0]. congruence.
Qed.

(** The postings of a transaction without an elided amount. *)
Lemma complete_cases date pool posts pool' posts' :
  complete posts -> Forall wf_post posts -> fits_amts (worths posts) ->
  finalize_posts date pool posts = Ok (pool', posts') ->
  (posts' = posts /\ forall x y, ~ two_commodities posts x y)
  \/ exists x y q, two_commodities posts x y
      /\ rounded (total y (worths posts) * unit1) (total x (worths posts)) q
      /\ Forall2 (fun p p' => exists a, po_amount p = Some a
           /\ (a_c a <> x -> p' = p)
           /\ (a_c a = x -> exists k, p' = mkPost (po_account p) (Some a) (Some k) (po_note p)
                /\ a_c k = y /\ rounded (Z.abs (units q) * aunits a) unit1 (a_q k))) posts posts'.
Proof.
  intros C Wp F H. pose proof (finalize_complete _ _ _ _ _ H) as [_ Am].
  apply finalize_inv in H as (_ & bal & Hb & [(_ & b1 & H & P)|(l1 & p & l2 & b & E & _)]).
  2:{ exfalso. destruct E as (-> & V & _). unfold complete in C. apply Forall_app in C as [_ C]. inversion C; congruence. }
  apply worths_balance in Hb; [|exact F].
  apply infer_costs_inv in H as [(-> & _ & H)|(x & y & x0 & y0 & top & r & -> & Zx & Zy & T & Cc & D & H)].
  - left. split; [reflexivity|]. intros x y (N & I & Nx & Ny & top & T & _).
    pose proof (bal_nodup _ _ Hb) as ND.
    assert (I' : forall c, In c (map a_c bal) <-> c = x \/ c = y).
    { intros c. destruct Hb as [-> _]. rewrite firsts_in. apply I. }
    assert (X : exists x0 y0, bal = [x0; y0]).
    { destruct bal as [|u [|v [|w bal]]].
      - exfalso. apply (proj2 (I' x)). auto.
      - exfalso. assert (A := proj2 (I' x) (or_introl eq_refl)). assert (B := proj2 (I' y) (or_intror eq_refl)).
        cbn in A, B. destruct A as [A|[]], B as [B|[]]. congruence.
      - eauto.
      - exfalso. cbn in ND. inversion ND as [|? ? N1 ND1]; subst. inversion ND1 as [|? ? N2 ND2]; subst.
        assert (A1 := proj1 (I' (a_c u)) ltac:(cbn; auto)). assert (A2 := proj1 (I' (a_c v)) ltac:(cbn; auto)).
        assert (A3 := proj1 (I' (a_c w)) ltac:(cbn; auto)). cbn in N1, N2.
        destruct A1 as [A1|A1], A2 as [A2|A2], A3 as [A3|A3]; try (apply N1; left; congruence);
          try (apply N1; right; left; congruence); apply N2; left; congruence. }
    destruct X as (x0 & y0 & ->). destruct Hb as [Hc Hv].
    assert (NZ : forall z, In z [x0; y0] -> amt_is_zero z = false).
    { intros z Hz. destruct (Hv z Hz) as [Wz Uz]. apply is_zero_false_units; [exact Wz|]. rewrite Uz.
      destruct (proj1 (I' (a_c z)) (in_map a_c _ _ Hz)) as [->| ->]; assumption. }
    specialize (H x0 y0 eq_refl (NZ x0 (or_introl eq_refl)) (NZ y0 (or_intror (or_introl eq_refl)))).
    destruct T as (l1 & p & l2 & -> & A & _). apply Forall_app in H as [_ H]. inversion H; congruence.
  - right. destruct (two_of_balance _ _ _ _ _ _ Hb Zx Zy T Cc) as (TC & Wx & Wy & Ux & Uy).
    unfold amt_div in D. inv_bind D. injection D as <-.
    apply d_div_rounded in EQ as RQ; [|exact Wy|exact Wx]. destruct RQ as [Nx RQ].
    exists (a_c x), (a_c y), v. split; [exact TC|]. split.
    + rewrite <- Ux, <- Uy. exact RQ.
    + assert (Wv : wf_dec v) by apply RQ.
      clear -H Am Wp Wv. revert Wp Am. induction H as [|p p' l l' (a & A & H1 & H2) _ IH]; intros Wp Am; constructor.
      * exists a. split; [exact A|]. split; [exact H1|]. intros E. destruct (H2 E) as (k & K & ->).
        exists k. split; [unfold set_cost; rewrite A; reflexivity|].
        inversion Am as [|? ? (a' & A' & Nc) _]; subst. cbn in A', Nc. rewrite A in A'. injection A' as <-.
        specialize (Nc k eq_refl). pose proof (amt_mul_wf _ _ _ K) as [_ Ck]. cbn [amt_abs a_c] in Ck.
        split.
        { rewrite Ck. destruct (a_c y); [reflexivity|]. cbn [comm_or] in *. exfalso. apply Nc. rewrite Ck, E. destruct (a_c x); reflexivity. }
        unfold amt_mul in K. inv_bind K. injection K as <-. cbn [a_q].
        inversion Wp as [|? ? [Wa _] _]; subst. apply d_mul_rounded in EQ; [|exact Wv|exact (Wa a A)].
        unfold rounded_product in EQ. cbn [amt_abs a_q] in EQ.
        destruct (set_pos_units v Wv) as [Uv _]. rewrite Uv in EQ. exact EQ.
      * inversion Wp; inversion Am; subst. apply IH; assumption.
Qed.

Lemma implied_costs date pool posts pool' posts' x y :
  complete posts -> Forall wf_post posts -> fits_amts (worths posts) -> two_commodities posts x y ->
  finalize_posts date pool posts = Ok (pool', posts') ->
  exists q, rounded (total y (worths posts) * unit1) (total x (worths posts)) q
    /\ Forall2 (fun p p' => exists a, po_amount p = Some a
         /\ (a_c a <> x -> p' = p)
         /\ (a_c a = x -> exists k, p' = mkPost (po_account p) (Some a) (Some k) (po_note p)
              /\ a_c k = y /\ rounded (Z.abs (units q) * aunits a) unit1 (a_q k))) posts posts'.
Proof.
  intros C W F TC H. destruct (complete_cases _ _ _ _ _ C W F H) as [[_ N]|(x' & y' & q & TC' & R & G)].
  - exfalso. exact (N _ _ TC).
  - destruct (two_unique _ _ _ _ _ TC TC') as [-> ->]. exists q. auto.
Qed.

(** ** C07 *)
Lemma written_kept date pool posts pool' posts' :
  complete posts -> Forall wf_post posts -> fits_amts (worths posts) ->
  (forall x y, ~ two_commodities posts x y) ->
  finalize_posts date pool posts = Ok (pool', posts') -> posts' = posts.
Proof.
  intros C W F N H. destruct (complete_cases _ _ _ _ _ C W F H) as [[E _]|(x & y & q & TC & _)]; [exact E|].
  exfalso. exact (N _ _ TC).
Qed.

Lemma unit1_pos : 0 < unit1. Proof. reflexivity. Qed.

Lemma sign_case R X Y U : X <> 0 -> Y <> 0 -> R * Z.abs X = Z.abs Y * U ->
  (X * Y < 0 -> R * X = - (Y * U)) /\ (0 <= X * Y -> R * X = Y * U).
Proof.
  intros Nx Ny H. destruct (Z.lt_trichotomy X 0) as [A|[A|A]]; [|contradiction|];
    destruct (Z.lt_trichotomy Y 0) as [B|[B|B]]; try contradiction; split; intros S;
    try (exfalso; nia);
    rewrite ?(Z.abs_neq X), ?(Z.abs_eq X), ?(Z.abs_neq Y), ?(Z.abs_eq Y) in H by lia; lia.
Qed.

Lemma implied_balances date pool posts pool' posts' x y rate :
  Forall (fun p => po_cost p = None) posts ->
  complete posts -> Forall wf_post posts -> fits_amts (worths posts) ->
  two_commodities posts x y -> exact_costs posts x y rate ->
  finalize_posts date pool posts = Ok (pool', posts') ->
  (balanced posts' <-> total x (worths posts) * total y (worths posts) < 0).
Proof.
  intros NC C W F TC (Wr & Pr & Er & Ec) H. pose proof (finalize_complete _ _ _ _ _ H) as [_ Am].
  destruct (implied_costs _ _ _ _ _ _ _ C W F TC H) as (q & R & G).
  destruct TC as (N & I & Nx & Ny & _).
  set (X := total x (worths posts)) in *. set (Y := total y (worths posts)) in *.
  (* the rate that was computed is the exact one *)
  assert (Uq : Z.abs (units q) = units rate).
  { set (d := d_make (if X * Y <? 0 then true else false) (d_m rate) (d_s rate)).
    assert (Wd : wf_dec d) by (destruct Wr; split; assumption).
    assert (Ud : units d = if X * Y <? 0 then - units rate else units rate).
    { unfold d. rewrite units_eq, d_signed_make by apply Wr. cbn [d_make d_s].
      assert (units rate = d_m rate * p10 (28 - d_s rate)) as ->.
      { rewrite units_eq. rewrite units_eq in Pr. pose proof (p10_pos (28 - d_s rate)). destruct Wr as [Wm _].
        unfold d_signed in *. destruct (d_neg rate); [|reflexivity]. assert (d_m rate = 0) by nia. lia. }
      change (d_s (d_make (if X * Y <? 0 then true else false) (d_m rate) (d_s rate))) with (d_s rate).
      destruct (X * Y <? 0); lia. }
    assert (Ed : units d * X = Y * unit1).
    { destruct (sign_case _ _ _ _ Nx Ny Er) as [S1 S2]. rewrite Ud. destruct (Z.ltb_spec (X * Y) 0) as [S|S].
      - rewrite Z.mul_opp_l, S1 by exact S. ring.
      - apply S2, S. }
    pose proof (rounded_exact _ _ q d Nx R Wd Ed) as Eu. rewrite Eu, Ud. destruct (X * Y <? 0); lia. }
  (* the sums afterwards *)
  assert (S : forall c, unit1 * total c (worths posts')
     = if comm_dec c x then 0 else if comm_dec c y then unit1 * Y + units rate * X else unit1 * total c (worths posts)).
  { assert (S' : forall c, unit1 * total c (worths posts')
       = (if comm_dec c x then 0 else unit1 * total c (worths posts)) + (if comm_dec c y then units rate * X else 0)).
    { intros c. unfold X. clear -G NC Ec Uq N. pose proof unit1_pos as U1.
      induction G as [|p p' l l' (a & A & H1 & H2) _ IH].
      - rewrite !total_nil. destruct (comm_dec c x), (comm_dec c y); lia.
      - inversion NC as [|? ? Cp NC']; subst. inversion Ec as [|? ? Ep Ec']; subst. specialize (IH NC' Ec').
        assert (Wp : worth p = Some a) by (unfold worth; rewrite Cp; exact A).
        rewrite !worths_cons, Wp. cbn [app]. rewrite !total_cons.
        destruct (comm_dec (a_c a) x) as [E|E].
        + destruct (H2 E) as (k & -> & Ck & Rk). cbn [worth po_cost]. cbn [app]. rewrite total_cons, Ck.
          destruct (Ep a A E) as (d & Wd & Ed).
          assert (Uk : aunits k = units d).
          { eapply rounded_exact; [|exact Rk|exact Wd|]; [lia|]. rewrite Uq. exact Ed. }
          rewrite Uk, E.
          generalize dependent unit1. intros U1 _ IH0 U1p Ed0.
          destruct (comm_dec x c); destruct (comm_dec y c); destruct (comm_dec c x); destruct (comm_dec c y); try congruence; nia.
        + rewrite (H1 E). rewrite Wp. cbn [app]. rewrite total_cons.
          generalize dependent unit1. intros U1 _ IH0 U1p.
          destruct (comm_dec (a_c a) c); destruct (comm_dec c x); destruct (comm_dec c y); try congruence; nia. }
    intros c. rewrite S'. destruct (comm_dec c x) ; destruct (comm_dec c y) as [Ey|]; try congruence; try (unfold Y; rewrite Ey); lia. }
  pose proof unit1_pos as U1. clear R Uq Ec.
  split.
  - intros [_ B]. specialize (B y). unfold balanced_in in B. specialize (S y). rewrite B in S.
    destruct (comm_dec y x); [congruence|]. destruct (comm_dec y y); [|congruence].
    destruct (sign_case _ _ _ _ Nx Ny Er) as [S1 S2]. destruct (Z_lt_le_dec (X * Y) 0) as [|L]; [assumption|exfalso].
    rewrite (S2 L) in S. clear -S U1 Ny. clearbody Y. generalize dependent unit1. intros U U1 S. assert (U * Y = 0) by lia. nia.
  - intros Sg. split.
    + eapply Forall_impl; [|exact Am]. intros p (a0 & -> & _). discriminate.
    + intros c. unfold balanced_in. specialize (S c).
      destruct (comm_dec c x); [clear -S U1; generalize dependent unit1; intros; nia|]. destruct (comm_dec c y).
      * destruct (sign_case _ _ _ _ Nx Ny Er) as [S1 S2]. rewrite (S1 Sg) in S.
        clear -S U1. clearbody Y. generalize dependent unit1. intros U U1 S. assert (U * total c (worths posts') = 0) by lia. nia.
      * rewrite (total_absent c (worths posts)) in S; [clear -S U1; generalize dependent unit1; intros; nia|].
        intros Hi. apply I in Hi. destruct Hi; contradiction.
Qed.

(** ** C09 *)
Lemma cost_kept date pool posts pool' posts' :
  Forall wf_post posts -> fits_amts (worths posts) ->
  finalize_posts date pool posts = Ok (pool', posts') ->
  Forall2 (fun p p' => forall k, po_cost p = Some k ->
             po_cost p' = Some k
             \/ complete posts /\ exists x y a, two_commodities posts x y /\ po_amount p = Some a /\ a_c a = x) posts posts'.
Proof.
  intros W F H. assert (H0 := H).
  apply finalize_inv in H as (_ & bal & Hb & [(C & _)|(l1 & p & l2 & b & E & _ & _ & ->)]).
  - destruct (complete_cases _ _ _ _ _ C W F H0) as [[-> _]|(x & y & q & TC & _ & G)].
    + apply Forall2_refl. auto.
    + eapply Forall2_impl; [|exact G]. intros p p' (a & A & H1 & H2) k K.
      destruct (comm_dec (a_c a) x) as [E|E]; [right|left; rewrite (H1 E); exact K]. split; [exact C|]. eauto 8.
  - destruct E as (-> & _). apply Forall2_app; [apply Forall2_refl; auto|]. constructor; [auto|apply Forall2_refl; auto].
Qed.

(** ** C12 *)
Lemma record_all_find rs : forall p p', record_all p rs = Ok p' -> forall s, pool_find p' s = pool_find p s.
Proof.
  induction rs as [|[[[s0 t0] w0] v0] rs IH] using rev_ind; intros p p' H s.
  - injection H as <-. reflexivity.
  - rewrite record_all_snoc in H. inv_bind H. rewrite <- (IH _ _ EQ).
    apply add_price_inv in H as (a & b & cs & ct & _ & _ & _ & _ & _ & ->). reflexivity.
Qed.

Lemma record_all_cons p s t w v rs :
  record_all p ((s, t, w, v) :: rs)
  = let* p1 := pool_add_price p (Some s) w (mkAmt v (Some t)) in record_all p1 rs.
Proof. reflexivity. Qed.

Lemma price_loop_records d posts : forall pool pool' posts',
  wf_pool pool -> valid_date d -> Forall wf_post posts ->
  price_loop (Some d) pool posts = Ok (pool', posts') ->
  exists rs, price_records (mkDT d midnight) posts rs /\ valid_records rs /\ record_all pool rs = Ok pool'.
Proof.
  induction posts as [|p posts IH]; intros pool pool' posts' W Vd Wp H; cbn [price_loop] in H.
  - injection H as <- <-. exists []. repeat split; constructor.
  - inversion Wp as [|? ? [Wa Wc] Wp']; subst. inv_bind H. destruct v as [pool1 p1]. inv_bind H. destruct v as [pool2 ps].
    injection H as <- <-. destruct (po_cost p) as [c|] eqn:C.
    + destruct (po_amount p) as [a|] eqn:A; [|discriminate].
      destruct (comm_eqb_spec (a_c a) (a_c c)) as [|N]; [discriminate|]. cbn [unwrap bind] in EQ.
      inv_bind EQ. destruct v as [bd np]. inv_bind EQ. injection EQ as -> <-.
      specialize (Wa a eq_refl). specialize (Wc c eq_refl).
      assert (Vm : valid_dt (mkDT d midnight)) by (split; [exact Vd|apply midnight_valid]).
      destruct (exchange_unit _ _ _ _ _ _ _ W Wa Wc EQ1) as (u & U & Hn & Hs).
      destruct np as [pr|].
      * destruct (Hs pr eq_refl) as (E1 & E2 & E3 & E4 & E5). unfold pool_add_price_struct in EQ2. rewrite E1, E2 in EQ2.
        assert (W1 : wf_pool pool1) by exact (wf_add_price _ _ _ _ _ W Vm E5 EQ2).
        destruct (IH _ _ _ W1 Vd Wp' EQ0) as (rs & R & Vr & Ra).
        assert (EQ3 := EQ2). apply add_price_inv in EQ3 as (s & t & cs & ct & Es & Et & _ & _ & _ & _).
        destruct pr as [pc pw [pq pcc]]. cbn in *. subst pc pw pcc. rewrite Es in *.
        exists ((s, t, mkDT d midnight, pq) :: rs). split; [|split].
        -- unfold aunits in E4. cbn in E4. eapply pr_priced; eauto.
           ++ rewrite E4. exact U.
           ++ rewrite E4. intros ->. assert (Some (mkPrice (Some s) (mkDT d midnight) (mkAmt pq (a_c c))) = None) as X
                by (apply Hn; left; reflexivity). discriminate.
        -- constructor; [split; assumption|exact Vr].
        -- rewrite record_all_cons. rewrite <- Et. rewrite EQ2. exact Ra.
      * injection EQ2 as <-. destruct (IH _ _ _ W Vd Wp' EQ0) as (rs & R & Vr & Ra). exists rs.
        split; [|split; [exact Vr|exact Ra]]. eapply pr_free; eauto.
        destruct (proj1 Hn eq_refl) as [->|X]; [exact U|contradiction].
    + injection EQ as -> <-. destruct (IH _ _ _ W Vd Wp' EQ0) as (rs & R & Vr & Ra). exists rs.
      split; [|split; [exact Vr|exact Ra]]. apply pr_plain; assumption.
Qed.

Lemma price_records_fill w l1 p a l2 rs :
  worth p = None -> price_records w (l1 ++ p :: l2) rs ->
  price_records w (l1 ++ set_amount p a :: l2) rs.
Proof.
  intros V. revert rs. induction l1 as [|q l1 IH]; intros rs H; cbn [app] in *.
  - assert (Cp : po_cost p = None) by (unfold worth in V; destruct (po_cost p), (po_amount p); congruence).
    inversion H; subst; try congruence. apply pr_plain; [exact Cp|assumption].
  - inversion H; subst; [apply pr_plain|eapply pr_free|eapply pr_priced]; eauto.
Qed.

(** ** C08 *)
Lemma nth_update_same {A} (f : A -> A) : forall (l : list A) i x,
  nth_error l i = Some x -> nth_error (update_nth i f l) i = Some (f x).
Proof. induction l as [|y l IH]; intros [|i] x H; cbn in *; try discriminate; [congruence|auto]. Qed.
Lemma nth_update_other {A} (f : A -> A) : forall (l : list A) i k,
  k <> i -> nth_error (update_nth i f l) k = nth_error l k.
Proof. induction l as [|y l IH]; intros [|i] [|k] H; cbn in *; try reflexivity; try congruence. apply IH. congruence. Qed.

Lemma finalize_keeps j xi j' :
  finalize j xi = Ok j' ->
  j_master j' = j_master j
  /\ (forall k, k <> xi -> nth_error (j_xacts j') k = nth_error (j_xacts j) k)
  /\ exists x x', nth_error (j_xacts j) xi = Some x /\ nth_error (j_xacts j') xi = Some x'
      /\ x_date x' = x_date x /\ x_aux_date x' = x_aux_date x /\ x_payee x' = x_payee x /\ x_note x' = x_note x
      /\ Forall2 same_posting (x_posts x) (x_posts x').
Proof.
  unfold finalize. destruct (nth_error (j_xacts j) xi) as [x|] eqn:E; [|discriminate]. intros H. inv_bind H.
  destruct v as [pool posts]. injection H as <-. cbn [j_master j_xacts]. split; [reflexivity|].
  split; [intros k N; apply nth_update_other, N|].
  exists x, (set_posts x posts). split; [reflexivity|]. split; [apply (nth_update_same (fun x => set_posts x posts) _ _ _ E)|].
  repeat split. exact (finalize_frame _ _ _ _ _ EQ).
Qed.
