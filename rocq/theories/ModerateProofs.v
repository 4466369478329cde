(** Files with numbers of moderate size are read without overflow. *)
From Coq Require Import String List NArith ZArith Bool Lia.
From Verif Require Import Base Decimal Dates Amount Balance Scanner History Pool Account Journal Xact Parser.
From Verif Require Import SpecText SpecDecimal SpecAmount SpecReading SpecLine SpecValue SpecRefused SpecModerate.
From Verif Require Import BaseFacts DecimalFacts BalanceFacts ArithProofs DefinedFacts DefinedProofs ValueProofs LineReadProofs LiteralProofs ModerateFacts.
Import ListNotations.
Local Open Scope Z_scope.

Definition calm {A} (o : outcome A) : Prop := o <> Panic PArith.
Lemma calm_bind {A B} (o : outcome A) (f : A -> outcome B) : calm o -> (forall v, o = Ok v -> calm (f v)) -> calm (let* v := o in f v).
Proof. unfold calm. destruct o as [v|q|]; cbn [bind]; intros C H; [apply H; reflexivity|congruence|discriminate]. Qed.
Lemma calm_ok {A} (v : A) : calm (Ok v). Proof. discriminate. Qed.
Lemma calm_unwrap {A} (o : option A) : calm (unwrap o). Proof. destruct o; discriminate. Qed.

Section Moderate.
  Variables (B : Z) (k N : nat).
  Hypothesis Bounds : moderate_bounds B k N.
  Let n := Z.of_nat N.
  Let D := p10 (2 * k).
  Let W1 := B * p10 k.
  Let W2 := B * B * D.
  Let M := 2 ^ 96.
  Lemma b_pos : 1 <= B. Proof. apply Bounds. Qed.
  Lemma k_le : (k <= 14)%nat. Proof. apply Bounds. Qed.
  Lemma n_pos : 1 <= n. Proof. unfold n. destruct Bounds as (_ & _ & H & _). lia. Qed.
  Lemma d_pos : 1 <= D. Proof. apply p10_ge1. Qed.
  Lemma big : 8 * (n * n * (B * B * B) * D) <= M. Proof. apply Bounds. Qed.
  Lemma d_square : D = p10 k * p10 k. Proof. unfold D. rewrite <- p10_add. f_equal. lia. Qed.
  Lemma w1_sq : W1 * W1 = W2. Proof. unfold W1, W2. rewrite d_square. ring. Qed.
  Lemma nb : 1 <= n * n * (B * B * B) * D /\ n * (B * B) * D <= n * n * (B * B * B) * D /\ D <= n * (B * B) * D.
  Proof.
    pose proof b_pos. pose proof n_pos. pose proof d_pos. assert (1 <= B * B) by nia. assert (1 <= n * (B * B)) by nia. assert (1 <= n * B) by nia.
    replace (n * n * (B * B * B) * D) with ((n * (B * B) * D) * (n * B)) by ring. assert (D <= n * (B * B) * D) by nia. repeat split; nia.
  Qed.
  Lemma nw2 : n * W2 < M.
  Proof. pose proof big. pose proof nb. unfold W2. replace (n * (B * B * D)) with (n * (B * B) * D) by ring. lia. Qed.
  Lemma w2_pos : 1 <= W2. Proof. pose proof b_pos. pose proof d_pos. unfold W2. assert (1 <= B * B) by nia. nia. Qed.
  Lemma w2_lt : W2 < M. Proof. pose proof nw2. pose proof w2_pos. pose proof n_pos. nia. Qed.
  Lemma w1_le : 1 <= W1 <= W2. Proof. pose proof b_pos. pose proof (p10_ge1 k). rewrite <- w1_sq. unfold W1. nia. Qed.
  Lemma k2_le : (2 * k <= 28)%nat. Proof. pose proof k_le. lia. Qed.
  Lemma unit1_d : unit1 = D * p10 (28 - 2 * k).
  Proof. rewrite unit1_p10. unfold D. rewrite <- p10_add. f_equal. pose proof k2_le. lia. Qed.

  Definition amount_small (p : post) : Prop := forall a, po_amount p = Some a -> small k W1 (a_q a).
  Definition cost_small (p : post) : Prop := forall c, po_cost p = Some c -> small (2 * k) W2 (a_q c).
  Definition lots_small (p : pool) : Prop := forall s an pr, lookup s (p_ann p) = Some an -> an_price an = Some pr -> small k W1 (a_q pr).

  Lemma written_small d : small k W1 d -> small (2 * k) W2 d.
  Proof.
    intros S. apply (small_more k (2 * k)) in S; [|lia]. apply (small_le _ (W1 * p10 (2 * k - k))); [|exact S]. replace (2 * k - k)%nat with k by lia. rewrite <- w1_sq.
    apply Z.mul_le_mono_nonneg_l; [pose proof w1_le; lia|]. unfold W1. pose proof b_pos. pose proof (p10_pos k). nia.
  Qed.
  Lemma written_bounded d : small k W1 d -> bounded B d.
  Proof. intros S. apply (small_bounded k W1); [pose proof k_le; lia|pose proof w1_le; pose proof w2_lt; unfold M in *; lia|unfold W1; lia|exact S]. Qed.
  Lemma worth_small p a : amount_small p -> cost_small p -> post_value p = Some a -> small (2 * k) W2 (a_q a).
  Proof. intros A C H. unfold post_value in H. destruct (po_cost p) as [c|] eqn:E; [injection H as <-; apply C, E|apply written_small, A, H]. Qed.

  Lemma sum_small ps : forall i bal np c, Forall amount_small ps -> Forall cost_small ps -> (c + length ps <= N)%nat -> Forall (fun e => small (2 * k) (Z.of_nat c * W2) (a_q e)) bal ->
    sum_posts ps i bal np = Panic PTodo \/ exists bal' np', sum_posts ps i bal np = Ok (bal', np') /\ Forall (fun e => small (2 * k) (n * W2) (a_q e)) bal'.
  Proof.
    induction ps as [|p ps IH]; intros i bal np c A C L F; cbn [sum_posts].
    - right. exists bal, np. split; [reflexivity|]. eapply Forall_impl; [|exact F]. intros e. apply small_le. unfold n. pose proof w2_pos. cbn [length] in L. nia.
    - inversion A as [|? ? A1 A2]; inversion C as [|? ? C1 C2]; subst. cbn [length] in L. destruct (post_value p) as [a|] eqn:E.
      + destruct (bal_add_small (2 * k) (Z.of_nat c * W2) W2 bal a) as (b' & -> & F').
        * apply k2_le.
        * pose proof w2_pos. nia.
        * pose proof w2_pos. lia.
        * pose proof nw2. pose proof w2_pos. assert (Z.of_nat c + 1 <= n) by (unfold n; lia). unfold M in *. nia.
        * exact F.
        * eapply worth_small; eassumption.
        * cbn [bind]. apply (IH _ _ _ (S c) A2 C2); [lia|]. eapply Forall_impl; [|exact F']. intros e. apply small_le. rewrite Nat2Z.inj_succ. lia.
      + destruct np as [i'|]; [left; reflexivity|]. apply (IH _ _ _ c A2 C2); [lia|exact F].
  Qed.

  Definition U : Z := n * (B * B) * D + 1.
  Definition Q : Z := 3 * (n * (B * B) * D).
  Definition costed (p p' : post) : Prop :=
    po_amount p' = po_amount p
    /\ (po_cost p' = po_cost p \/ exists c a, po_cost p' = Some c /\ po_amount p = Some a /\ wf_amt c /\ Z.abs (aunits c) <= U * Z.abs (aunits a) + unit1).
  Lemma cost_loop_calm c u ps : bounded U (a_q u) -> Forall amount_small ps -> forall bal v, 0 <= v -> v + Z.of_nat (length ps) * (B + U * B + 3) < M -> Forall (fun e => bounded v (a_q e)) bal ->
    calm (cost_loop c u ps bal) /\ forall ps' bal', cost_loop c u ps bal = Ok (ps', bal') -> Forall2 costed ps ps'.
  Proof.
    intros Hu. pose proof b_pos as Hb. assert (HU : 1 <= U) by (unfold U; pose proof nb; pose proof d_pos; lia). induction ps as [|p ps IH]; intros A bal v Hv L F; cbn [cost_loop].
    - split; [discriminate|]. intros ps' bal' [= <- <-]. constructor.
    - inversion A as [|? ? A1 A2]; subst. cbn [length] in L. rewrite Nat2Z.inj_succ in L. destruct (po_amount p) as [a|] eqn:Ea; cbn [unwrap bind]; [|split; discriminate].
      assert (Ba : bounded B (a_q a)) by (apply written_bounded, A1, Ea).
      assert (S : forall p' bal' v', costed p p' -> 0 <= v' -> v' + Z.of_nat (length ps) * (B + U * B + 3) < M -> Forall (fun e => bounded v' (a_q e)) bal' ->
        calm (let* (ps'', bal'') := cost_loop c u ps bal' in Ok (p' :: ps'', bal''))
        /\ forall ps' b', (let* (ps'', bal'') := cost_loop c u ps bal' in Ok (p' :: ps'', bal'')) = Ok (ps', b') -> Forall2 costed (p :: ps) ps').
      { intros p' bal' v' Cp Hv' L' F'. destruct (IH A2 bal' v' Hv' L' F') as [Cm R]. destruct (cost_loop c u ps bal') as [[ps'' b'']|q|]; cbn [bind].
        - split; [discriminate|]. intros ps' b' [= <- <-]. constructor; [exact Cp|eapply R; reflexivity].
        - split; [|discriminate]. intros [= ->]. apply Cm. reflexivity.
        - split; discriminate. }
      destruct (comm_eqb (a_c a) c).
      + assert (0 <= Z.of_nat (length ps) * (B + U * B + 3)) by nia. assert (1 <= U * B) by nia.
        destruct (bal_sub_bounded v B bal a) as (b1 & -> & F1); [lia|lia|unfold M in *; nia|exact F|exact Ba|]. cbn [bind].
        destruct (mul_bounded U B u a) as (cost & -> & Wc & Bc); [unfold M in *; nia|lia|exact Hu|exact Ba|]. cbn [bind].
        assert (Bc' : bounded (U * B + 1) (a_q cost)).
        { split; [exact Wc|]. destruct Ba as [_ Ba]. unfold aunits in Bc. pose proof unit1_pos. nia. }
        destruct (bal_add_bounded (v + B + 1) (U * B + 1) b1 cost) as (b2 & -> & F2); [lia|lia|unfold M in *; nia|exact F1|exact Bc'|]. cbn [bind].
        apply (S _ _ (v + B + 1 + (U * B + 1) + 1)); [|lia|nia|exact F2]. split; [reflexivity|]. right. exists cost, a. cbn [set_cost po_cost]. split; [reflexivity|]. split; [exact Ea|]. split; [exact Wc|exact Bc].
      + cbn [bind]. apply (S _ _ v); [split; [reflexivity|left; reflexivity]|exact Hv|nia|exact F].
  Qed.
  Lemma infer_calm ps bal : Forall amount_small ps -> (length ps <= N)%nat -> Forall (fun e => small (2 * k) (n * W2) (a_q e)) bal ->
    calm (infer_costs ps bal) /\ forall ps' bal', infer_costs ps bal = Ok (ps', bal') -> Forall2 costed ps ps'.
  Proof.
    intros A L F. assert (Id : calm (Ok (ps, bal)) /\ forall ps' bal', Ok (ps, bal) = Ok (ps', bal') -> Forall2 costed ps ps').
    { split; [discriminate|]. intros ps' bal' [= <- <-]. clear. induction ps; constructor; [split; auto|assumption]. }
    unfold infer_costs. destruct bal as [|x0 [|y0 [|z0 bal]]]; try exact Id. destruct (top_amount ps) as [top|]; [|exact Id].
    destruct (amt_is_zero x0) eqn:Zx; cbn [negb andb]; [exact Id|]. destruct (amt_is_zero y0) eqn:Zy; cbn [negb]; [exact Id|].
    inversion F as [|? ? Fx F']; inversion F' as [|? ? Fy _]; subst.
    assert (Sub : forall x y, small (2 * k) (n * W2) (a_q x) -> small (2 * k) (n * W2) (a_q y) -> amt_is_zero x = false ->
      calm (let* r := amt_div y x in cost_loop (a_c x) (amt_abs r) ps [x0; y0]) /\ forall ps' bal', (let* r := amt_div y x in cost_loop (a_c x) (amt_abs r) ps [x0; y0]) = Ok (ps', bal') -> Forall2 costed ps ps').
    { intros x y Sx Sy Zx'. pose proof nb as (X1 & X2 & X3). pose proof big as Bg. pose proof b_pos. pose proof n_pos. pose proof d_pos. pose proof k2_le.
      assert (Gx := small_grain _ _ _ k2_le Sx Zx'). assert (Uy := small_units _ _ _ k2_le Sy).
      assert (E : n * W2 = n * (B * B) * D) by (unfold W2; ring).
      destruct (div_bounded (n * (B * B) * D) y x) as (r & -> & Br).
      - eapply small_wf; [exact k2_le|exact nw2|exact Sy].
      - eapply small_wf; [exact k2_le|exact nw2|exact Sx].
      - unfold aunits. pose proof (p10_pos (28 - 2 * k)). lia.
      - lia.
      - unfold M in *. lia.
      - unfold aunits. rewrite E in Uy. pose proof (p10_pos (28 - 2 * k)). nia.
      - cbn [bind]. apply (cost_loop_calm (a_c x) (amt_abs r) ps (abs_bounded _ _ Br) A [x0; y0] (n * (B * B))); [nia| |].
        + unfold U. assert (Z.of_nat (length ps) <= n) by (unfold n; lia). set (l := Z.of_nat (length ps)) in *. assert (0 <= l) by (unfold l; lia).
          assert (l * (B + (n * (B * B) * D + 1) * B + 3) <= n * (B + (n * (B * B) * D + 1) * B + 3)) by nia.
          assert (n * (B * B) <= n * n * (B * B * B) * D) by nia.
          assert (n * B <= n * n * (B * B * B) * D) by nia. assert (n <= n * n * (B * B * B) * D) by nia.
          replace (n * (B + (n * (B * B) * D + 1) * B + 3)) with (2 * (n * B) + n * n * (B * B * B) * D + 3 * n) in * by ring. lia.
        + constructor; [|constructor; [|constructor]]; (apply (small_bounded (2 * k) (n * W2)); [lia|exact nw2|fold D; unfold W2; lia|assumption]). }
    destruct (negb (comm_eqb (a_c x0) (a_c top))); apply Sub; assumption.
  Qed.

  Definition priced (p : post) : Prop :=
    forall a c, po_amount p = Some a -> po_cost p = Some c -> wf_amt c /\ (d_is_zero (a_q a) = true \/ Z.abs (aunits c) <= Q * Z.abs (aunits a)).
  Lemma q_lt : 0 <= Q /\ Q < 2 ^ 96. Proof. pose proof big. pose proof nb. pose proof d_pos. unfold Q, M in *. lia. Qed.
  Lemma exchange_calm p a c w : lots_small p -> small k W1 (a_q a) -> wf_amt c -> (d_is_zero (a_q a) = true \/ Z.abs (aunits c) <= Q * Z.abs (aunits a)) ->
    calm (exchange p a c false w) /\ forall bd np, exchange p a c false w = Ok (bd, np) -> bd_amount bd = a.
  Proof.
    intros Lt Sa Wc H. unfold exchange. destruct (a_c a) as [sym|]; cbn [unwrap bind]; [|split; discriminate].
    destruct (deref p (Some sym)) as [c0|q|] eqn:Ed; cbn [bind]; [|unfold deref in Ed; destruct (pool_find p sym); [discriminate|injection Ed as <-; split; discriminate]|split; discriminate].
    destruct (pool_get_by_index p (c_index c0)) as [c1|q|] eqn:Eg; cbn [bind].
    2:{ split; [|discriminate]. unfold pool_get_by_index, get_commodity, unwrap, deref in Eg. destruct (nth_error _ _); cbn [bind] in Eg; [destruct (pool_find p _)|]; try discriminate; injection Eg as <-; discriminate. }
    2:{ split; discriminate. }
    assert (Wa : wf_amt a) by (eapply small_wf; [|pose proof w1_le; pose proof w2_lt; unfold M in *|exact Sa]; [pose proof k_le; lia|lia]).
    assert (P : exists u, (if false || amt_is_zero a then Ok (amt_abs c) else let* q := amt_div c a in Ok (amt_abs q)) = Ok u).
    { cbn [orb]. destruct (amt_is_zero a) eqn:Za; [eauto|]. destruct H as [H|H]; [unfold amt_is_zero in Za; congruence|].
      destruct (div_bounded Q c a) as (r & -> & _); [exact Wc|exact Wa| |apply q_lt|apply q_lt|exact H|cbn [bind]; eauto].
      pose proof (small_grain k W1 (a_q a) ltac:(pose proof k_le; lia) Sa Za). pose proof (p10_pos (28 - k)). unfold aunits. lia. }
    destruct P as [u ->]. cbn [bind].
    assert (Bs : exists v, match lookup (c_symbol c1) (p_ann p) with Some an => match an_price an with Some ap => amt_mul ap a | None => Ok amt_null end | None => Ok c end = Ok v).
    { destruct (lookup (c_symbol c1) (p_ann p)) as [an|] eqn:El; [|eauto]. destruct (an_price an) as [ap|] eqn:Ep; [|eauto]. unfold amt_mul.
      destruct (mul_small k W1 W1 (a_q ap) (a_q a)) as (r & -> & _); [apply k_le|pose proof w1_le; lia|pose proof w1_le; lia|rewrite w1_sq; apply w2_lt|eapply Lt; eassumption|exact Sa|cbn [bind]; eauto]. }
    destruct Bs as [v ->]. cbn [bind]. split; [discriminate|]. intros bd np [= <- _]. reflexivity.
  Qed.
  Lemma add_price_calm p pr : calm (pool_add_price_struct p pr) /\ forall p', pool_add_price_struct p pr = Ok p' -> p_ann p' = p_ann p.
  Proof.
    unfold pool_add_price_struct, pool_add_price. destruct (deref p (pr_commodity pr)) as [s|q|] eqn:E; cbn [bind].
    2:{ split; [|discriminate]. unfold deref in E. destruct (pr_commodity pr); [destruct (pool_find p s); [discriminate|]|]; injection E as <-; discriminate. }
    2:{ split; discriminate. }
    destruct (comm_eqb _ _); [split; discriminate|]. destruct (a_c (pr_price pr)) as [t|]; [|split; discriminate].
    destruct (deref p (Some t)) as [d|q|] eqn:E2; cbn [bind]; [split; [discriminate|intros p' [= <-]; reflexivity]| |split; discriminate].
    split; [|discriminate]. unfold deref in E2. destruct (pool_find p t); [discriminate|]. injection E2 as <-. discriminate.
  Qed.
  Lemma price_loop_calm d ps : forall pool, lots_small pool -> Forall amount_small ps -> Forall priced ps ->
    calm (price_loop d pool ps) /\ forall pool' ps', price_loop d pool ps = Ok (pool', ps') -> p_ann pool' = p_ann pool /\ map po_amount ps' = map po_amount ps.
  Proof.
    induction ps as [|p ps IH]; intros pool Lt A P; cbn [price_loop]; [split; [discriminate|intros pool' ps' [= <- <-]; auto]|].
    inversion A as [|? ? A1 A2]; inversion P as [|? ? P1 P2]; subst.
    match goal with |- calm (let* _ := ?x in _) /\ _ => set (X := x) end.
    assert (HX : calm X /\ forall pool1 p1, X = Ok (pool1, p1) -> p_ann pool1 = p_ann pool /\ po_amount p1 = po_amount p).
    { unfold X. destruct (po_cost p) as [c|] eqn:Ec; [|split; [discriminate|intros ? ? [= <- <-]; auto]]. destruct (po_amount p) as [a|] eqn:Ea; [|split; discriminate].
      destruct (comm_eqb (a_c a) (a_c c)); [split; discriminate|]. destruct d as [d|]; cbn [unwrap bind]; [|split; discriminate].
      destruct (P1 a c Ea Ec) as [Wc H]. destruct (exchange_calm pool a c (mkDT d midnight) Lt (A1 _ Ea) Wc H) as [Cx Rx].
      destruct (exchange pool a c false (mkDT d midnight)) as [[bd np]|q|]; cbn [bind]; [|split; [intros [= ->]; apply Cx; reflexivity|discriminate]|split; discriminate].
      specialize (Rx _ _ eq_refl). destruct np as [pr|].
      - destruct (add_price_calm pool pr) as [Cp Rp]. destruct (pool_add_price_struct pool pr) as [pool1|q|]; cbn [bind]; [|split; [intros [= ->]; apply Cp; reflexivity|discriminate]|split; discriminate].
        split; [discriminate|]. intros ? ? [= <- <-]. split; [apply Rp; reflexivity|]. cbn [set_amount po_amount]. congruence.
      - cbn [bind]. split; [discriminate|]. intros ? ? [= <- <-]. split; [reflexivity|]. cbn [set_amount po_amount]. congruence. }
    destruct HX as [Cx Rx]. clearbody X. destruct X as [[pool1 p1]|q|]; cbn [bind]; [|split; [intros [= ->]; apply Cx; reflexivity|discriminate]|split; discriminate].
    destruct (Rx _ _ eq_refl) as [E1 E2]. assert (Lt1 : lots_small pool1) by (unfold lots_small; rewrite E1; exact Lt). destruct (IH pool1 Lt1 A2 P2) as [Ci Ri].
    destruct (price_loop d pool1 ps) as [[pool2 ps2]|q|]; cbn [bind]; [|split; [intros [= ->]; apply Ci; reflexivity|discriminate]|split; discriminate].
    destruct (Ri _ _ eq_refl) as [E3 E4]. split; [discriminate|]. intros ? ? [= <- <-]. cbn [map]. split; congruence.
  Qed.

  Definition done_small (p : post) : Prop := forall a, po_amount p = Some a -> small (2 * k) (n * W2) (a_q a).
  Lemma written_done p : amount_small p -> done_small p.
  Proof. intros A a E. apply (small_le _ W2); [pose proof w2_pos; pose proof n_pos; nia|]. apply written_small, A, E. Qed.
  Lemma finalize_calm d pool ps : lots_small pool -> (length ps <= N)%nat -> Forall amount_small ps -> Forall cost_small ps ->
    calm (finalize_posts d pool ps) /\ forall pool' ps', finalize_posts d pool ps = Ok (pool', ps') -> p_ann pool' = p_ann pool /\ Forall done_small ps'.
  Proof.
    intros Lt L A C. unfold finalize_posts.
    destruct (sum_small ps 0 bal_new None 0 A C ltac:(lia) (Forall_nil _)) as [->|(bal & np & -> & Fb)]; cbn [bind]; [split; discriminate|].
    destruct (length ps =? 1)%nat; [split; discriminate|].
    match goal with |- calm (let* _ := ?x in _) /\ _ => set (X := x) end.
    assert (HX : calm X /\ forall ps1 b1, X = Ok (ps1, b1) -> Forall2 costed ps ps1 /\ (np = None \/ b1 = bal)).
    { unfold X. destruct np as [i|].
      - split; [discriminate|]. intros ? ? [= <- <-]. split; [|right; reflexivity]. clear. induction ps; constructor; [split; auto|assumption].
      - destruct (infer_calm ps bal A L Fb) as [Ci Ri]. split; [exact Ci|]. intros ps1 b1 E. split; [eapply Ri, E|left; reflexivity]. }
    destruct HX as [Cx Rx]. clearbody X. destruct X as [[ps1 b1]|q|]; cbn [bind]; [|split; [intros [= ->]; apply Cx; reflexivity|discriminate]|split; discriminate].
    destruct (Rx _ _ eq_refl) as [Fc Hb]. clear Rx Cx.
    assert (A1 : Forall amount_small ps1 /\ Forall priced ps1).
    { clear L Fb Hb Lt. induction Fc as [|p p1 ps ps1 [Ea Hc] Fc IH]; [split; constructor|]. inversion A as [|? ? A1 A2]; inversion C as [|? ? C1 C2]; subst. destruct (IH A2 C2) as [F1 F2].
      assert (Ap : amount_small p1) by (intros a E; apply A1; congruence). split; [constructor; assumption|constructor; [|exact F2]]. intros a c Ha Hcst.
      assert (Sa := Ap _ Ha). destruct Hc as [Hc|(c0 & a0 & E1 & E2 & Wc & Bc)].
      - assert (Sc : small (2 * k) W2 (a_q c)) by (apply C1; congruence). split; [eapply small_wf; [exact k2_le|exact w2_lt|exact Sc]|]. destruct (d_is_zero (a_q a)) eqn:Za; [left; reflexivity|right].
        assert (G := small_grain _ _ _ k2_le (written_small _ Sa) Za). assert (Uc := small_units _ _ _ k2_le Sc). unfold aunits, Q.
        pose proof n_pos. pose proof b_pos. pose proof d_pos. pose proof (p10_pos (28 - 2 * k)). assert (W2 <= 3 * (n * (B * B) * D)) by (unfold W2; nia). nia.
      - assert (c0 = c) by congruence. assert (a0 = a) by congruence. subst c0 a0. split; [exact Wc|]. destruct (d_is_zero (a_q a)) eqn:Za; [left; reflexivity|right].
        assert (G := small_grain _ _ _ k2_le (written_small _ Sa) Za). unfold aunits in *. unfold Q. rewrite unit1_d in Bc. unfold U in Bc. pose proof nb as (_ & _ & X3). pose proof d_pos. pose proof (p10_pos (28 - 2 * k)).
        set (g := p10 (28 - 2 * k)) in *. set (ua := Z.abs (units (a_q a))) in *. set (y := n * (B * B) * D) in *. assert (D * g <= D * ua) by nia. assert (D * ua <= y * ua) by nia. assert (ua <= D * ua) by nia. nia. }
    destruct A1 as [A1 P1]. destruct (price_loop_calm d ps1 pool Lt A1 P1) as [Cp Rp].
    destruct (price_loop d pool ps1) as [[pool2 ps2]|q|]; cbn [bind]; [|split; [intros [= ->]; apply Cp; reflexivity|discriminate]|split; discriminate].
    destruct (Rp _ _ eq_refl) as [E1 E2].
    assert (F2 : Forall done_small ps2).
    { clear P1 Fc Rp Cp Hb. revert ps1 A1 E2. induction ps2 as [|p ps2 IH]; intros [|p1 ps1] A1 E; try discriminate; [constructor|]. injection E as E0 E. inversion A1 as [|? ? X1 X2]; subst.
      constructor; [|eapply IH; eassumption]. apply written_done. intros a Ha. apply X1. congruence. }
    destruct np as [i|].
    - destruct Hb as [Hb|Hb]; [discriminate|]. subst b1. destruct bal as [|b [|b' bal]]; [split; discriminate| |split; discriminate]. split; [discriminate|]. intros ? ? [= <- <-]. split; [exact E1|].
      inversion Fb as [|? ? Sb _]; subst. clear E2 Fb Cp Rp. revert i. induction F2 as [|p0 qs Hp F IH]; intros [|i]; cbn [update_nth]; constructor; try assumption; [|apply IH].
      intros a [= <-]. apply inverse_small, Sb.
    - split; [discriminate|]. intros ? ? [= <- <-]. split; assumption.
  Qed.
End Moderate.
