(** When the costs that two open commodities imply can be computed. *)
From Coq Require Import List NArith ZArith Bool Lia.
From Verif Require Import Base Decimal Dates Amount Balance History Pool Account Journal Xact.
From Verif Require Import SpecDecimal SpecAmount SpecPool SpecAccount SpecXact.
From Verif Require Import BaseFacts DecimalFacts BalanceFacts ArithProofs PriceProofs XactFacts XactProofs.
Import ListNotations.
Open Scope Z_scope.

Lemma multiple_representable scale z : (scale <= 28)%nat -> (p10 (28 - scale) | z) -> Z.abs z < 2 ^ 96 * p10 (28 - scale) -> representable z.
Proof.
  intros L (k & ->) B. pose proof (p10_pos (28 - scale)) as P. rewrite Z.abs_mul, (Z.abs_eq (p10 _)) in B by lia. apply Z.mul_lt_mono_pos_r in B; [|exact P].
  exists (d_make (k <? 0) (Z.abs k) scale). split; [split; cbn [d_make d_m d_s]; [split; [apply Z.abs_nonneg|exact B]|exact L]|].
  rewrite units_eq, d_signed_make by apply Z.abs_nonneg. cbn [d_make d_s]. f_equal. destruct (Z.ltb_spec k 0); lia.
Qed.
Lemma representable_opp z : representable z -> representable (- z).
Proof.
  intros (d & W & <-). exists (mkDec (negb (d_neg d)) (d_m d) (d_s d)). split; [exact W|]. rewrite !units_eq. unfold d_signed. cbn [d_neg d_m d_s].
  destruct (d_neg d); cbn [negb]; rewrite <- Z.mul_opp_l, ?Z.opp_involutive; reflexivity.
Qed.

(** ** Changing an entry of a balance *)
Lemma holds_cons x b c : holds (x :: b) c = (if comm_dec (a_c x) c then aunits x else 0) + holds b c.
Proof. unfold holds, total, in_comm. cbn [filter]. destruct (comm_dec (a_c x) c); cbn [map sumZ fold_right]; reflexivity. Qed.
Lemma holds_none b c : ~ In c (map a_c b) -> holds b c = 0.
Proof.
  induction b as [|x b IH]; intros N; [reflexivity|]. rewrite holds_cons, IH by (intros H; apply N; right; exact H).
  destruct (comm_dec (a_c x) c) as [E|]; [|reflexivity]. exfalso. apply N. left. exact E.
Qed.
Definition changed (b : balance) (c : comm) (z : Z) (b' : balance) : Prop :=
  map a_c b' = map a_c b /\ Forall wf_amt b' /\ forall d, holds b' d = holds b d + if comm_dec c d then z else 0.
Lemma change_entry (f : balance -> amount -> outcome balance) (g : amount -> amount -> outcome amount) (h : Z -> Z) :
  (forall x b a, f (x :: b) a = if comm_eqb (a_c x) (a_c a) then let* x' := g x a in Ok (x' :: b) else let* b' := f b a in Ok (x :: b')) ->
  (forall x a, wf_amt x -> wf_amt a -> a_c x = a_c a -> representable (aunits x + h (aunits a)) ->
     exists r, g x a = Ok r /\ wf_amt r /\ a_c r = a_c x /\ aunits r = aunits x + h (aunits a)) ->
  forall b a, NoDup (map a_c b) -> Forall wf_amt b -> wf_amt a -> In (a_c a) (map a_c b) -> representable (holds b (a_c a) + h (aunits a)) ->
  exists b', f b a = Ok b' /\ changed b (a_c a) (h (aunits a)) b'.
Proof.
  intros Hf Hg. induction b as [|x b IH]; intros a N W WA I R; [destruct I|]. rewrite Hf.
  cbn [map] in N. inversion N as [|? ? N1 N2]; inversion W as [|? ? WX WB]; subst. rewrite holds_cons in R. destruct (comm_eqb_spec (a_c x) (a_c a)) as [E|E].
  - destruct (comm_dec (a_c x) (a_c a)) as [_|]; [|contradiction]. rewrite (holds_none b), Z.add_0_r in R by (rewrite <- E; exact N1).
    destruct (Hg x a WX WA E R) as (r & -> & Wr & C & U). cbn [bind]. exists (r :: b). split; [reflexivity|]. split; [cbn [map]; rewrite C; reflexivity|].
    split; [constructor; assumption|]. intros d. rewrite !holds_cons, C, U, E. destruct (comm_dec (a_c a) d); lia.
  - destruct (comm_dec (a_c x) (a_c a)) as [|_]; [contradiction|]. destruct I as [I|I]; [contradiction|].
    destruct (IH a N2 WB WA I R) as (b' & -> & C & Wb & H). cbn [bind]. exists (x :: b'). split; [reflexivity|]. split; [cbn [map]; rewrite C; reflexivity|].
    split; [constructor; assumption|]. intros d. rewrite !holds_cons, H. lia.
Qed.
Lemma bal_add_entry b a : NoDup (map a_c b) -> Forall wf_amt b -> wf_amt a -> In (a_c a) (map a_c b) -> representable (holds b (a_c a) + aunits a) ->
  exists b', bal_add b a = Ok b' /\ changed b (a_c a) (aunits a) b'.
Proof. apply (change_entry bal_add amt_add (fun z => z)); [reflexivity|]. intros x c. apply amt_add_exact. Qed.
Lemma bal_sub_entry b a : NoDup (map a_c b) -> Forall wf_amt b -> wf_amt a -> In (a_c a) (map a_c b) -> representable (holds b (a_c a) - aunits a) ->
  exists b', bal_sub b a = Ok b' /\ changed b (a_c a) (- aunits a) b'.
Proof. apply (change_entry bal_sub amt_minus Z.opp); [reflexivity|]. intros x c. apply amt_minus_exact. Qed.

(** ** The loop *)
Definition at_rate (u z : Z) : Z := u * z / unit1.
Definition load (c : comm) (u : Z) (p : post) : Z :=
  match po_amount p with
  | Some a => if comm_dec (a_c a) c then Z.abs (aunits a) + Z.abs (at_rate u (aunits a)) else 0
  | None => 0
  end.
Definition payable (c : comm) (u : Z) (scale : nat) (p : post) : Prop :=
  exists a, po_amount p = Some a /\ wf_amt a
    /\ (a_c a = c -> (p10 (28 - scale) | aunits a) /\ (p10 (28 - scale) | at_rate u (aunits a)) /\ at_rate u (aunits a) * unit1 = u * aunits a).
Lemma load_nonneg c u p : 0 <= load c u p.
Proof. unfold load. destruct (po_amount p) as [a|]; [destruct (comm_dec _ _)|]; lia. Qed.
Lemma loads_nonneg c u ps : 0 <= sumZ (map (load c u) ps).
Proof. induction ps as [|p ps IH]; cbn [map sumZ fold_right]; [lia|]. change (fold_right Z.add 0) with sumZ. pose proof (load_nonneg c u p). lia. Qed.
Definition costed (x : comm) (y : comm) (r : Z) (p p' : post) : Prop :=
  exists a, po_amount p = Some a /\ (a_c a <> x -> p' = p)
    /\ (a_c a = x -> exists k, p' = mkPost (po_account p) (Some a) (Some k) (po_note p) /\ wf_amt k /\ a_c k = y /\ aunits k * unit1 = r * aunits a).
Lemma cost_loop_some c y u scale posts : (scale <= 28)%nat -> wf_amt u -> a_c u = Some y -> c <> Some y -> Forall (payable c (aunits u) scale) posts ->
  forall bal, NoDup (map a_c bal) -> Forall wf_amt bal -> In c (map a_c bal) -> In (Some y) (map a_c bal) ->
  (p10 (28 - scale) | holds bal c) -> (p10 (28 - scale) | holds bal (Some y)) ->
  Z.abs (holds bal c) + Z.abs (holds bal (Some y)) + sumZ (map (load c (aunits u)) posts) < 2 ^ 96 * p10 (28 - scale) ->
  exists ps b, cost_loop c u posts bal = Ok (ps, b) /\ Forall2 (costed c (Some y) (aunits u)) posts ps.
Proof.
  intros L Wu Cu Ncy F. pose proof (fun z => multiple_representable scale z L) as MR. set (M := 2 ^ 96 * p10 (28 - scale)) in *. clearbody M.
  set (m := p10 (28 - scale)) in *. 
  induction F as [|p posts (a & A & Wa & H) F IH]; intros bal ND Wb Ic Iy Dc Dy B; cbn [cost_loop]; [eexists _, _; split; [reflexivity|constructor]|].
  rewrite A. cbn [unwrap bind]. cbn [map sumZ fold_right] in B. change (fold_right Z.add 0) with sumZ in B. pose proof (loads_nonneg c (aunits u) posts) as NN.
  unfold load at 1 in B. rewrite A in B. destruct (comm_eqb_spec (a_c a) c) as [E|E].
  2: { cbn [bind]. destruct (comm_dec (a_c a) c) as [X|_]; [contradiction|]. destruct (IH bal ND Wb Ic Iy Dc Dy B) as (ps & b & -> & Fs). cbn [bind]. eexists _, _. split; [reflexivity|].
       constructor; [|exact Fs]. exists a. split; [exact A|]. split; [reflexivity|contradiction]. }
  destruct (comm_dec (a_c a) c) as [_|X]; [|contradiction]. destruct (H E) as (Da & Dk & Ek). fold m in Da, Dk.
  set (k := at_rate (aunits u) (aunits a)) in *.
  destruct (bal_sub_entry bal a ND Wb Wa) as (b1 & -> & C1 & W1 & H1); [rewrite E; exact Ic|rewrite E; apply MR; [apply Z.divide_sub_r; assumption|lia]|].
  cbn [bind]. unfold amt_mul. destruct (MR k Dk ltac:(lia)) as (d & Wd & Ud).
  destruct (d_mul_exact (a_q u) (a_q a) d Wu Wa Wd) as (r & -> & Wr & Ur); [rewrite Ud; exact Ek|]. cbn [bind]. rewrite Cu. cbn [comm_or].
  assert (Hy : holds b1 (Some y) = holds bal (Some y)). { rewrite H1, E. destruct (comm_dec c (Some y)); [contradiction|lia]. }
  assert (Hc : holds b1 c = holds bal c - aunits a). { rewrite H1, E. destruct (comm_dec c c); [lia|congruence]. }
  destruct (bal_add_entry b1 (mkAmt r (Some y))) as (b2 & -> & C2 & W2 & H2).
  { rewrite C1. exact ND. } { exact W1. } { exact Wr. } { rewrite C1. exact Iy. }
  { unfold aunits. cbn [a_q a_c]. rewrite Hy, Ur, Ud. apply MR; [apply Z.divide_add_r; assumption|lia]. }
  cbn [bind]. unfold aunits in H2. cbn [a_q a_c] in H2. rewrite Ur, Ud in H2.
  assert (Hy2 : holds b2 (Some y) = holds bal (Some y) + k). { rewrite H2, Hy. destruct (comm_dec (Some y) (Some y)); [reflexivity|congruence]. }
  assert (Hc2 : holds b2 c = holds bal c - aunits a). { rewrite H2, Hc. destruct (comm_dec (Some y) c); [congruence|lia]. }
  destruct (IH b2) as (ps & b & -> & Fs); [| | | | | | |cbn [bind]; eexists _, _; split; [reflexivity|]; constructor; [|exact Fs]].
  - rewrite C2, C1. exact ND.
  - exact W2.
  - rewrite C2, C1. exact Ic.
  - rewrite C2, C1. exact Iy.
  - rewrite Hc2. apply Z.divide_sub_r; assumption.
  - rewrite Hy2. apply Z.divide_add_r; assumption.
  - rewrite Hc2, Hy2. lia.
  - exists a. split; [exact A|]. split; [contradiction|]. intros _. eexists. unfold set_cost. rewrite A. split; [reflexivity|]. split; [exact Wr|]. split; [reflexivity|].
    unfold aunits. cbn [a_q]. rewrite Ur, Ud. exact Ek.
Qed.

(** ** The whole inference *)
Lemma holds_entry b x : NoDup (map a_c b) -> In x b -> holds b (a_c x) = aunits x.
Proof.
  induction b as [|z b IH]; intros N I; [destruct I|]. cbn [map] in N. inversion N as [|? ? N1 N2]; subst. rewrite holds_cons. destruct I as [<-|I].
  - destruct (comm_dec (a_c z) (a_c z)); [|congruence]. rewrite holds_none by exact N1. lia.
  - rewrite (IH N2 I). destruct (comm_dec (a_c z) (a_c x)) as [E|]; [|reflexivity]. exfalso. apply N1. rewrite E. apply in_map, I.
Qed.
Lemma two_entries posts bal x y : is_balance_of bal (worths posts) -> two_commodities posts x y ->
  exists x0 y0, bal = [x0; y0] /\ amt_is_zero x0 = false /\ amt_is_zero y0 = false.
Proof.
  intros Hb (N & I & Nx & Ny & _). pose proof (bal_nodup _ _ Hb) as ND.
  assert (I' : forall c, In c (map a_c bal) <-> c = x \/ c = y). { intros c. destruct Hb as [-> _]. rewrite firsts_in. apply I. }
  assert (X : exists x0 y0, bal = [x0; y0]).
  { destruct bal as [|u [|v [|w bal]]].
    - exfalso. apply (proj2 (I' x)). auto.
    - exfalso. assert (A := proj2 (I' x) (or_introl eq_refl)). assert (B := proj2 (I' y) (or_intror eq_refl)).
      cbn in A, B. destruct A as [A|[]], B as [B|[]]. congruence.
    - eauto.
    - exfalso. cbn in ND. inversion ND as [|? ? N1 ND1]; subst. inversion ND1 as [|? ? N2 ND2]; subst.
      assert (A1 := proj1 (I' (a_c u)) ltac:(cbn; auto)). assert (A2 := proj1 (I' (a_c v)) ltac:(cbn; auto)).
      assert (A3 := proj1 (I' (a_c w)) ltac:(cbn; auto)). cbn in N1, N2.
      destruct A1 as [A1|A1], A2 as [A2|A2], A3 as [A3|A3]; try (apply N1; left; congruence);
        try (apply N1; right; left; congruence); apply N2; left; congruence. }
  destruct X as (x0 & y0 & ->). exists x0, y0. split; [reflexivity|]. destruct Hb as [Hc Hv].
  assert (NZ : forall z, In z [x0; y0] -> amt_is_zero z = false).
  { intros z Hz. destruct (Hv z Hz) as [Wz Uz]. apply is_zero_false_units; [exact Wz|]. rewrite Uz.
    destruct (proj1 (I' (a_c z)) (in_map a_c _ _ Hz)) as [->| ->]; assumption. }
  split; apply NZ; cbn; auto.
Qed.
Lemma infer_some posts bal x y s r scale : is_balance_of bal (worths posts) -> complete posts -> two_commodities posts x y -> y = Some s ->
  (scale <= 28)%nat -> representable r -> 0 <= r -> r * Z.abs (total x (worths posts)) = Z.abs (total y (worths posts)) * unit1 ->
  Forall (payable x r scale) posts -> (p10 (28 - scale) | total x (worths posts)) -> (p10 (28 - scale) | total y (worths posts)) ->
  Z.abs (total x (worths posts)) + Z.abs (total y (worths posts)) + sumZ (map (load x r) posts) < 2 ^ 96 * p10 (28 - scale) ->
  exists ps b, infer_costs posts bal = Ok (ps, b) /\ Forall2 (costed x y r) posts ps.
Proof.
  intros Hb C TC Ey L Rr Nr Er F Dx Dy B. unfold infer_costs.
  destruct (two_entries _ _ _ _ Hb TC) as (x0 & y0 & -> & Zx & Zy).
  pose proof (top_amount_first posts) as T. destruct (top_amount posts) as [top|].
  2: { exfalso. destruct TC as (_ & _ & _ & _ & top & (l1 & p & l2 & -> & A & _) & _). apply Forall_app in T as [_ T]. inversion T; congruence. }
  rewrite Zx, Zy. cbn [negb andb].
  assert (G : forall x1 y1, (x1 = x0 /\ y1 = y0 /\ a_c x0 = a_c top \/ x1 = y0 /\ y1 = x0 /\ a_c x0 <> a_c top) ->
    exists ps b, (let* r := amt_div y1 x1 in cost_loop (a_c x1) (amt_abs r) posts [x0; y0]) = Ok (ps, b) /\ Forall2 (costed x y r) posts ps).
  { intros x1 y1 H. destruct (two_of_balance _ _ _ _ _ _ Hb Zx Zy T H) as (TC' & Wx & Wy & Ux & Uy).
    destruct (two_unique _ _ _ _ _ TC TC') as [E1 E2]. rewrite E1 in *. rewrite E2 in *. unfold amt_div.
    assert (Nx : aunits x1 <> 0). { rewrite Ux. apply TC. }
    assert (S : exists q, representable q /\ Z.abs q = r /\ q * units (a_q x1) = units (a_q y1) * unit1).
    { exists (if Bool.eqb (aunits x1 <? 0) (aunits y1 <? 0) then r else - r). fold (aunits x1) (aunits y1). rewrite <- Ux, <- Uy in Er.
      assert (U1 : 0 < unit1) by reflexivity. set (uu := unit1) in *. clearbody uu. generalize dependent (aunits x1). generalize (aunits y1). intros zy zx. intros.
      destruct (Z.ltb_spec zx 0), (Z.ltb_spec zy 0); cbn [Bool.eqb]; (split; [try apply representable_opp; exact Rr|]); (split; [lia|]); nia. }
    destruct S as (q & (d & Wd & Ud) & Aq & Eq). destruct (d_div_exact (a_q y1) (a_q x1) d Wy Wx Wd Nx) as (v & -> & Wv & Uv); [rewrite Ud; exact Eq|].
    cbn [bind]. destruct (set_pos_units v Wv) as [Up Wp].
    assert (Uu : aunits (amt_abs (mkAmt v (comm_or (a_c y1) (a_c x1)))) = r). { unfold aunits, amt_abs. cbn [a_q]. rewrite Up, Uv, Ud. exact Aq. }
    assert (ND : NoDup (map a_c [x0; y0])) by (eapply bal_nodup; exact Hb).
    assert (Ix : In x1 [x0; y0] /\ In y1 [x0; y0]). { destruct H as [(-> & -> & _)|(-> & -> & _)]; cbn; auto. }
    destruct Ix as [Ix Iy].
    set (U := amt_abs _) in *. rewrite <- Uu, Ey. apply (cost_loop_some x s U scale posts L).
    - exact Wp.
    - unfold U, amt_abs. cbn [a_c]. rewrite E2, Ey. reflexivity.
    - rewrite <- Ey. apply TC.
    - rewrite Uu. exact F.
    - exact ND.
    - destruct Hb as [_ Hv]. apply Forall_forall. intros z Hz. apply (Hv z Hz).
    - rewrite <- E1. apply in_map, Ix.
    - rewrite <- Ey, <- E2. apply in_map, Iy.
    - rewrite <- E1, holds_entry by assumption. rewrite Ux. exact Dx.
    - rewrite <- Ey, <- E2, holds_entry by assumption. rewrite Uy. exact Dy.
    - rewrite Uu, <- Ey, <- E2, <- E1, !holds_entry by assumption. rewrite Ux, Uy, E1. exact B. }
  destruct (comm_eqb_spec (a_c x0) (a_c top)) as [E|E]; cbn [negb]; apply G; auto.
Qed.
