(** Opposite amounts give opposite totals. *)
From Coq Require Import String List NArith ZArith Bool Lia.
From Verif Require Import Base Decimal Dates Amount Balance Scanner History Pool Account Journal Xact Parser Report Options Lib.
From Verif Require Import SpecText SpecReading SpecDates SpecScan SpecOutline SpecLine SpecEnd SpecValue SpecRefused SpecSpelling SpecOpposite.
From Verif Require Import BaseFacts DatesFacts ScanFacts ReportFacts BalanceFacts ValueProofs SpellingProofs LineReadProofs LiteralProofs AsideProofs.
From Verif Require ReadingFacts LinesProofs RefusedProofs.
Import ListNotations.
Open Scope nat_scope.

(** ** Decimals *)
Lemma opp_signed a b : opposite a b -> d_signed b = (- d_signed a)%Z.
Proof.
  intros (M & _ & [Z|N]); unfold d_signed; rewrite <- M; [rewrite Z; destruct (d_neg a), (d_neg b); reflexivity|].
  rewrite N. destruct (d_neg a); cbn [negb]; lia.
Qed.
Lemma opp_zero a b : opposite a b -> d_is_zero a = d_is_zero b.
Proof. intros (M & _). unfold d_is_zero. rewrite M. reflexivity. Qed.
Lemma rhe_zero d : (0 < d)%Z -> rhe 0 d = 0%Z.
Proof.
  intros D. unfold rhe. rewrite Z.div_0_l, Z.mod_0_l by lia. change (2 * 0)%Z with 0%Z. apply Z.ltb_lt in D. rewrite D. reflexivity.
Qed.
Lemma p10_positive k : (0 < p10 k)%Z.
Proof. unfold p10. apply Z.pow_pos_nonneg; lia. Qed.
Lemma reduce_zero s m s' : reduce 0 s = Some (m, s') -> m = 0%Z.
Proof.
  unfold reduce. generalize 0 at 1. generalize s at 1. intros f. induction f as [|f IH]; intros k; cbn [reduce_from]; rewrite rhe_zero by apply p10_positive.
  - destruct (_ && _); congruence.
  - destruct (_ && _); [congruence|apply IH].
Qed.
Lemma make_opp n m s : opposite (d_make n m s) (d_make (negb n) m s).
Proof.
  unfold d_make, opposite. cbn. split; [reflexivity|]. split; [reflexivity|].
  destruct (Z.eqb_spec m 0) as [->|N]; [left; reflexivity|right; reflexivity].
Qed.
Lemma reduced_opp z z' s : z' = (- z)%Z -> same_outcome opposite (d_reduced z s) (d_reduced z' s).
Proof.
  intros ->. unfold d_reduced. rewrite Z.abs_opp. destruct (reduce (Z.abs z) s) as [[m s']|] eqn:E; [|reflexivity].
  destruct (Z.eq_dec z 0) as [->|N].
  - apply reduce_zero in E. subst m. cbn. repeat split. left. reflexivity.
  - assert (X : (- z <? 0)%Z = negb (z <? 0)%Z) by (destruct (Z.ltb_spec z 0), (Z.ltb_spec (- z) 0); cbn; lia).
    rewrite X. apply make_opp.
Qed.
Lemma reduced_same z z' s : z' = z -> d_reduced z s = d_reduced z' s.
Proof. intros ->. reflexivity. Qed.
Lemma add_opp a a' b b' : opposite a a' -> opposite b b' -> same_outcome opposite (d_add a b) (d_add a' b').
Proof.
  intros A B. unfold d_add. rewrite <- (opp_zero _ _ A), <- (opp_zero _ _ B). destruct (d_is_zero a); [exact B|]. destruct (d_is_zero b); [exact A|].
  rewrite <- (proj1 (proj2 A)), <- (proj1 (proj2 B)). apply reduced_opp. rewrite (opp_signed _ _ A), (opp_signed _ _ B). lia.
Qed.
Lemma sub_opp a a' b b' : opposite a a' -> opposite b b' -> same_outcome opposite (d_sub a b) (d_sub a' b').
Proof.
  intros A B. unfold d_sub. rewrite <- (opp_zero _ _ A), <- (opp_zero _ _ B). destruct (d_is_zero a).
  { destruct (d_is_zero b); [exact B|]. destruct B as (M & S & N). split; [exact M|]. split; [exact S|]. cbn. destruct N as [Z|N]; [left; exact Z|right]. rewrite N. reflexivity. }
  destruct (d_is_zero b); [exact A|].
  rewrite <- (proj1 (proj2 A)), <- (proj1 (proj2 B)). apply reduced_opp. rewrite (opp_signed _ _ A), (opp_signed _ _ B). lia.
Qed.
Lemma mul_opp a b b' : opposite b b' -> same_outcome opposite (d_mul a b) (d_mul a b').
Proof.
  intros B. assert (Zo : opposite d_zero d_zero) by (repeat split; left; reflexivity).
  unfold d_mul. rewrite <- (opp_zero _ _ B). destruct (d_is_zero a || d_is_zero b); [exact Zo|].
  rewrite <- (proj1 B), <- (proj1 (proj2 B)). destruct (_ && _); [exact Zo|]. apply reduced_opp. rewrite (opp_signed _ _ B). lia.
Qed.
Lemma div_opp a a' b b' : opposite a a' -> opposite b b' -> d_div a b = d_div a' b'.
Proof.
  intros A B. unfold d_div. rewrite <- (opp_zero _ _ A), <- (opp_zero _ _ B).
  destruct (d_is_zero b) eqn:Zb; [reflexivity|]. destruct (d_is_zero a) eqn:Za; [reflexivity|].
  unfold d_is_zero in Za, Zb. apply Z.eqb_neq in Za, Zb.
  destruct A as (Ma & Sa & [Z|Na]); [contradiction|]. destruct B as (Mb & Sb & [Z|Nb]); [contradiction|].
  rewrite <- Ma, <- Sa, <- Mb, <- Sb, Na, Nb. replace (xorb (negb (d_neg a)) (negb (d_neg b))) with (xorb (d_neg a) (d_neg b)) by (destruct (d_neg a), (d_neg b); reflexivity).
  reflexivity.
Qed.

(** ** Amounts and balances *)
Lemma abs_opp a a' : opposite_amount a a' -> amt_abs a = amt_abs a'.
Proof. intros (C & M & S & _). unfold amt_abs, d_set_pos. rewrite C, M, S. reflexivity. Qed.
Lemma zero_opp a a' : opposite_amount a a' -> amt_is_zero a = amt_is_zero a'.
Proof. intros (_ & A). apply opp_zero, A. Qed.
Lemma amt_add_opp a a' b b' : opposite_amount a a' -> opposite_amount b b' -> same_outcome opposite_amount (amt_add a b) (amt_add a' b').
Proof.
  intros A B. unfold amt_add. rewrite <- (proj1 A), <- (proj1 B), <- (opp_zero _ _ (proj2 B)). destruct (comm_eqb _ _); [|reflexivity].
  destruct (d_is_zero (a_q b)); [exact A|]. eapply same_outcome_bind; [apply add_opp; [exact (proj2 A)|exact (proj2 B)]|]. intros q q' Q. split; [reflexivity|exact Q].
Qed.
Lemma amt_minus_opp a a' b b' : opposite_amount a a' -> opposite_amount b b' -> same_outcome opposite_amount (amt_minus a b) (amt_minus a' b').
Proof.
  intros A B. unfold amt_minus. rewrite <- (proj1 A), <- (proj1 B). destruct (comm_eqb _ _); [|reflexivity].
  eapply same_outcome_bind; [apply sub_opp; [exact (proj2 A)|exact (proj2 B)]|]. intros q q' Q. split; [reflexivity|exact Q].
Qed.
Lemma amt_mul_opp a b b' : opposite_amount b b' -> same_outcome opposite_amount (amt_mul a b) (amt_mul a b').
Proof.
  intros B. unfold amt_mul. rewrite <- (proj1 B). eapply same_outcome_bind; [apply mul_opp, B|]. intros q q' Q. split; [reflexivity|exact Q].
Qed.
Lemma amt_div_opp a a' b b' : opposite_amount a a' -> opposite_amount b b' -> amt_div a b = amt_div a' b'.
Proof. intros A B. unfold amt_div. rewrite <- (proj1 A), <- (proj1 B), <- (div_opp _ _ _ _ (proj2 A) (proj2 B)). reflexivity. Qed.
Lemma bal_add_opp b b' a a' : opposite_balance b b' -> opposite_amount a a' -> same_outcome opposite_balance (bal_add b a) (bal_add b' a').
Proof.
  intros H A. induction H as [|x y b b' X H IH]; cbn [bal_add].
  - constructor; [exact A|constructor].
  - rewrite <- (proj1 X), <- (proj1 A). destruct (comm_eqb _ _).
    + eapply same_outcome_bind; [exact (amt_add_opp _ _ _ _ X A)|]. intros; constructor; assumption.
    + eapply same_outcome_bind; [exact IH|]. intros; constructor; assumption.
Qed.
Lemma bal_sub_opp b b' a a' : In (a_c a) (map a_c b) -> opposite_balance b b' -> opposite_amount a a' -> same_outcome opposite_balance (bal_sub b a) (bal_sub b' a').
Proof.
  intros K H A. induction H as [|x y b b' X H IH]; cbn [bal_sub].
  - contradiction.
  - rewrite <- (proj1 X), <- (proj1 A). destruct (comm_eqb _ _) eqn:E.
    + eapply same_outcome_bind; [exact (amt_minus_opp _ _ _ _ X A)|]. intros; constructor; assumption.
    + eapply same_outcome_bind; [apply IH|]. { destruct K as [K|K]; [|exact K]. apply comm_eqb_neq in E. contradiction. } intros; constructor; assumption.
Qed.
Lemma bal_add_keeps c b a b' : In c (map a_c b) -> bal_add b a = Ok b' -> In c (map a_c b').
Proof.
  intros K. revert b'. induction b as [|x b IH]; intros b'; cbn [bal_add]; [contradiction|]. destruct (comm_eqb (a_c x) (a_c a)) eqn:E; intros H.
  - destruct (amt_add x a) as [y| |] eqn:Y; try discriminate. cbn [bind] in H. injection H as <-. cbn.
    assert (a_c y = a_c x). { unfold amt_add in Y. destruct (comm_eqb _ _); [|discriminate]. destruct (d_is_zero _); [congruence|]. destruct (d_add _ _); [|discriminate|discriminate]. cbn in Y. injection Y as <-. reflexivity. }
    destruct K as [K|K]; [left; congruence|right; exact K].
  - destruct (bal_add b a) as [y| |]; try discriminate. cbn [bind] in H. injection H as <-. cbn. destruct K as [K|K]; [left; exact K|right; apply IH; auto].
Qed.
Lemma bal_sub_keeps c b a b' : In c (map a_c b) -> bal_sub b a = Ok b' -> In c (map a_c b').
Proof.
  intros K. revert b'. induction b as [|x b IH]; intros b'; cbn [bal_sub]; [contradiction|]. destruct (comm_eqb (a_c x) (a_c a)) eqn:E; intros H.
  - destruct (amt_minus x a) as [y| |] eqn:Y; try discriminate. cbn [bind] in H. injection H as <-. cbn.
    assert (a_c y = a_c x). { unfold amt_minus in Y. destruct (comm_eqb _ _); [|discriminate]. destruct (d_sub _ _); [|discriminate|discriminate]. cbn in Y. injection Y as <-. reflexivity. }
    destruct K as [K|K]; [left; congruence|right; exact K].
  - destruct (bal_sub b a) as [y| |]; try discriminate. cbn [bind] in H. injection H as <-. cbn. destruct K as [K|K]; [left; exact K|right; apply IH; auto].
Qed.
Lemma bal_add_bal_opp b b' o o' : opposite_balance b b' -> opposite_balance o o' -> same_outcome opposite_balance (bal_add_bal b o) (bal_add_bal b' o').
Proof. intros B O. unfold bal_add_bal. eapply fold_congr; [exact O| |exact B]. intros; apply bal_add_opp; assumption. Qed.

(** ** Transactions *)
Notation opposite_posts := (Forall2 opposite_post).
Lemma value_opp p p' : opposite_post p p' -> exists a a', post_value p = Some a /\ post_value p' = Some a' /\ opposite_amount a a'.
Proof.
  intros (_ & (a & a' & A & A' & O) & C & _). unfold post_value. destruct (po_cost p) as [c|], (po_cost p') as [c'|]; cbn in C; try contradiction.
  - exists c, c'. auto.
  - exists a, a'. auto.
Qed.
Lemma sum_opp ps ps' : opposite_posts ps ps' -> forall i b b', opposite_balance b b' ->
  same_outcome (same_pair opposite_balance (fun n n' => n = None /\ n' = None)) (sum_posts ps i b None) (sum_posts ps' i b' None).
Proof.
  induction 1 as [|p p' ps ps' P F IH]; intros i b b' B; cbn [sum_posts]; [split; [exact B|split; reflexivity]|].
  destruct (value_opp _ _ P) as (a & a' & -> & -> & A). eapply same_outcome_bind; [apply bal_add_opp; [exact B|exact A]|]. intros b1 b1' B1. apply IH, B1.
Qed.
Lemma top_opp ps ps' : opposite_posts ps ps' -> opt_rel opposite_amount (top_amount ps) (top_amount ps').
Proof. destruct 1 as [|p p' ps ps' (_ & (a & a' & A & A' & O) & _) F]; [exact I|]. cbn [top_amount]. rewrite A, A'. exact O. Qed.
Lemma cost_loop_opp c u ps ps' : opposite_posts ps ps' -> forall b b', In c (map a_c b) -> opposite_balance b b' ->
  same_outcome (same_pair opposite_posts opposite_balance) (cost_loop c u ps b) (cost_loop c u ps' b').
Proof.
  induction 1 as [|p p' ps ps' P F IH]; intros b b' K B; cbn [cost_loop]; [split; [constructor|exact B]|].
  assert (P' := P). destruct P' as (Pa & (a & a' & A & A' & O) & Co & No). rewrite A, A'. cbn [unwrap bind].
  rewrite <- (proj1 O). destruct (comm_eqb (a_c a) c) eqn:E.
  - apply comm_eqb_eq in E. subst c. cbn [bind].
    assert (S := bal_sub_opp _ _ _ _ K B O). destruct (bal_sub b a) as [b1|p1|] eqn:E1, (bal_sub b' a') as [b1'|p1'|]; cbn in S; try contradiction; [|cbn; exact S|exact I].
    cbn [bind]. assert (M := amt_mul_opp u _ _ O). destruct (amt_mul u a) as [k|p1|], (amt_mul u a') as [k'|p1'|]; cbn in M; try contradiction; [|cbn; exact M|exact I].
    cbn [bind]. assert (Q := bal_add_opp _ _ _ _ S M). destruct (bal_add b1 k) as [b2|p1|] eqn:E2, (bal_add b1' k') as [b2'|p1'|]; cbn in Q; try contradiction; [|cbn; exact Q|exact I].
    cbn [bind]. eapply same_outcome_bind.
    { apply IH; [|exact Q]. eapply bal_add_keeps; [|exact E2]. eapply bal_sub_keeps; [exact K|exact E1]. }
    intros [r b3] [r' b3'] [R B3]. split; [|exact B3]. cbn. constructor; [|exact R]. split; [exact Pa|]. split; [exists a, a'; auto|]. split; [exact M|exact No].
  - cbn [bind]. eapply same_outcome_bind; [apply IH; [exact K|exact B]|]. intros [r b3] [r' b3'] [R B3]. split; [constructor; assumption|exact B3].
Qed.
Lemma infer_opp ps ps' b b' : opposite_posts ps ps' -> opposite_balance b b' -> same_outcome (same_pair opposite_posts opposite_balance) (infer_costs ps b) (infer_costs ps' b').
Proof.
  intros P B. assert (D : same_outcome (same_pair opposite_posts opposite_balance) (Ok (ps, b)) (Ok (ps', b'))) by (split; assumption).
  unfold infer_costs. destruct B as [|x x' b b' X B]; [exact D|]. destruct B as [|y y' b b' Y B]; [exact D|]. destruct B; [|exact D].
  assert (T := top_opp _ _ P). destruct (top_amount ps) as [t|], (top_amount ps') as [t'|]; cbn in T; try contradiction; [|exact D].
  rewrite <- (zero_opp _ _ X), <- (zero_opp _ _ Y), <- (proj1 X), <- (proj1 T). destruct (_ && _); [|exact D].
  destruct (negb (comm_eqb (a_c x) (a_c t))); cbv zeta iota beta; [rewrite <- (amt_div_opp _ _ _ _ X Y), <- (proj1 Y)|rewrite <- (amt_div_opp _ _ _ _ Y X), <- (proj1 X)];
    eq_step; intros r _ <-; (apply cost_loop_opp; [exact P| |]); try (cbn; tauto); constructor; try assumption; constructor; try assumption; constructor.
Qed.
Definition bd_opp (x y : breakdown * option price) : Prop := opposite_amount (bd_amount (fst x)) (bd_amount (fst y)) /\ snd x = snd y.
Lemma exchange_opp p a a' c c' w : opposite_amount a a' -> opposite_amount c c' -> same_outcome bd_opp (exchange p a c false w) (exchange p a' c' false w).
Proof.
  intros A C. unfold exchange. rewrite <- (proj1 A), <- (proj1 C), <- (zero_opp _ _ A), <- (abs_opp _ _ C), <- (amt_div_opp _ _ _ _ C A).
  eq_step. intros s _ <-. eq_step. intros x _ <-. eq_step. intros y _ <-. eq_step. intros q _ <-. cbn [bind].
  eapply (same_outcome_bind (fun _ _ => True)).
  { destruct (lookup _ _) as [an|]; [|exact I]. destruct (an_price an) as [ap|]; [|exact I].
    assert (M := amt_mul_opp ap _ _ A). destruct (amt_mul ap a), (amt_mul ap a'); cbn in *; try contradiction; auto. }
  intros b1 b2 _. split; [exact A|reflexivity].
Qed.
Lemma price_loop_opp d ps ps' : opposite_posts ps ps' -> forall p, same_outcome (same_pair eq opposite_posts) (price_loop d p ps) (price_loop d p ps').
Proof.
  induction 1 as [|q q' ps ps' Q F IH]; intros p; cbn [price_loop]; [split; [reflexivity|constructor]|].
  eapply (same_outcome_bind (same_pair eq opposite_post)).
  - assert (Q' := Q). destruct Q' as (Pa & (a & a' & A & A' & O) & Co & No). rewrite A, A'.
    destruct (po_cost q) as [c|] eqn:Ec, (po_cost q') as [c'|] eqn:Ec'; cbn in Co; try contradiction; [|split; [reflexivity|exact Q]].
    rewrite <- (proj1 O), <- (proj1 Co). destruct (comm_eqb (a_c a) (a_c c)); [reflexivity|].
    eq_step. intros dd _ <-. eapply same_outcome_bind; [apply exchange_opp; [exact O|exact Co]|]. intros [bd np] [bd' np'] [Bd Np]. cbn [fst snd] in Bd, Np. subst np'.
    eq_step. intros p1 _ <-. split; [reflexivity|]. cbn. split; [exact Pa|]. split; [eexists _, _; split; [reflexivity|]; split; [reflexivity|exact Bd]|].
    cbn. rewrite Ec, Ec'. split; [exact Co|exact No].
  - intros [p1 r] [p1' r'] [P1 R]. cbn [fst snd] in P1, R. subst p1'. eapply same_outcome_bind; [apply IH|]. intros [p2 s] [p2' s'] [P2 S].
    split; [exact P2|constructor; assumption].
Qed.
Lemma finalize_posts_opp d p ps ps' : opposite_posts ps ps' -> same_outcome (same_pair eq opposite_posts) (finalize_posts d p ps) (finalize_posts d p ps').
Proof.
  intros F. unfold finalize_posts. rewrite <- (len_rel _ _ _ F). eapply same_outcome_bind; [apply sum_opp; [exact F|constructor]|].
  intros [b n] [b' n'] [B [N N']]. cbn [fst snd] in B, N, N'. subst n n'. destruct (length ps =? 1); [reflexivity|].
  eapply same_outcome_bind; [apply infer_opp; [exact F|exact B]|]. intros [ps1 b1] [ps1' b1'] [F1 B1]. cbn [fst snd] in F1, B1.
  eapply same_outcome_bind; [apply price_loop_opp, F1|]. intros [p2 ps2] [p2' ps2'] [P2 F2]. split; assumption.
Qed.
Lemma finalize_opp j j' xi : opposite_journal j j' -> same_outcome opposite_journal (finalize j xi) (finalize j' xi).
Proof.
  intros (M & P & X). unfold finalize. assert (N := nth_rel _ _ _ xi X). rewrite <- P, <- M.
  destruct (nth_error (j_xacts j) xi) as [x|], (nth_error (j_xacts j') xi) as [x'|]; cbn in N; try contradiction; [|reflexivity].
  destruct N as (D & _ & _ & _ & F). rewrite <- D.
  eapply same_outcome_bind; [apply finalize_posts_opp, F|]. intros [p ps] [p' ps'] [P1 F1]. cbn [fst snd] in P1, F1. subst p'.
  split; [reflexivity|]. split; [reflexivity|]. cbn. apply update_rel; [exact X|]. intros a b (H1 & H2 & H3 & H4 & _). repeat (split; [assumption|]). exact F1.
Qed.

(** ** The parser *)
Lemma number_opp q q' : opposite_number q q' -> exists d d', d_from_str q = Some d /\ d_from_str q' = Some d' /\ opposite d d' /\ is_empty q = false /\ is_empty q' = false.
Proof.
  intros (neg & wh & fr & Q & Q'). assert (E := quantity_text_value _ _ _ _ Q). assert (E' := quantity_text_value _ _ _ _ Q').
  eexists _, _. split; [exact E|]. split; [exact E'|]. split; [apply make_opp|]. split; [destruct q|destruct q']; try reflexivity; discriminate.
Qed.
Definition parsed_opp (x y : pool * option amount) : Prop := fst x = fst y /\ exists a a', snd x = Some a /\ snd y = Some a' /\ opposite_amount a a'.
Lemma parts_opp p q q' s : opposite_number q q' -> parsed_opp (parse_amount_parts p q s) (parse_amount_parts p q' s).
Proof.
  intros N. unfold parse_amount_parts. destruct (pool_find_or_create p s None) as [p1 c]. split; [reflexivity|].
  destruct (number_opp _ _ N) as (d & d' & -> & -> & O & _). eexists _, _. split; [reflexivity|]. split; [reflexivity|]. split; [reflexivity|exact O].
Qed.
Lemma cost_opp p t t' a a' : opposite_parts t t' -> opposite_amount a a' -> same_outcome (same_pair eq (opt_rel opposite_amount)) (parse_cost p t (Some a)) (parse_cost p t' (Some a')).
Proof.
  intros T A. destruct T as (_ & _ & _ & _ & _ & _ & Q & S & U). unfold parse_cost. rewrite <- S, <- U. destruct (t_is_per_unit t).
  - rewrite <- Q. destruct (is_empty (t_cost_quantity t)); [split; [reflexivity|exact I]|].
    destruct (parse_amount_parts p _ _) as [p1 [c|]]; [|split; [reflexivity|exact I]].
    eapply same_outcome_bind; [apply amt_mul_opp, A|]. intros x x' X. split; [reflexivity|exact X].
  - destruct Q as [[-> ->]|Q]; [split; [reflexivity|exact I]|]. destruct (number_opp _ _ Q) as (_ & _ & _ & _ & _ & -> & ->).
    destruct (parts_opp p _ _ (t_cost_symbol t) Q) as [E (c & c' & C & C' & O)].
    destruct (parse_amount_parts p (t_cost_quantity t) _) as [p1 x], (parse_amount_parts p (t_cost_quantity t') _) as [p1' x']. cbn [fst snd] in E, C, C'. subst.
    split; [reflexivity|exact O].
Qed.
Lemma parse_post_opp j j' xi l l' t t' : opposite_journal j j' -> scan_post l = Ok t -> scan_post l' = Ok t' -> opposite_parts t t' ->
  same_outcome opposite_journal (parse_post j xi l) (parse_post j' xi l').
Proof.
  intros (M & P & X) S S' T. unfold parse_post. rewrite S, S'. cbn [bind]. assert (T' := T).
  destruct T' as (Ta & Tq & Ts & Tpq & Tpc & Tpd & _). rewrite <- M, <- P, <- Ta, <- Ts, <- Tpc, <- Tpq, <- Tpd.
  eq_step. intros [m1 acct] _ <-.
  destruct (parts_opp (j_pool j) _ _ (t_symbol t) Tq) as [E (a & a' & A & A' & O)].
  destruct (parse_amount_parts (j_pool j) (t_quantity t) _) as [p1 x], (parse_amount_parts (j_pool j) (t_quantity t') _) as [p1' x']. cbn [fst snd] in E, A, A'. subst.
  eq_step. intros [p2 an] _ <-. destruct (pool_find_or_create p2 _ _) as [p3 c].
  eapply same_outcome_bind; [apply cost_opp; [exact T|exact O]|]. intros [p4 co] [p4' co'] [P4 Co]. cbn [fst snd] in P4, Co. subst p4'.
  assert (N := nth_rel _ _ _ xi X).
  destruct (nth_error (j_xacts j) xi) as [x|], (nth_error (j_xacts j') xi) as [x'|]; cbn in N; try contradiction; [|reflexivity].
  destruct N as (_ & _ & _ & _ & Fp). rewrite <- (len_rel _ _ _ Fp).
  eq_step. intros m2 _ <-. split; [reflexivity|]. split; [reflexivity|]. cbn.
  apply update_rel; [exact X|]. intros y y' (H1 & H2 & H3 & H4 & Yp). repeat (split; [assumption|]). cbn. apply app_rel; [exact Yp|]. constructor; [|constructor].
  split; [reflexivity|]. split; [exists a, a'; auto|]. split; [exact Co|reflexivity].
Qed.
Lemma note_opp j j' xi l : opposite_journal j j' -> same_outcome opposite_journal (parse_trailing_note j xi l) (parse_trailing_note j' xi l).
Proof.
  intros (M & P & X). unfold parse_trailing_note. destruct (is_empty (trim (skipn 1 l))); [split; [exact M|split; assumption]|].
  split; [exact M|]. split; [exact P|]. cbn. apply update_rel; [exact X|]. intros x x' (H1 & H2 & H3 & H4 & F).
  destruct (x_posts x) as [|p ps] eqn:E1, (x_posts x') as [|p' ps'] eqn:E2; [|inversion F|inversion F|].
  - repeat (split; [first [assumption|reflexivity]|]). cbn. rewrite E1, E2. constructor.
  - repeat (split; [assumption|]). cbn [x_posts set_posts]. rewrite <- (len_rel _ _ _ F). apply update_rel; [exact F|]. intros a b (A1 & A2 & A3 & A4). split; [exact A1|]. split; [exact A2|]. split; [exact A3|reflexivity].
Qed.
Definition next_opp (n n' : next) : Prop :=
  match n, n' with
  | Continue m j, Continue m' j' => m = m' /\ opposite_journal j j'
  | Stop j, Stop j' => opposite_journal j j'
  | _, _ => False
  end.
Lemma continue_opp m o o' : same_outcome opposite_journal o o' -> same_outcome next_opp (let* j := o in Ok (Continue m j)) (let* j := o' in Ok (Continue m j)).
Proof. intros H. eapply same_outcome_bind; [exact H|]. intros j j' J. split; [reflexivity|exact J]. Qed.
Definition inc_opp (inc inc' : str -> journal -> outcome journal) : Prop :=
  forall arg j j', opposite_journal j j' -> same_outcome opposite_journal (inc arg j) (inc' arg j').
Lemma general_opp inc inc' j j' l : inc_opp inc inc' -> opposite_journal j j' -> same_outcome opposite_journal (general_directive inc j l) (general_directive inc' j' l).
Proof.
  intros I J. unfold general_directive. destruct (take_word l) as [w r]. destruct w as [|c w0]; [reflexivity|].
  destruct (N.eq_dec c 105) as [->|Nc].
  - cbv iota. destruct (str_eqb (105%N :: w0) (lit "include")).
    + destruct (fst (take_word r)); [reflexivity|]. apply I, J.
    + destruct (str_eqb (105%N :: w0) (lit "import")); [reflexivity|]. destruct J as (M & P & X). rewrite <- P. eq_step. intros p _ <-. split; [exact M|]. split; [reflexivity|exact X].
  - destruct (N.eq_dec c 97) as [->|Na]; [reflexivity|].
    destruct c as [|c]; [reflexivity|]. do 7 (destruct c as [c|c|]; try reflexivity; try (exfalso; congruence)).
Qed.
Lemma create_opp j j' l : opposite_journal j j' -> same_outcome opposite_journal (create_xact j l) (create_xact j' l).
Proof.
  intros J. unfold create_xact. eq_step. intros [[[d aux] payee] note] _ <-.
  eapply (same_outcome_bind (fun x y => x = y /\ x_posts x = [])).
  - unfold xact_create. eq_step. intros dd _ <-. eq_step. intros aa _ <-. split; reflexivity.
  - intros x _ [<- E]. destruct J as (M & P & X). split; [exact M|]. split; [exact P|]. cbn. apply app_rel; [exact X|]. constructor; [|constructor].
    repeat (split; [reflexivity|]). rewrite E. constructor.
Qed.
Lemma blank_trimmed l : spaces l -> trim_start l = [].
Proof. intros S. rewrite <- (app_nil_r l), trim_start_app by exact S. reflexivity. Qed.
Lemma step_opp inc inc' m j j' l l' : inc_opp inc inc' -> opposite_journal j j' -> opposite_line l l' -> same_outcome next_opp (step inc m j l) (step inc' m j' l').
Proof.
  intros HI J L. assert (Ln := len_rel _ _ _ (proj2 (proj2 J))).
  assert (Fi : forall xi, same_outcome next_opp (let* j0 := finalize j xi in Ok (Continue Top j0)) (let* j0 := finalize j' xi in Ok (Continue Top j0))) by (intros xi; apply continue_opp, finalize_opp, J).
  destruct L as [|l N|r r' t t' P P' T].
  - destruct m as [|xi]; cbn [step]; [exact J|apply Fi].
  - destruct m as [|xi]; cbn [step].
    + unfold top_line. destruct (str_eqb l [13%N; 10%N] || str_eqb l [10%N]); [split; [reflexivity|exact J]|]. destruct l as [|c l]; [reflexivity|].
      destruct (_ || _); [split; [reflexivity|exact J]|]. destruct (c =? 45)%N; [split; [reflexivity|exact J]|].
      destruct (is_digit c); [rewrite <- Ln; apply continue_opp, create_opp, J|].
      destruct (_ || _); [reflexivity|]. apply continue_opp, general_opp; assumption.
    + unfold xact_line. destruct l as [|c l]; [reflexivity|]. destruct (N.eq_dec c 32) as [->|N32].
      * destruct N as [N|[N|(r & E & N)]]; [exfalso; apply N; reflexivity| |].
        -- rewrite (blank_trimmed _ N). apply Fi.
        -- injection E as ->. destruct (note_marked _ N) as [x ->]. apply continue_opp, note_opp, J.
      * destruct (N.eq_dec c 13) as [->|N13]; [apply Fi|]. destruct (N.eq_dec c 10) as [->|N10]; [apply Fi|].
        destruct c as [|c]; [reflexivity|]. do 6 (destruct c as [c|c|]; try reflexivity; try (exfalso; congruence)).
  - destruct m as [|xi]; cbn [step]; [reflexivity|]. destruct (xact_posting j xi _ _ P) as (l & S & ->). destruct (xact_posting j' xi _ _ P') as (l' & S' & ->).
    apply continue_opp. eapply parse_post_opp; eassumption.
Qed.
Lemma parse_lines_opp inc inc' l l' : inc_opp inc inc' -> opposite_source l l' -> forall m j j', opposite_journal j j' ->
  same_outcome opposite_journal (parse_lines inc m j l) (parse_lines inc' m j' l').
Proof.
  intros In F. induction F as [|a b l l' H F IH]; intros m j j' J; cbn [parse_lines].
  - destruct m; [exact J|apply finalize_opp, J].
  - eapply same_outcome_bind; [apply step_opp; [exact In|exact J|exact H]|]. intros [m1 j1|j1] [m2 j2|j2] K; cbn in K; try contradiction; [|exact K].
    destruct K as [<- K]. apply IH, K.
Qed.
Lemma include_opp fs fs' cwd : opposite_files fs fs' -> forall depth, inc_opp (include_file depth cwd fs) (include_file depth cwd fs').
Proof.
  intros F. induction depth as [|d IH]; intros arg j j' J; cbn [include_file]; [exact I|].
  eapply (same_outcome_bind (opt_rel opposite_source)).
  - unfold included. assert (G : same_outcome (opt_rel opposite_source) (Ok (fs (resolve cwd arg))) (Ok (fs' (resolve cwd arg)))) by apply F.
    destruct (path_components (resolve cwd arg)) as [|a [|b l]]; [reflexivity| |exact G].
    destruct (resolve cwd arg) as [|c x]; [exact I|]. destruct c as [|c]; [exact I|]. do 6 (destruct c as [c|c|]; try exact I; try exact G).
  - intros o o' O. destruct o as [s|], o' as [s'|]; cbn in O; try contradiction; [|exact J]. apply parse_lines_opp; assumption.
Qed.
Theorem reading_opp depth cwd fs fs' src src' j j' : opposite_files fs fs' -> opposite_source src src' -> opposite_journal j j' ->
  same_outcome opposite_journal (read_into_journal depth cwd fs src j) (read_into_journal depth cwd fs' src' j').
Proof. intros F S J. apply parse_lines_opp; [apply include_opp, F|exact S|exact J]. Qed.

(** ** The reports *)
Lemma post_at_opp xs xs' r : Forall2 opposite_xact xs xs' -> opt_rel opposite_post (get_post xs r) (get_post xs' r).
Proof.
  intros F. unfold get_post. assert (N := nth_rel _ _ _ (fst r) F). destruct (nth_error xs (fst r)), (nth_error xs' (fst r)); cbn in N; try contradiction; [|exact I].
  apply nth_rel, N.
Qed.
Lemma amount_opp xs xs' refs : Forall2 opposite_xact xs xs' -> same_outcome opposite_balance (account_amount xs refs) (account_amount xs' refs).
Proof.
  intros F. unfold account_amount. eapply (fold_congr eq); [apply eq_rel| |constructor]. intros b b' r _ B <-.
  assert (P := post_at_opp _ _ r F). destruct (get_post xs r) as [p|], (get_post xs' r) as [p'|]; cbn in P; try contradiction; [|reflexivity].
  destruct P as (_ & (a & a' & -> & -> & A) & _). apply bal_add_opp; assumption.
Qed.
Lemma total_opp xs xs' : Forall2 opposite_xact xs xs' -> forall a, same_outcome opposite_balance (account_total xs a) (account_total xs' a).
Proof.
  intros F. apply account_ind'. intros n cs ps IH. cbn [account_total ac_children ac_posts].
  eapply same_outcome_bind.
  - eapply (fold_congr (same_keyed (same_outcome opposite_balance)) opposite_balance); [apply sort_key_rel, map_rel| |constructor].
    + intros c Hc. split; [reflexivity|exact (IH c Hc)].
    + intros t t' s s' T [_ S]. eapply same_outcome_bind; [exact S|]. intros b b' B. apply bal_add_bal_opp; assumption.
  - intros t t' T. eapply same_outcome_bind; [apply amount_opp, F|]. intros b b' B. apply bal_add_bal_opp; assumption.
Qed.
Lemma lines_opp xs xs' : Forall2 opposite_xact xs xs' -> forall a p, same_outcome (Forall2 opposite_shown) (children_lines xs p a) (children_lines xs' p a).
Proof.
  intros F. apply (account_ind' (fun a => forall p, same_outcome (Forall2 opposite_shown) (children_lines xs p a) (children_lines xs' p a))).
  intros n cs ps IH p. cbn [children_lines ac_children].
  eapply same_outcome_bind; [apply total_opp, F|]. intros b b' B.
  eapply (fold_congr (same_keyed (same_outcome (Forall2 opposite_shown)))); [apply sort_key_rel, map_rel| |].
  - intros c Hc. split; [reflexivity|exact (IH c Hc _)].
  - intros t t' s s' T [_ S]. eapply same_outcome_bind; [exact S|]. intros l l' L. apply app_rel; assumption.
  - constructor; [|constructor]. exists (fullname p), b, b'. unfold account_line. rewrite !text_shown. auto.
Qed.
Theorem report_opp j j' : opposite_journal j j' -> same_outcome (Forall2 opposite_shown) (balance_report j) (balance_report j') /\ report_accounts j = report_accounts j'.
Proof. intros (M & _ & X). unfold balance_report, report_accounts. rewrite <- M. split; [apply lines_opp, X|reflexivity]. Qed.
Lemma opp_new : opposite_journal journal_new journal_new.
Proof. repeat split; constructor. Qed.
Theorem files_opp depth cwd fs fs' files : opposite_files fs fs' -> same_outcome opposite_journal (read_journal_files depth cwd fs files) (read_journal_files depth cwd fs' files).
Proof.
  intros F. unfold read_journal_files. eapply (fold_congr eq); [apply eq_rel| |exact opp_new]. intros j j' f _ J <-. unfold parse_file. assert (S := F f).
  destruct (fs f), (fs' f); cbn in S; try contradiction; [|reflexivity]. apply reading_opp; assumption.
Qed.
Theorem run_opp depth cwd fs fs' args : opposite_files fs fs' ->
  same_outcome (fun out out' => out = out' \/ Forall2 opposite_shown out out') (run depth cwd fs args) (run depth cwd fs' args).
Proof.
  intros F. unfold run. eq_step. intros [commands files] _ <-. unfold execute_command. eq_step. intros verb _ <-.
  eapply same_outcome_bind; [apply files_opp, F|]. intros j j' J. destruct (report_opp _ _ J) as [R A].
  assert (RR : same_outcome (fun out out' => out = out' \/ Forall2 opposite_shown out out') (balance_report j) (balance_report j')).
  { destruct (balance_report j), (balance_report j'); cbn in *; auto; contradiction. }
  rewrite <- A. destruct verb as [|c v]; [reflexivity|].
  destruct (N.eq_dec c 97) as [->|N97]; [left; reflexivity|]. destruct (N.eq_dec c 98) as [->|N98]; [destruct (_ || _); [exact RR|reflexivity]|].
  destruct c as [|c]; [reflexivity|]. do 7 (destruct c as [c|c|]; try reflexivity; try (exfalso; congruence)).
Qed.
