(** Facts about finalising a transaction. *)
From Coq Require Import List NArith ZArith Bool Lia ZifyBool ZifyNat ZifyN.
From Verif Require Import Base BaseFacts Decimal Dates Amount Balance History Pool Account Journal Xact.
From Verif Require Import SpecDecimal SpecAmount SpecDates SpecPool SpecXact.
From Verif Require Import DecimalFacts RoundFacts DatesFacts BalanceFacts PoolFacts PriceFacts PriceProofs.
Import ListNotations.
Open Scope nat_scope.

Lemma worth_value p : post_value p = worth p.
Proof. unfold post_value, worth. destruct (po_cost p), (po_amount p); reflexivity. Qed.
Lemma worths_app l1 l2 : worths (l1 ++ l2) = worths l1 ++ worths l2.
Proof. apply flat_map_app. Qed.
Lemma worths_cons p l : worths (p :: l) = (match worth p with Some a => [a] | None => [] end) ++ worths l.
Proof. reflexivity. Qed.

(** ** The sum *)
Lemma sum_posts_inv posts : forall i bal np bal' np',
  sum_posts posts i bal np = Ok (bal', np') ->
  fold_outcome bal_add (worths posts) bal = Ok bal'
  /\ match np with
     | Some k => np' = Some k /\ complete posts
     | None => np' = None /\ complete posts
               \/ exists l1 p l2, one_elided posts l1 p l2 /\ np' = Some (i + length l1)
     end.
Proof.
  induction posts as [|p posts IH]; intros i bal np bal' np' H; cbn [sum_posts] in H.
  - injection H as <- <-. split; [reflexivity|]. destruct np; [split; [reflexivity|constructor]|].
    left. split; [reflexivity|constructor].
  - rewrite worth_value in H. rewrite worths_cons. destruct (worth p) as [a|] eqn:V.
    + inv_bind H. apply IH in H as [H1 H2]. split; [cbn [app fold_outcome]; rewrite EQ; exact H1|].
      assert (Vp : worth p <> None) by congruence.
      destruct np; [split; [apply H2|constructor; [exact Vp|apply H2]]|].
      destruct H2 as [[H2 H3]|(l1 & q & l2 & (E1 & E2 & E3 & E4) & N)].
      * left. split; [exact H2|constructor; auto].
      * right. exists (p :: l1), q, l2. split; [|rewrite N; cbn [length]; f_equal; lia].
        split; [rewrite E1; reflexivity|]. split; [exact E2|]. split; [constructor; auto|exact E4].
    + destruct np; [discriminate|]. apply IH in H as [H1 [H2 H3]]. split; [exact H1|].
      right. exists [], p, posts. split; [|rewrite H2; f_equal; cbn; lia].
      split; [reflexivity|]. split; [exact V|]. split; [constructor|exact H3].
Qed.

Lemma sum_posts_complete posts : forall i bal np,
  complete posts ->
  sum_posts posts i bal np = let* b := fold_outcome bal_add (worths posts) bal in Ok (b, np).
Proof.
  induction posts as [|p posts IH]; intros i bal np H; cbn [sum_posts]; [reflexivity|].
  inversion H; subst. rewrite worth_value, worths_cons. destruct (worth p) as [a|]; [|congruence].
  cbn [app fold_outcome]. destruct (bal_add bal a); cbn [bind]; auto.
Qed.
Lemma sum_posts_elided l1 p l2 : forall i bal,
  complete l1 -> worth p = None -> complete l2 ->
  sum_posts (l1 ++ p :: l2) i bal None
  = let* b := fold_outcome bal_add (worths (l1 ++ p :: l2)) bal in Ok (b, Some (i + length l1)).
Proof.
  induction l1 as [|q l1 IH]; intros i bal H1 V H2; cbn [app sum_posts].
  - rewrite worth_value, V, sum_posts_complete by exact H2. rewrite worths_cons, V. cbn [app length].
    replace (i + 0) with i by lia. reflexivity.
  - inversion H1; subst. rewrite worth_value, worths_cons. destruct (worth q) as [a|]; [|congruence].
    cbn [app fold_outcome length]. destruct (bal_add bal a); cbn [bind]; auto.
    rewrite IH by assumption. replace (i + S (length l1)) with (S i + length l1) by lia. reflexivity.
Qed.

(** ** The price loop *)
Lemma exchange_amount p amt cost pu moment bd np :
  exchange p amt cost pu moment = Ok (bd, np) -> bd_amount bd = amt.
Proof.
  unfold exchange. intros H. repeat (inv_bind H). injection H as <- _. reflexivity.
Qed.

(** A posting that the price loop accepts: no cost, or amount and cost in different commodities. *)
Definition cost_ok (p : post) : Prop :=
  forall c, po_cost p = Some c -> exists a, po_amount p = Some a /\ a_c a <> a_c c.

Lemma price_loop_posts date posts : forall pool pool' posts',
  price_loop date pool posts = Ok (pool', posts') ->
  posts' = posts /\ Forall cost_ok posts
  /\ (date = None -> Forall (fun p => po_cost p = None) posts).
Proof.
  induction posts as [|p posts IH]; intros pool pool' posts' H; cbn [price_loop] in H.
  - injection H as <- <-. repeat split; auto.
  - inv_bind H. destruct v as [pool1 p1]. inv_bind H. destruct v as [pool2 posts2]. injection H as <- <-.
    apply IH in EQ0 as (-> & F & D). destruct (po_cost p) as [c|] eqn:C.
    + destruct (po_amount p) as [a|] eqn:A; [|discriminate].
      destruct (comm_eqb_spec (a_c a) (a_c c)) as [|N]; [discriminate|]. inv_bind EQ. inv_bind EQ. destruct v0 as [bd np].
      inv_bind EQ. injection EQ as <- <-. apply exchange_amount in EQ1 as ->. split; [|split].
      * f_equal. unfold set_amount. destruct p; cbn in *; congruence.
      * constructor; [|exact F]. intros c' Hc. rewrite C in Hc. injection Hc as <-. exists a. auto.
      * intros ->. discriminate.
    + injection EQ as <- <-. split; [reflexivity|]. split.
      * constructor; [|exact F]. intros c Hc. congruence.
      * intros ->. constructor; auto.
Qed.
Lemma price_loop_plain date posts pool :
  Forall (fun p => po_cost p = None) posts -> price_loop date pool posts = Ok (pool, posts).
Proof.
  induction 1 as [|p posts C F IH]; cbn [price_loop]; [reflexivity|]. rewrite C. cbn [bind]. rewrite IH. reflexivity.
Qed.

(** ** Implied costs *)
Definition implied (c : comm) (u : amount) (p p' : post) : Prop :=
  exists a, po_amount p = Some a
    /\ (a_c a <> c -> p' = p)
    /\ (a_c a = c -> exists k, amt_mul u a = Ok k /\ p' = set_cost p k).
Lemma cost_loop_inv c u posts : forall bal posts' bal',
  cost_loop c u posts bal = Ok (posts', bal') -> Forall2 (implied c u) posts posts'.
Proof.
  induction posts as [|p posts IH]; intros bal posts' bal' H; cbn [cost_loop] in H.
  - injection H as <- <-. constructor.
  - inv_bind H. apply unwrap_ok in EQ. inv_bind H. destruct v0 as [p1 b1]. inv_bind H. destruct v0 as [ps1 b2].
    injection H as <- <-. apply IH in EQ1. constructor; [|exact EQ1]. exists v. split; [exact EQ|].
    destruct (comm_eqb_spec (a_c v) c) as [E|E].
    + inv_bind EQ0. inv_bind EQ0. inv_bind EQ0. injection EQ0 as <- <-. split; [congruence|]. eauto.
    + injection EQ0 as <- <-. split; [reflexivity|congruence].
Qed.

Lemma top_amount_first posts :
  match top_amount posts with
  | Some a => first_amount posts a
  | None => Forall (fun p => po_amount p = None) posts
  end.
Proof.
  induction posts as [|p posts IH]; cbn [top_amount]; [constructor|].
  destruct (po_amount p) as [a|] eqn:A.
  - exists [], p, posts. repeat split; auto.
  - destruct (top_amount posts) as [a|].
    + destruct IH as (l1 & q & l2 & E1 & E2 & E3). exists (p :: l1), q, l2. rewrite E1. repeat split; auto.
    + constructor; auto.
Qed.
Lemma first_amount_det posts a b : first_amount posts a -> first_amount posts b -> a = b.
Proof.
  intros (l1 & p & l2 & E & A & F) (m1 & q & m2 & E' & A' & F'). subst posts. revert m1 E' F'.
  induction l1 as [|x l1 IH]; intros [|y m1] E' F'; cbn in E'; injection E' as E1 E2; subst.
  - congruence.
  - inversion F'; congruence.
  - inversion F; congruence.
  - inversion F; inversion F'; subst. eapply IH; eauto.
Qed.

Lemma infer_costs_inv posts bal posts' bal' :
  infer_costs posts bal = Ok (posts', bal') ->
  (posts' = posts /\ bal' = bal /\
    (forall x y, bal = [x; y] -> amt_is_zero x = false -> amt_is_zero y = false ->
                 Forall (fun p => po_amount p = None) posts))
  \/ exists x y x0 y0 top r,
       bal = [x0; y0] /\ amt_is_zero x0 = false /\ amt_is_zero y0 = false
       /\ first_amount posts top
       /\ (x = x0 /\ y = y0 /\ a_c x0 = a_c top \/ x = y0 /\ y = x0 /\ a_c x0 <> a_c top)
       /\ amt_div y x = Ok r /\ Forall2 (implied (a_c x) (amt_abs r)) posts posts'.
Proof.
  unfold infer_costs. intros H.
  destruct bal as [|x0 [|y0 [|z bal]]];
    [left; injection H as <- <-; repeat split; congruence|left; injection H as <- <-; repeat split; congruence|
    |left; injection H as <- <-; repeat split; congruence].
  pose proof (top_amount_first posts) as T. destruct (top_amount posts) as [top|].
  2:{ injection H as <- <-. left. repeat split; auto. }
  destruct (amt_is_zero x0) eqn:Zx; cbn [negb andb] in H.
  { injection H as <- <-. left. repeat split; auto. intros x y [= -> ->]. congruence. }
  destruct (amt_is_zero y0) eqn:Zy; cbn [negb andb] in H.
  { injection H as <- <-. left. repeat split; auto. intros x y [= -> ->]. congruence. }
  right. destruct (comm_eqb_spec (a_c x0) (a_c top)) as [E|E]; cbn [negb] in H.
  - inv_bind H. apply cost_loop_inv in H. exists x0, y0, x0, y0, top, v. repeat split; auto.
  - inv_bind H. apply cost_loop_inv in H. exists y0, x0, x0, y0, top, v. repeat split; auto.
Qed.

(** ** [finalize_posts] as a whole *)
Lemma update_nth_mid {A} (f : A -> A) l1 x l2 : update_nth (length l1) f (l1 ++ x :: l2) = l1 ++ f x :: l2.
Proof. induction l1 as [|y l1 IH]; cbn; [reflexivity|]. f_equal. exact IH. Qed.

Lemma finalize_inv date pool posts pool' posts' :
  finalize_posts date pool posts = Ok (pool', posts') ->
  length posts <> 1 /\ exists bal, fold_outcome bal_add (worths posts) bal_new = Ok bal /\
  ((complete posts /\ exists bal1, infer_costs posts bal = Ok (posts', bal1)
     /\ price_loop date pool posts' = Ok (pool', posts'))
   \/ exists l1 p l2 b, one_elided posts l1 p l2 /\ bal = [b]
       /\ price_loop date pool posts = Ok (pool', posts)
       /\ posts' = l1 ++ set_amount p (amt_inverse b) :: l2).
Proof.
  unfold finalize_posts. intros H. inv_bind H. destruct v as [bal np].
  destruct (Nat.eqb_spec (length posts) 1) as [|L]; [discriminate|]. split; [exact L|].
  apply sum_posts_inv in EQ as [Hb Hn]. exists bal. split; [exact Hb|].
  inv_bind H. destruct v as [posts1 bal1]. inv_bind H. destruct v as [pool1 posts2].
  destruct (price_loop_posts _ _ _ _ _ EQ0) as (-> & _).
  destruct Hn as [[-> C]|(l1 & p & l2 & E & ->)].
  - left. injection H as <- <-. eauto.
  - right. injection EQ as <- <-. destruct bal as [|b [|? ?]]; try discriminate. injection H as <- <-.
    exists l1, p, l2, b. split; [exact E|]. split; [reflexivity|]. split; [exact EQ0|].
    destruct E as (-> & _). cbn [Nat.add]. apply (update_nth_mid (fun p => set_amount p (amt_inverse b))).
Qed.

(** ** C08, C13: frame *)
Lemma Forall2_refl {A} (R : A -> A -> Prop) l : (forall x, R x x) -> Forall2 R l l.
Proof. intros H. induction l; constructor; auto. Qed.
Lemma same_posting_refl p : same_posting p p.
Proof. repeat split; auto. Qed.
Lemma implied_same c u p p' : implied c u p p' -> same_posting p p'.
Proof.
  intros (a & A & H1 & H2). destruct (comm_dec (a_c a) c) as [E|E].
  - destruct (H2 E) as (k & _ & ->). repeat split; auto.
  - rewrite (H1 E). apply same_posting_refl.
Qed.
Lemma Forall2_impl {A B} (R S : A -> B -> Prop) l l' :
  (forall x y, R x y -> S x y) -> Forall2 R l l' -> Forall2 S l l'.
Proof. intros H. induction 1; constructor; auto. Qed.

Lemma finalize_frame date pool posts pool' posts' :
  finalize_posts date pool posts = Ok (pool', posts') -> Forall2 same_posting posts posts'.
Proof.
  intros H. apply finalize_inv in H as (_ & bal & _ & [(_ & b1 & H & _)|(l1 & p & l2 & b & E & _ & _ & ->)]).
  - apply infer_costs_inv in H as [(-> & _)|(x & y & x0 & y0 & top & r & _ & _ & _ & _ & _ & _ & H)].
    + apply Forall2_refl, same_posting_refl.
    + eapply Forall2_impl; [|exact H]. apply implied_same.
  - destruct E as (-> & V & _). apply Forall2_app; [apply Forall2_refl, same_posting_refl|].
    constructor; [|apply Forall2_refl, same_posting_refl]. repeat split; auto. intros a A.
    unfold worth in V. rewrite A in V. destruct (po_cost p); discriminate.
Qed.

(** What finalisation guarantees about each posting. *)
Lemma finalize_complete date pool posts pool' posts' :
  finalize_posts date pool posts = Ok (pool', posts') ->
  length posts' <> 1 /\
  Forall (fun p => exists a, po_amount p = Some a /\ forall c, po_cost p = Some c -> a_c a <> a_c c) posts'.
Proof.
  intros H. pose proof (finalize_frame _ _ _ _ _ H) as Fr.
  assert (L : length posts' = length posts) by (clear -Fr; induction Fr; cbn; congruence).
  apply finalize_inv in H as (N & bal & _ & [(C & b1 & H & P)|(l1 & p & l2 & b & E & _ & P & ->)]).
  - split; [congruence|]. apply price_loop_posts in P as (_ & Ok & _).
    assert (C' : complete posts').
    { apply infer_costs_inv in H as [(-> & _)|(x & y & x0 & y0 & top & r & _ & _ & _ & _ & _ & _ & H)]; [exact C|].
      clear -H. induction H as [|p p' l l' I _ IH]; constructor; auto.
      destruct I as (a & A & H1 & H2). destruct (comm_dec (a_c a) (a_c x)) as [E|E].
      - destruct (H2 E) as (k & _ & ->). unfold worth. cbn. discriminate.
      - rewrite (H1 E). unfold worth. rewrite A. destruct (po_cost p); discriminate. }
    rewrite Forall_forall. intros p Hp. unfold complete in C'. rewrite Forall_forall in Ok, C'.
    specialize (Ok p Hp). specialize (C' p Hp). unfold worth in C'. destruct (po_cost p) as [c|] eqn:Cp.
    + destruct (Ok c Cp) as (a & A & Nc). exists a. split; [exact A|]. intros c' [= <-]. exact Nc.
    + destruct (po_amount p) as [a|]; [|congruence]. exists a. split; [reflexivity|discriminate].
  - destruct E as (-> & V & C1 & C2). split; [congruence|].
    apply price_loop_posts in P as (_ & Ok & _).
    assert (G : forall q, worth q <> None -> cost_ok q ->
                 exists a, po_amount q = Some a /\ forall c, po_cost q = Some c -> a_c a <> a_c c).
    { intros q W O. unfold worth in W. destruct (po_cost q) as [c|] eqn:Cp.
      - destruct (O c Cp) as (a & A & Nc). exists a. split; [exact A|]. intros c' [= <-]. exact Nc.
      - destruct (po_amount q) as [a|]; [|congruence]. exists a. split; [reflexivity|discriminate]. }
    apply Forall_app in Ok as [O1 O2]. inversion O2 as [|? ? Op O2']; subst.
    apply Forall_app. split; [|constructor].
    + unfold complete in C1. rewrite Forall_forall in *. intros q Hq. apply G; auto.
    + exists (amt_inverse b). split; [reflexivity|]. cbn. intros c Hc. exfalso.
      unfold worth in V. rewrite Hc in V. destruct (po_amount p); discriminate.
    + unfold complete in C2. rewrite Forall_forall in *. intros q Hq. apply G; auto.
Qed.
