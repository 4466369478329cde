(** The order of the commodities in a balance. *)
From Coq Require Import String List NArith ZArith Bool Lia Permutation Sorted.
From Verif Require Import Base Decimal Amount Balance Account Journal Parser Report Options Lib.
From Verif Require Import BaseFacts XactFacts SpecDecimal SpecAmount BalanceFacts SpecAccount AccountFacts SpecJournal JournalFacts SpecReport ReportFacts ReportProofs.
From Verif Require Import SpecScan SpecWhole SpecCommand SpecFull SpecEnd SpecFullEnd SpecOrder CommandProofs EndProofs FullEndProofs OrderProofs SpecShown.
Import ListNotations.
Open Scope list_scope.
Open Scope nat_scope.

(** ** The order of accounts *)
Lemma str_lt_total a : forall b, str_lt a b \/ a = b \/ str_lt b a.
Proof.
  induction a as [|x a IH]; intros [|y b]; cbn [str_lt]; auto. destruct (N.lt_trichotomy x y) as [H|[->|H]]; [auto| |auto].
  destruct (IH b) as [H|[->|H]]; auto.
Qed.
Lemma visited_irrefl p : ~ visited p p.
Proof. induction p as [|x p IH]; cbn; [auto|]. intros [H|[_ H]]; [exact (str_lt_irrefl _ H)|auto]. Qed.
Lemma visited_trans p : forall q r, visited p q -> visited q r -> visited p r.
Proof.
  induction p as [|x p IH]; intros [|y q] [|z r]; cbn [visited]; try tauto.
  intros [H|[-> H]] [H'|[E H']]; [left; eapply str_lt_trans; eassumption|subst; auto|auto|]. right. split; [exact E|]. eapply IH; eassumption.
Qed.
Lemma visited_total p : forall q, visited p q \/ p = q \/ visited q p.
Proof.
  induction p as [|x p IH]; intros [|y q]; cbn [visited]; auto. destruct (str_lt_total x y) as [H|[->|H]]; [auto| |auto].
  destruct (IH q) as [H|[->|H]]; auto.
Qed.
Lemma visited_app p q r : visited q r -> visited (p ++ q) (p ++ r).
Proof. induction p as [|x p IH]; cbn; auto. Qed.
Lemma path_dec (p q : path) : {p = q} + {p <> q}.
Proof. apply list_eq_dec, list_eq_dec, N.eq_dec. Qed.
Lemma visited_dec p q : {visited p q} + {~ visited p q}.
Proof.
  revert q. induction p as [|x p IH]; intros [|y q]; cbn [visited]; auto.
  destruct (str_leb x y) eqn:L; destruct (list_eq_dec N.eq_dec x y) as [E|E].
  - subst y. destruct (IH q) as [V|V]; [left; auto|right]. intros [H|[_ H]]; [exact (str_lt_irrefl _ H)|auto].
  - left. left. apply str_lt_leb. auto.
  - subst y. right. intros [H|[_ H]]; [exact (str_lt_irrefl _ H)|]. pose proof (proj2 (str_lt_leb x x)) as Q. clear -L H IH. assert (X : str_leb x x = true) by (clear; induction x as [|c x IHx]; cbn; [reflexivity|]; rewrite ?N.ltb_irrefl, ?N.eqb_refl; exact IHx). congruence.
  - right. intros [H|[H _]]; [|auto]. apply str_lt_leb in H as [H _]. congruence.
Defined.

Lemma in_account_iff {A} (acct : A -> path) q x : in_account acct q x = true <-> acct x = q.
Proof. unfold in_account. destruct (list_eq_dec (list_eq_dec N.eq_dec) (acct x) q); split; congruence. Qed.

(** ** Sorting by account *)
Section Sort.
Context {A : Type} (acct : A -> path).
Let R x y := visited (acct x) (acct y) \/ acct x = acct y.
Fixpoint put (x : A) (l : list A) : list A :=
  match l with
  | [] => [x]
  | y :: l' => if visited_dec (acct y) (acct x) then y :: put x l' else x :: l
  end.
Fixpoint visit (l : list A) : list A := match l with [] => [] | x :: l' => put x (visit l') end.

Lemma put_in x l y : In y (put x l) <-> x = y \/ In y l.
Proof using. induction l as [|z l IH]; cbn [put]; [reflexivity|]. destruct (visited_dec (acct z) (acct x)); cbn [In]; rewrite ?IH; tauto. Qed.
Lemma R_trans x y z : R x y -> R y z -> R x z.
Proof using. unfold R. intros [H|H] [H'|H']; [left; eapply visited_trans; eassumption|rewrite <- H'; auto|rewrite H; auto|right; congruence]. Qed.
Lemma put_sorted x l : StronglySorted R l -> StronglySorted R (put x l).
Proof using.
  induction 1 as [|y l S IH F]; cbn [put]; [repeat constructor|]. destruct (visited_dec (acct y) (acct x)) as [V|V].
  - constructor; [exact IH|]. apply Forall_forall. intros z Hz. apply put_in in Hz as [<-|Hz]; [left; exact V|]. rewrite Forall_forall in F. apply F, Hz.
  - assert (X : R x y) by (destruct (visited_total (acct x) (acct y)) as [H|[H|H]]; [left; exact H|right; exact H|contradiction]).
    constructor; [constructor; assumption|]. constructor; [exact X|]. eapply Forall_impl; [|exact F]. intros z. apply R_trans, X.
Qed.
Lemma visit_order l : account_order acct l (visit l).
Proof using.
  split.
  - induction l as [|x l IH]; cbn [visit]; [constructor|]. apply put_sorted, IH.
  - intros q. induction l as [|x l IH]; [reflexivity|]. cbn [visit filter]. rewrite <- IH. clear IH. generalize (visit l). clear l. intros l.
    induction l as [|y l IH]; cbn [put filter]; [reflexivity|]. destruct (visited_dec (acct y) (acct x)) as [V|V]; cbn [filter]; [|reflexivity].
    rewrite IH. destruct (in_account acct q x) eqn:Ex; destruct (in_account acct q y) eqn:Ey; try reflexivity.
    apply in_account_iff in Ex, Ey. exfalso. rewrite Ex, Ey in V. exact (visited_irrefl _ V).
Qed.
Lemma order_unique l : forall l1 l2, account_order acct l l1 -> account_order acct l l2 -> l1 = l2.
Proof using.
  intros l1 l2 [S1 F1] [S2 F2]. assert (F : forall q, filter (in_account acct q) l1 = filter (in_account acct q) l2) by (intros q; rewrite F1, F2; reflexivity).
  clear F1 F2. revert l2 S2 F. induction S1 as [|x l1 S1 IH A1]; intros l2 S2 F.
  - destruct l2 as [|y l2]; [reflexivity|]. specialize (F (acct y)). cbn [filter] in F. rewrite (proj2 (in_account_iff acct (acct y) y) eq_refl) in F. discriminate.
  - destruct l2 as [|y l2]; [specialize (F (acct x)); cbn [filter] in F; rewrite (proj2 (in_account_iff acct (acct x) x) eq_refl) in F; discriminate|].
    inversion S2 as [|? ? S2' A2]; subst.
    assert (E : acct x = acct y).
    { assert (X1 : In x (y :: l2)) by (eapply proj1, filter_In; rewrite <- (F (acct x)); apply filter_In; split; [left; reflexivity|apply in_account_iff; reflexivity]).
      assert (Y1 : In y (x :: l1)) by (eapply proj1, filter_In; rewrite (F (acct y)); apply filter_In; split; [left; reflexivity|apply in_account_iff; reflexivity]).
      rewrite Forall_forall in A1, A2. destruct X1 as [->|X1]; [reflexivity|]. destruct Y1 as [->|Y1]; [reflexivity|].
      apply A2 in X1. apply A1 in Y1. unfold R in *. destruct X1 as [X1|X1]; [|congruence]. destruct Y1 as [Y1|Y1]; [|congruence]. exfalso. apply (visited_irrefl (acct x)). eapply visited_trans; eassumption. }
    pose proof (F (acct x)) as Fx. cbn [filter] in Fx. rewrite (proj2 (in_account_iff acct (acct x) x) eq_refl), (proj2 (in_account_iff acct (acct x) y) (eq_sym E)) in Fx.
    injection Fx as Ex _. subst y. f_equal. apply IH; [exact S2'|]. intros q. specialize (F q). cbn [filter] in F. destruct (in_account acct q x); [injection F as F|]; exact F.
Qed.
End Sort.
Lemma visit_forall2 {A B} (f : A -> path) (g : B -> path) (Q : A -> B -> Prop) : (forall x y, Q x y -> f x = g y) -> forall l m, Forall2 Q l m -> Forall2 Q (visit f l) (visit g m).
Proof.
  intros E l m F. induction F as [|x y l m H F IH]; cbn [visit]; [constructor|]. revert IH. generalize (visit f l) (visit g m). clear l m F. intros l m F.
  induction F as [|x' y' l m H' F IH]; cbn [put]; [repeat constructor; exact H|]. rewrite (E _ _ H), (E _ _ H').
  destruct (visited_dec (g y') (g y)); constructor; auto.
Qed.

(** ** The commodities of a balance *)
Lemma bal_add_comms b x b' : bal_add b x = Ok b' -> map a_c b' = map a_c b ++ (if in_dec comm_dec (a_c x) (map a_c b) then [] else [a_c x]).
Proof.
  revert b'. induction b as [|y b IH]; intros b' H; cbn [bal_add] in H; [injection H as <-; reflexivity|].
  destruct (comm_eqb (a_c y) (a_c x)) eqn:E.
  - inv_bind H. injection H as <-. cbn [map]. assert (C : a_c v = a_c y).
    { unfold amt_add in EQ. rewrite E in EQ. destruct (d_is_zero (a_q x)); [injection EQ as <-; reflexivity|].
      inv_bind EQ. injection EQ as <-. reflexivity. }
    apply comm_eqb_eq in E. rewrite C. destruct (in_dec comm_dec (a_c x) (a_c y :: map a_c b)) as [I|I]; [rewrite app_nil_r; reflexivity|]. exfalso. apply I. left. exact E.
  - inv_bind H. injection H as <-. cbn [map app]. rewrite (IH _ EQ). f_equal. f_equal.
    assert (N : a_c y <> a_c x) by (intros C; apply comm_eqb_eq in C; congruence).
    destruct (in_dec comm_dec (a_c x) (map a_c b)) as [I|I]; destruct (in_dec comm_dec (a_c x) (a_c y :: map a_c b)) as [I'|I']; try reflexivity; exfalso.
    + apply I'. right. exact I.
    + destruct I' as [I'|I']; auto.
Qed.
Lemma bal_adds_comms xs : forall b l b', map a_c b = firsts l -> fold_outcome bal_add xs b = Ok b' -> map a_c b' = firsts (l ++ map a_c xs).
Proof.
  induction xs as [|x xs IH]; intros b l b' E H; cbn [fold_outcome] in H; [injection H as <-; rewrite app_nil_r; exact E|].
  inv_bind H. cbn [map]. change (a_c x :: map a_c xs) with ([a_c x] ++ map a_c xs). rewrite app_assoc. eapply IH; [|exact H].
  rewrite (bal_add_comms _ _ _ EQ), firsts_app, E. f_equal. cbn [firsts filter minus_list].
  destruct (in_dec comm_dec (a_c x) (firsts l)) as [I|I]; destruct (in_dec comm_dec (a_c x) l) as [I'|I']; try reflexivity; rewrite firsts_in in I; contradiction.
Qed.
Lemma firsts_firsts l m : firsts (l ++ firsts m) = firsts (l ++ m).
Proof. rewrite !firsts_app, (firsts_idem (firsts m)) by apply firsts_nodup. reflexivity. Qed.
Lemma bal_add_bal_comms t b r l m : map a_c t = firsts l -> map a_c b = firsts m -> bal_add_bal t b = Ok r -> map a_c r = firsts (l ++ m).
Proof. intros T B H. rewrite <- firsts_firsts, <- B. eapply bal_adds_comms; eassumption. Qed.

Lemma total_comms xs a : forall b, resolves xs (sub_refs a) -> account_total xs a = Ok b -> map a_c b = firsts (map a_c (amounts_at xs (sub_refs a))).
Proof.
  induction a as [n cs ps IH] using account_ind'. intros b Rs H. rewrite account_total_eq in H. rewrite sub_refs_eq in *. apply Forall_app in Rs as [R1 R2].
  inv_bind H. inv_bind H. rewrite amounts_at_app, map_app. eapply bal_add_bal_comms; [| |exact H].
  - clear H EQ0 R2. assert (K : forall c, In c (kids (Acct n cs ps)) -> forall b, resolves xs (sub_refs c) -> account_total xs c = Ok b -> map a_c b = firsts (map a_c (amounts_at xs (sub_refs c)))).
    { intros c Hc. apply IH. apply kids_in in Hc. exact Hc. }
    clear IH. change (map a_c (amounts_at xs (concat (map sub_refs (kids (Acct n cs ps)))))) with ([] ++ map a_c (amounts_at xs (concat (map sub_refs (kids (Acct n cs ps)))))).
    assert (B0 : map a_c bal_new = firsts []) by reflexivity. revert B0 EQ R1. generalize bal_new (@nil comm). induction (kids (Acct n cs ps)) as [|c l IHl]; intros t m B0 E R1; cbn [fold_outcome] in E.
    + injection E as <-. rewrite B0. cbn [map concat amounts_at flat_map]. rewrite app_nil_r. reflexivity.
    + inv_bind E. match goal with X : bind _ _ = Ok _ |- _ => inv_bind X; rename X into EQb end. match goal with X : account_total xs c = Ok _ |- _ => rename X into EQa end. cbn [map concat] in *. apply Forall_app in R1 as [Rc R1]. rewrite amounts_at_app, map_app, app_assoc. eapply IHl; [|  |exact E|exact R1].
      * intros d Hd. apply K. right. exact Hd.
      * eapply bal_add_bal_comms; [exact B0|apply K; [left; reflexivity|exact Rc|exact EQa]|eassumption].
  - unfold account_amount in EQ0. cbn [ac_posts] in *. rewrite amount_fold in EQ0 by exact R2. exact (bal_adds_comms _ bal_new [] _ eq_refl EQ0).
Qed.

(** ** The postings of a tree in that order *)
Lemma tree_visits xs a : wf_tree a -> forall q,
  (forall p l r, posts_at a p = Some l -> In r l -> account_of xs r = Some (q ++ p)) ->
  StronglySorted (fun r s => forall x y, account_of xs r = Some x -> account_of xs s = Some y -> visited x y \/ x = y) (sub_refs a)
  /\ forall p l, posts_at a p = Some l -> filter (fun r => match account_of xs r with Some x => if path_dec x (q ++ p) then true else false | None => false end) (sub_refs a) = l.
Proof.
  induction 1 as [n cs ps ND NC Wc IH]. intros q O. rewrite sub_refs_eq. cbn [ac_posts].
  assert (P : forall c, In c cs -> forall p, posts_at (Acct n cs ps) (ac_name c :: p) = posts_at c p).
  { intros c Hc p. rewrite posts_at_cons. cbn [ac_children]. rewrite find_child_in by assumption. reflexivity. }
  assert (Oc : forall c, In c cs -> forall p l r, posts_at c p = Some l -> In r l -> account_of xs r = Some ((q ++ [ac_name c]) ++ p)).
  { intros c Hc p l r Hl Hr. rewrite <- app_assoc. apply (O (ac_name c :: p) l r); [|exact Hr]. rewrite P; assumption. }
  assert (Ic : forall c r, In c cs -> In r (sub_refs c) -> exists p, account_of xs r = Some (q ++ ac_name c :: p)).
  { intros c r Hc Hr. apply sub_refs_in in Hr as (p & l & Hl & Hr); [|apply Wc, Hc]. exists p. rewrite (Oc c Hc p l r Hl Hr), <- app_assoc. reflexivity. }
  assert (Io : forall r, In r ps -> account_of xs r = Some q).
  { intros r Hr. rewrite (O [] ps r eq_refl Hr), app_nil_r. reflexivity. }
  pose proof (kids_sorted (Acct n cs ps) ND) as S. assert (K : forall c, In c (kids (Acct n cs ps)) <-> In c cs) by (intros c; apply kids_in).
  split.
  - apply sorted_app.
    + assert (K' : forall c, In c (kids (Acct n cs ps)) -> In c cs) by (intros c; apply K). clear K. induction S as [|c l S IHl F]; cbn [map concat]; [constructor|]. apply sorted_app.
      * apply (IH c (K' c (or_introl eq_refl)) (q ++ [ac_name c])). apply Oc, K'. left. reflexivity.
      * apply IHl. intros d Hd. apply K'. right. exact Hd.
      * intros r s Hr Hs x y Ex Ey. apply concat_in in Hs as (d & Hd & Hs).
        destruct (Ic c r) as (p & Ep); [apply K'; left; reflexivity|exact Hr|]. destruct (Ic d s) as (p' & Ep'); [apply K'; right; exact Hd|exact Hs|].
        rewrite Ex in Ep. rewrite Ey in Ep'. injection Ep as ->. injection Ep' as ->. left. apply visited_app. left. rewrite Forall_forall in F. apply F, Hd.
    + assert (G : forall l, (forall r, In r l -> account_of xs r = Some q) -> StronglySorted (fun r s => forall x y, account_of xs r = Some x -> account_of xs s = Some y -> visited x y \/ x = y) l).
      { clear. intros l. induction l as [|r l IH]; intros H; constructor; [apply IH; intros s Hs; apply H; right; exact Hs|]. apply Forall_forall. intros s Hs x y Ex Ey.
        rewrite (H r (or_introl eq_refl)) in Ex. rewrite (H s (or_intror Hs)) in Ey. right. congruence. }
      apply G, Io.
    + intros r s Hr Hs x y Ex Ey. apply concat_in in Hr as (d & Hd & Hr). destruct (Ic d r) as (p & Ep); [apply K, Hd|exact Hr|]. rewrite (Io s Hs) in Ey. injection Ey as <-. rewrite Ex in Ep. injection Ep as ->.
      left. rewrite <- (app_nil_r q) at 2. apply visited_app. exact Logic.I.
  - intros p l Hl. rewrite filter_app.
    assert (Z : forall (f : postref -> bool) m, (forall r, In r m -> f r = false) -> filter f m = []).
    { clear. intros f m. induction m as [|r m IH]; intros H; [reflexivity|]. cbn [filter]. rewrite (H r (or_introl eq_refl)). apply IH. intros s Hs. apply H. right. exact Hs. }
    assert (Y : forall (f : postref -> bool) m, (forall r, In r m -> f r = true) -> filter f m = m).
    { clear. intros f m. induction m as [|r m IH]; intros H; [reflexivity|]. cbn [filter]. rewrite (H r (or_introl eq_refl)). f_equal. apply IH. intros s Hs. apply H. right. exact Hs. }
    destruct p as [|k p].
    + cbn in Hl. injection Hl as <-. rewrite app_nil_r, Z, Y; [reflexivity| |].
      * intros r Hr. rewrite (Io r Hr). destruct (path_dec q q); congruence.
      * intros r Hr. apply concat_in in Hr as (d & Hd & Hr). destruct (Ic d r) as (p & ->); [apply K, Hd|exact Hr|]. destruct (path_dec (q ++ ac_name d :: p) q) as [E|]; [|reflexivity].
        rewrite <- (app_nil_r q) in E at 2. apply app_inv_head in E. discriminate.
    + pose proof Hl as Hl'. rewrite posts_at_cons in Hl. cbn [ac_children] in Hl. destruct (find_child k cs) as [c|] eqn:Ek; [|discriminate]. apply find_child_some in Ek as [Hc <-].
      rewrite (Z _ ps), app_nil_r.
      2: { intros r Hr. rewrite (Io r Hr). destruct (path_dec q (q ++ ac_name c :: p)) as [E|]; [|reflexivity]. rewrite <- (app_nil_r q) in E at 1. apply app_inv_head in E. discriminate. }
      destruct (IH c Hc (q ++ [ac_name c]) (Oc c Hc)) as [_ Fc]. specialize (Fc p l Hl). rewrite <- app_assoc in Fc. cbn [app] in Fc.
      apply K in Hc as Hk. apply in_split in Hk as (l1 & l2 & El). rewrite El, map_app, concat_app. cbn [map concat]. rewrite !filter_app, Fc.
      assert (D : forall d r, In d (l1 ++ l2) -> In r (sub_refs d) -> match account_of xs r with Some x => if path_dec x (q ++ ac_name c :: p) then true else false | None => false end = false).
      { intros d r Hd Hr. destruct (Ic d r) as (p' & ->); [apply K; rewrite El; apply in_app_iff in Hd as [Hd|Hd]; apply in_app_iff; [left|right; right]; exact Hd|exact Hr|].
        destruct (path_dec (q ++ ac_name d :: p') (q ++ ac_name c :: p)) as [E|]; [|reflexivity]. apply app_inv_head in E. injection E as E _. exfalso.
        rewrite El in S. assert (N : NoDup (map ac_name (l1 ++ c :: l2))).
        { rewrite <- El. eapply Permutation_NoDup; [apply Permutation_map, kids_perm|exact ND]. }
        rewrite map_app in N. cbn [map] in N. apply NoDup_remove_2 in N. apply N. rewrite <- E, <- map_app. apply in_map, Hd. }
      rewrite (Z _ (concat (map sub_refs l1))), (Z _ (concat (map sub_refs l2))), app_nil_r; [reflexivity| |]; intros r Hr; apply concat_in in Hr as (d & Hd & Hr); apply (D d r); try assumption; apply in_app_iff; auto.
Qed.

(** ** The postings of a journal *)
Lemma refs_posts xs refs : resolves xs refs -> exists ps, map (get_post xs) refs = map Some ps.
Proof.
  induction 1 as [|r refs H _ (ps & IH)]; [exists []; reflexivity|]. destruct (get_post xs r) as [p|] eqn:E; [|congruence].
  exists (p :: ps). cbn [map]. rewrite E, IH. reflexivity.
Qed.
Lemma refs_amounts xs refs : forall ps, map (get_post xs) refs = map Some ps -> amounts_at xs refs = amounts_of ps.
Proof.
  induction refs as [|r refs IH]; intros [|p ps] E; try discriminate; [reflexivity|]. cbn [map] in E. injection E as E1 E. unfold amounts_at, amounts_of. cbn [flat_map]. rewrite E1. f_equal. apply IH, E.
Qed.
Lemma refs_filter xs q refs : forall ps, map (get_post xs) refs = map Some ps ->
  map (get_post xs) (filter (fun r => match account_of xs r with Some x => if path_dec x q then true else false | None => false end) refs) = map Some (filter (in_account po_account q) ps).
Proof.
  induction refs as [|r refs IH]; intros [|p ps] E; try discriminate; [reflexivity|]. cbn [map] in E. injection E as E1 E. cbn [filter]. unfold account_of at 1. rewrite E1. cbn [option_map].
  destruct (path_dec (po_account p) q) as [Q|Q]; destruct (in_account po_account q p) eqn:I.
  - cbn [map]. rewrite E1, (IH ps E). reflexivity.
  - exfalso. apply (in_account_iff po_account q p) in Q. congruence.
  - exfalso. apply in_account_iff in I. congruence.
  - apply IH, E.
Qed.
Lemma refs_sorted xs : forall i, StronglySorted ref_lt (refs_from i xs).
Proof.
  induction xs as [|x xs IH]; intros i; cbn [refs_from]; [constructor|]. apply sorted_app; [|apply IH|].
  - unfold xrefs. generalize 0 (length (x_posts x)). intros s n. revert s. induction n as [|n IHn]; intros s; cbn [seq map]; constructor; [apply IHn|].
    apply Forall_map, Forall_forall. intros k Hk. apply in_seq in Hk. right. cbn. lia.
  - intros r s Hr Hs. unfold xrefs in Hr. apply in_map_iff in Hr as (k & <- & _). apply refs_from_in in Hs as [Hs _]. left. cbn. lia.
Qed.
Lemma filter_sorted {A} (R : A -> A -> Prop) (f : A -> bool) l : StronglySorted R l -> StronglySorted R (filter f l).
Proof.
  induction 1 as [|x l S IH F]; cbn [filter]; [constructor|]. destruct (f x); [|exact IH]. constructor; [exact IH|].
  rewrite Forall_forall in *. intros y Hy. apply filter_In in Hy as [Hy _]. apply F, Hy.
Qed.
Lemma map_some_inj {A} (l m : list A) : map Some l = map Some m -> l = m.
Proof. revert m. induction l as [|x l IH]; intros [|y m] E; try discriminate; [reflexivity|]. injection E as -> E. f_equal. apply IH, E. Qed.

Lemma below_order j q a : reachable_journal j -> get_account (j_master j) q = Some a ->
  exists ps, account_order po_account (posts_below j q) ps /\ amounts_at (j_xacts j) (sub_refs a) = amounts_of ps /\ resolves (j_xacts j) (sub_refs a).
Proof.
  intros R G. apply reachable_inv in R as [W _ L _ _]. destruct (sub_refs_amounts j q a W L G) as [_ Rs]. destruct L as [L1 L2].
  destruct (refs_posts _ _ Rs) as (ps & E). exists ps. split; [|split; [apply refs_amounts, E|exact Rs]].
  assert (P : forall p, posts_at a p = posts_at (j_master j) (q ++ p)) by (intros p; unfold posts_at; rewrite get_account_app, G; reflexivity).
  destruct (tree_visits (j_xacts j) a (wf_get _ _ _ W G) q) as [S F].
  { intros p l r Hl Hr. rewrite P in Hl. apply L1 in Hl as [_ I]. apply I, Hr. }
  split.
  - clear F Rs. revert ps E. induction S as [|r refs S IH Fo]; intros [|p ps] E; try discriminate; [constructor|]. cbn [map] in E. injection E as E1 E. constructor; [apply IH, E|].
    apply Forall_forall. intros p' Hp. assert (X : In (Some p') (map (get_post (j_xacts j)) refs)) by (rewrite E; apply in_map, Hp). apply in_map_iff in X as (r' & Er & Hr).
    rewrite Forall_forall in Fo. apply (Fo r' Hr); unfold account_of; [rewrite E1|rewrite Er]; reflexivity.
  - intros x. pose proof (refs_filter (j_xacts j) x _ _ E) as Fx.
    assert (Al : map (get_post (j_xacts j)) (refs_from 0 (j_xacts j)) = map Some (all_posts j)) by exact (refs_from_posts 0 [] (j_xacts j) eq_refl).
    pose proof (refs_filter (j_xacts j) x _ _ Al) as Fa.
    destruct (prefix_of q x) eqn:Px.
    + apply prefix_of_iff in Px as (p & ->). assert (Eq : filter (in_account po_account (q ++ p)) (posts_below j q) = filter (in_account po_account (q ++ p)) (all_posts j)).
      { clear Al Fa. unfold posts_below. induction (all_posts j) as [|y l IH]; [reflexivity|]. cbn [filter]. destruct (prefix_of q (po_account y)) eqn:Py; cbn [filter]; [rewrite IH; reflexivity|].
        rewrite IH. destruct (in_account po_account (q ++ p) y) eqn:I; [|reflexivity]. apply in_account_iff in I. rewrite I, prefix_of_app in Py. discriminate. }
      rewrite Eq. apply map_some_inj. rewrite <- Fx, <- Fa. f_equal. destruct (posts_at a p) as [l|] eqn:El.
      * rewrite (F p l El). rewrite P in El. apply L1 in El as [Sl I]. eapply (sorted_unique ref_lt); [|exact Sl|apply filter_sorted, refs_sorted|].
        { unfold ref_lt. intros r s. lia. }
        { apply NoDup_Permutation; [|apply NoDup_filter, refs_from_nodup|].
          - clear -Sl. induction Sl as [|r l S IH F]; constructor; [|exact IH]. intros H. rewrite Forall_forall in F. specialize (F r H). unfold ref_lt in F. lia.
          - intros r. rewrite filter_In, I, all_refs_in. split.
            + intros Er. rewrite Er. split; [eauto|]. destruct (path_dec (q ++ p) (q ++ p)); congruence.
            + intros [_ H]. destruct (account_of (j_xacts j) r) as [y|]; [|discriminate]. destruct (path_dec y (q ++ p)); congruence. }
      * assert (N : forall refs, filter (fun r => match account_of (j_xacts j) r with Some x => if path_dec x (q ++ p) then true else false | None => false end) refs = []).
        { intros refs. induction refs as [|r refs IH]; [reflexivity|]. cbn [filter]. destruct (account_of (j_xacts j) r) as [y|] eqn:Ey; [|exact IH]. destruct (path_dec y (q ++ p)) as [->|]; [|exact IH].
          exfalso. apply L2 in Ey. apply posts_at_exists in Ey. rewrite <- P in Ey. congruence. }
        rewrite !N. reflexivity.
    + assert (N1 : filter (in_account po_account x) (posts_below j q) = []).
      { clear Al Fa. unfold posts_below. induction (all_posts j) as [|y l IH]; [reflexivity|]. cbn [filter]. destruct (prefix_of q (po_account y)) eqn:Py; cbn [filter]; [|exact IH].
        destruct (in_account po_account x y) eqn:I; [|exact IH]. apply in_account_iff in I. congruence. }
      rewrite N1. apply map_some_inj. rewrite <- Fx. cbn [map].
      assert (N : forall refs, (forall r, In r refs -> In r (sub_refs a)) -> filter (fun r => match account_of (j_xacts j) r with Some y => if path_dec y x then true else false | None => false end) refs = []).
      { intros refs. induction refs as [|r refs IH]; intros H; [reflexivity|]. cbn [filter]. destruct (account_of (j_xacts j) r) as [y|] eqn:Ey; [|apply IH; intros s Hs; apply H; right; exact Hs].
        destruct (path_dec y x) as [->|]; [|apply IH; intros s Hs; apply H; right; exact Hs]. exfalso. specialize (H r (or_introl eq_refl)).
        apply sub_refs_in in H as (p & l & Hl & Hr); [|exact (wf_get _ _ _ W G)]. rewrite P in Hl. apply L1 in Hl as [_ I]. apply I in Hr. rewrite Ey in Hr. injection Hr as ->. rewrite prefix_of_app in Px. discriminate. }
      rewrite N; auto.
Qed.

Lemma commodities_order j q a b : reachable_journal j -> get_account (j_master j) q = Some a -> account_total (j_xacts j) a = Ok b ->
  exists ps, account_order po_account (posts_below j q) ps /\ map a_c b = firsts (map a_c (amounts_of ps)).
Proof.
  intros R G T. destruct (below_order j q a R G) as (ps & O & E & Rs). exists ps. split; [exact O|]. rewrite <- E. apply total_comms; assumption.
Qed.

(** ** The same for what is written *)
Lemma said_order scale es ps ps' : Forall2 (posting_says scale) es ps -> account_order po_account ps ps' -> shown_order es (firsts (map a_c (amounts_of ps'))).
Proof.
  intros S O. rewrite (order_unique po_account ps _ _ O (visit_order po_account ps)). exists (visit entry_account es). split; [apply visit_order|]. f_equal.
  assert (V : Forall2 (posting_says scale) (visit entry_account es) (visit po_account ps)).
  { apply visit_forall2; [|exact S]. intros e p (E & _). symmetry. exact E. }
  apply says_amounts in V. induction V as [|e a es' as' (E & _) V IH]; [reflexivity|]. cbn [map]. rewrite E, IH. reflexivity.
Qed.
Lemma shown_unique es cs cs' : shown_order es cs -> shown_order es cs' -> cs = cs'.
Proof. intros (e1 & O1 & ->) (e2 & O2 & ->). rewrite (order_unique entry_account es _ _ O1 O2). reflexivity. Qed.
Lemma by_account_below p es es' : same_by_account es es' -> same_by_account (below p es) (below p es').
Proof.
  intros S q. specialize (S q). unfold below. assert (X : forall l, filter (in_account entry_account q) (filter (fun e => prefix_of p (fst (fst e))) l) = if prefix_of p q then filter (in_account entry_account q) l else []).
  { intros l. induction l as [|e l IH]; [destruct (prefix_of p q); reflexivity|]. cbn [filter]. destruct (prefix_of p (fst (fst e))) eqn:P; cbn [filter]; rewrite IH; destruct (in_account entry_account q e) eqn:I; try reflexivity;
      apply in_account_iff in I; unfold entry_account in I; rewrite I in P; rewrite P; reflexivity. }
  rewrite !X, S. reflexivity.
Qed.
Lemma by_account_shown es es' cs cs' : same_by_account es es' -> shown_order es cs -> shown_order es' cs' -> cs = cs'.
Proof. intros S (e1 & (S1 & F1) & ->) O. apply (shown_unique es'); [|exact O]. exists e1. split; [|reflexivity]. split; [exact S1|]. intros q. rewrite F1. apply S. Qed.
Lemma by_account_perm es : forall es', same_by_account es es' -> Permutation es es'.
Proof.
  induction es as [|e es IH]; intros es' S.
  - destruct es' as [|e' es']; [constructor|]. specialize (S (entry_account e')). cbn [filter] in S. rewrite (proj2 (in_account_iff entry_account _ e') eq_refl) in S. discriminate.
  - pose proof (S (entry_account e)) as X. cbn [filter] in X. rewrite (proj2 (in_account_iff entry_account _ e) eq_refl) in X.
    assert (Sp : forall (l r : list entry) x, x :: r = filter (in_account entry_account (entry_account e)) l ->
      exists l1 l2, l = l1 ++ x :: l2 /\ r = filter (in_account entry_account (entry_account e)) l2 /\ Forall (fun y => in_account entry_account (entry_account e) y = false) l1).
    { clear. induction l as [|y l IH]; intros r x E; cbn [filter] in E; [discriminate|]. destruct (in_account entry_account (entry_account e) y) eqn:I.
      - injection E as -> E. exists [], l. repeat split; auto.
      - destruct (IH _ _ E) as (l1 & l2 & -> & E2 & F). exists (y :: l1), l2. repeat split; auto. }
    destruct (Sp _ _ _ X) as (l1 & l2 & -> & E2 & F). transitivity (e :: l1 ++ l2); [|apply Permutation_middle]. constructor. apply IH. intros q.
    specialize (S q). rewrite filter_app in S. cbn [filter] in S. rewrite filter_app. destruct (in_account entry_account q e) eqn:I; [|exact S].
    apply in_account_iff in I. subst q. assert (N : filter (in_account entry_account (entry_account e)) l1 = []).
    { clear -F. induction F as [|y l H F IH]; [reflexivity|]. cbn [filter]. rewrite H. exact IH. }
    rewrite N in *. cbn [app] in *. injection S as S. exact S.
Qed.

Lemma full_balance_order depth cwd fs args verb cmds files wss :
  args_mean args (verb :: cmds) files -> balance_verb verb -> Forall2 (ffile_says depth cwd fs) files wss ->
  Forall xact_ok (concat wss) -> lots_ok (j_pool journal_new) (concat wss) -> full_sums_fit (concat wss) ->
  exists out ps, run depth cwd fs args = Ok out /\ accounts_of_entries (full_entries (concat wss)) ps
    /\ Forall2 (fun p line => exists b, totals_said (below p (full_entries (concat wss))) b
                /\ shown_order (below p (full_entries (concat wss))) (map a_c b)
                /\ line = lit "Account " ++ shown_name p ++ lit " has balance " ++ shown_amounts b) ps out.
Proof.
  intros A V F OK LO (scale & L & K & B). destruct (full_files_read depth cwd fs _ _ F OK LO) as (srcs & j & Fa & Rd & R & X & Ex).
  set (es := full_entries (concat wss)) in *. pose proof (full_says scale _ _ OK K X) as S. fold es in S. change (flat_map x_posts (j_xacts j)) with (all_posts j) in S.
  rewrite (run_balance depth cwd fs _ _ _ _ _ A Fa V), Rd. cbn [bind].
  assert (Wf : Forall wf_amt (amounts_of (all_posts j))).
  { pose proof (i_posts _ _ (reachable_inv _ R)) as Q. clear -Q. unfold amounts_of. induction Q as [|p ps [[Wa _] _] Q IH]; [constructor|]. cbn [flat_map].
    apply Forall_app. split; [|exact IH]. destruct (po_amount p) as [a|] eqn:E; constructor; [apply Wa; reflexivity|constructor]. }
  assert (Ft : fits_amts (amounts_of (all_posts j))) by (eapply says_fits; [exact L|exact Wf|apply says_amounts, S|exact B]).
  destruct (report_succeeds j R Ft) as (out & E). destruct (report_shape j out R E) as (ps & O & G). exists out, ps. split; [exact E|].
  split; [apply (said_accounts _ j); [eapply says_names, S|exact O|exact Ex]|]. eapply Forall2_impl; [|exact G]. intros p line (a & b & Ga & T & ->).
  assert (Fb : fits_amts (amounts_of (posts_below j p))).
  { destruct (below_sub j p []) as (r & P). rewrite below_master in P. cbn [app] in P. eapply fits_amts_sub; eassumption. }
  destruct (total_below j p a R Ga Fb) as (b' & T' & Nd & Cm & Wb & Hs). rewrite T in T'. injection T' as <-. exists b.
  pose proof (says_amounts _ _ _ (says_filter scale p _ _ S)) as Sb. fold (posts_below j p) in Sb.
  split; [split; [exact Nd|]; split; [intros c; rewrite Cm; eapply says_comms, Sb|]; split; [exact Wb|];
          intros x Hx; rewrite <- (says_total _ _ _ (a_c x) Sb), <- Hs; symmetry; apply total_nodup; assumption|].
  split; [|rewrite shown_fullname; reflexivity]. destruct (commodities_order j p a b R Ga T) as (qs & Oq & ->). exact (said_order scale _ _ _ (says_filter scale p _ _ S) Oq).
Qed.
