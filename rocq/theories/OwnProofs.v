(** Proofs for C102 and C10: what the report tells about each account by itself, and costs that are no numbers. *)
From Coq Require Import String List NArith ZArith Bool Lia.
From Verif Require Import Base Decimal Dates Amount Balance Scanner History Pool Account Journal Xact Parser Report Options Lib.
From Verif Require Import SpecDecimal SpecAmount SpecAccount SpecScan SpecXact SpecJournal SpecReport SpecCommand SpecReportText SpecContent.
From Verif Require Import BaseFacts ScanFacts ScanProofs AccountFacts PostProofs ReportProofs ReportTextProofs ContentProofs.
Import ListNotations.
Open Scope list_scope.
Open Scope nat_scope.

Definition is_exactly (q : path) (p : post) : bool := if list_eq_dec (list_eq_dec N.eq_dec) (po_account p) q then true else false.
Lemma sumZ_cons x l : sumZ (x :: l) = (x + sumZ l)%Z.
Proof. reflexivity. Qed.
Lemma sumZ_app a b : sumZ (a ++ b) = (sumZ a + sumZ b)%Z.
Proof. induction a as [|x a IH]; [reflexivity|]. cbn [app]. rewrite !sumZ_cons, IH. lia. Qed.
Lemma total_split c F (p : post) ps :
  total c (amounts_of (filter F (p :: ps))) = ((if F p then total c (amounts_of [p]) else 0) + total c (amounts_of (filter F ps)))%Z.
Proof.
  cbn [filter]. destruct (F p); [|lia]. unfold total, in_comm, amounts_of. cbn [flat_map]. rewrite app_nil_r, filter_app, map_app, sumZ_app. reflexivity.
Qed.
Lemma sumZ_plus {A} (f h : A -> Z) l : sumZ (map (fun k => f k + h k)%Z l) = (sumZ (map f l) + sumZ (map h l))%Z.
Proof. induction l as [|k l IH]; [reflexivity|]. cbn [map]. rewrite !sumZ_cons, IH. lia. Qed.
Lemma sum_none {A} (f : A -> Z) l : (forall x, In x l -> f x = 0%Z) -> sumZ (map f l) = 0%Z.
Proof. induction l as [|x l IH]; intros H; [reflexivity|]. cbn [map]. rewrite sumZ_cons, IH, H; [reflexivity|left; reflexivity|]. intros y I. apply H. right. exact I. Qed.
Lemma sum_one {A} (f : A -> Z) x l : NoDup l -> In x l -> (forall y, y <> x -> f y = 0%Z) -> sumZ (map f l) = f x.
Proof.
  intros N I H. induction N as [|y l Ny N IH]; [destruct I|]. cbn [map]. rewrite sumZ_cons. destruct I as [->|I].
  - rewrite sum_none; [lia|]. intros z Iz. apply H. intros ->. contradiction.
  - rewrite (IH I), H; [reflexivity|]. intros ->. contradiction.
Qed.
Lemma prefix_next q x y r : prefix_of (q ++ [y]) (q ++ x :: r) = true <-> y = x.
Proof.
  rewrite prefix_of_iff. split.
  - intros [t E]. rewrite <- app_assoc in E. apply app_inv_head in E. injection E as -> _. reflexivity.
  - intros ->. exists r. rewrite <- app_assoc. reflexivity.
Qed.
(** The postings of an account and below: its own, and those of each account directly below it and below. *)
Lemma by_children c q X ps : NoDup X -> (forall p x r, In p ps -> po_account p = q ++ x :: r -> In x X) ->
  total c (amounts_of (filter (fun p => prefix_of q (po_account p)) ps))
  = (total c (amounts_of (filter (is_exactly q) ps))
     + sumZ (map (fun x => total c (amounts_of (filter (fun p => prefix_of (q ++ [x]) (po_account p)) ps))) X))%Z.
Proof.
  intros N. induction ps as [|p ps IH]; intros C.
  - cbn [filter]. change (total c (amounts_of [])) with 0%Z. rewrite sum_none; [reflexivity|]. intros x _. reflexivity.
  - rewrite !total_split, IH by (intros p' x r I; apply C; right; exact I).
    rewrite (map_ext (fun x => total c (amounts_of (filter (fun p => prefix_of (q ++ [x]) (po_account p)) (p :: ps))))
      (fun x => ((if prefix_of (q ++ [x]) (po_account p) then total c (amounts_of [p]) else 0) + total c (amounts_of (filter (fun p => prefix_of (q ++ [x]) (po_account p)) ps)))%Z))
      by (intros x; apply total_split).
    rewrite sumZ_plus. set (w := total c (amounts_of [p])).
    assert (K : (if prefix_of q (po_account p) then w else 0%Z)
                = ((if is_exactly q p then w else 0) + sumZ (map (fun x => if prefix_of (q ++ [x]) (po_account p) then w else 0) X))%Z).
    { destruct (prefix_of q (po_account p)) eqn:E.
      - apply prefix_of_iff in E as [[|x r] E].
        + rewrite app_nil_r in E. unfold is_exactly. destruct (list_eq_dec (list_eq_dec N.eq_dec) (po_account p) q) as [_|D]; [|contradiction]. rewrite sum_none; [lia|].
          intros x _. rewrite E. destruct (prefix_of (q ++ [x]) q) eqn:F; [|reflexivity]. apply prefix_of_iff in F as [r F]. apply (f_equal (@length _)) in F. rewrite !app_length in F. cbn [length] in F. lia.
        + unfold is_exactly. destruct (list_eq_dec (list_eq_dec N.eq_dec) (po_account p) q) as [D|_].
          { exfalso. rewrite E in D. rewrite <- (app_nil_r q) in D at 2. apply app_inv_head in D. discriminate D. }
          rewrite E. rewrite (sum_one _ x X N (C p x r (or_introl eq_refl) E)).
          * rewrite (proj2 (prefix_next q x x r) eq_refl). lia.
          * intros y D. destruct (prefix_of (q ++ [y]) (q ++ x :: r)) eqn:F; [apply prefix_next in F; contradiction|reflexivity].
      - unfold is_exactly. destruct (list_eq_dec (list_eq_dec N.eq_dec) (po_account p) q) as [D|_]; [rewrite D, prefix_of_refl in E; discriminate E|].
        rewrite sum_none; [reflexivity|]. intros x _. destruct (prefix_of (q ++ [x]) (po_account p)) eqn:F; [|reflexivity].
        apply prefix_of_iff in F as [r F]. rewrite F, <- app_assoc, prefix_of_app in E. discriminate E. }
    rewrite K. lia.
Qed.
Definition next_of (q : path) (p : post) : list str := match skipn (length q) (po_account p) with [] => [] | x :: _ => [x] end.
Lemma own_totals j1 j2 : (forall q c, total c (amounts_of (posts_below j1 q)) = total c (amounts_of (posts_below j2 q))) ->
  forall q c, total c (amounts_of (posts_exactly j1 q)) = total c (amounts_of (posts_exactly j2 q)).
Proof.
  intros H q c. set (X := nodup (list_eq_dec N.eq_dec) (flat_map (next_of q) (all_posts j1 ++ all_posts j2))).
  assert (N : NoDup X) by apply NoDup_nodup.
  assert (C : forall p x r, In p (all_posts j1 ++ all_posts j2) -> po_account p = q ++ x :: r -> In x X).
  { intros p x r I E. apply nodup_In, in_flat_map. exists p. split; [exact I|]. unfold next_of. rewrite E, skipn_app, skipn_all, Nat.sub_diag. left. reflexivity. }
  assert (B1 := by_children c q X (all_posts j1) N (fun p x r I => C p x r (in_or_app _ _ _ (or_introl I)))).
  assert (B2 := by_children c q X (all_posts j2) N (fun p x r I => C p x r (in_or_app _ _ _ (or_intror I)))).
  assert (E : forall x, total c (amounts_of (filter (fun p => prefix_of (q ++ [x]) (po_account p)) (all_posts j1))) = total c (amounts_of (filter (fun p => prefix_of (q ++ [x]) (po_account p)) (all_posts j2)))) by (intros x; apply H).
  rewrite (map_ext _ _ E) in B1. specialize (H q c). unfold posts_below in H. rewrite B1, B2 in H.
  unfold posts_exactly. change (fun p => if list_eq_dec (list_eq_dec N.eq_dec) (po_account p) q then true else false) with (is_exactly q). lia.
Qed.

(** A cost that is not a number is none. *)
Lemma unreadable_cost j xi l tok j' : posting_line l tok -> parse_post j xi l = Ok j' ->
  exists p, adds_posting j xi p j' /\ ((forall u k, ~ denotes (t_cost_quantity tok) u k) -> po_cost p = None).
Proof.
  intros L H. destruct (parse_post_parts _ _ _ _ _ (posting_scanned _ _ L) H) as (m1 & acct & p2 & ann & p4 & p & _ & Hp & _ & Hc & _ & A).
  exists p. split; [exact A|]. intros D.
  assert (Q : forallb is_qchar (t_cost_quantity tok) = true).
  { assert (W : forall t q s, written_amount t q s -> forallb is_qchar q = true) by (intros t q s W; destruct W; apply quantity_chars; assumption).
    destruct L; [reflexivity|]. cbn [t_cost_quantity]. match goal with C : cost _ _ _ _ |- _ => destruct C end; [reflexivity|eapply W; eassumption|eapply W; eassumption]. }
  apply qchars_number in Q. unfold parse_cost in Hc. destruct (po_amount p); [|injection Hc as _ <-; reflexivity].
  destruct (is_empty (t_cost_quantity tok)); [injection Hc as _ <-; reflexivity|]. unfold parse_amount_parts in Hc.
  destruct (pool_find_or_create _ _ _) as [p5 cm]. destruct (d_from_str (t_cost_quantity tok)) as [d|].
  - destruct Q as (u & k & Q & _). elim (D u k Q).
  - injection Hc as _ <-. reflexivity.
Qed.
