(** When arithmetic on amounts has a result. *)
From Coq Require Import List NArith ZArith Bool Lia.
From Verif Require Import Base Decimal Amount SpecDecimal SpecAmount BaseFacts DecimalFacts BalanceFacts ArithProofs DefinedFacts.
Import ListNotations.
Local Open Scope Z_scope.

Lemma ok_bind {A B} (o : outcome A) (f : A -> B) : (exists r, (let* q := o in Ok (f q)) = Ok r) <-> exists q, o = Ok q.
Proof. split; [intros (r & H); destruct o; try discriminate; eauto|intros (q & ->); cbn; eauto]. Qed.
Lemma sum_some a b : wf_amt a -> wf_amt b -> a_c a = a_c b ->
  ((exists r, amt_plus a b = Ok r) <-> 2 * Z.abs (aunits a + aunits b) < (2 ^ 97 - 1) * unit1)
  /\ ((exists r, amt_add a b = Ok r) <-> 2 * Z.abs (aunits a + aunits b) < (2 ^ 97 - 1) * unit1).
Proof.
  intros Wa Wb C. unfold amt_plus, amt_add. rewrite C, comm_eqb_refl.
  assert (P : (exists r, (let* q := d_add (a_q a) (a_q b) in Ok (mkAmt q (a_c b))) = Ok r) <-> 2 * Z.abs (aunits a + aunits b) < (2 ^ 97 - 1) * unit1).
  { rewrite ok_bind. apply d_add_some; assumption. }
  split; [exact P|]. destruct (d_is_zero (a_q b)) eqn:Z0; [|exact P]. apply d_is_zero_units in Z0; [|exact Wb]. unfold aunits. rewrite Z0, Z.add_0_r.
  split; [intros _; apply wf_in_range, Wa|eauto].
Qed.
Lemma difference_some a b : wf_amt a -> wf_amt b -> a_c a = a_c b ->
  (exists r, amt_minus a b = Ok r) <-> 2 * Z.abs (aunits a - aunits b) < (2 ^ 97 - 1) * unit1.
Proof. intros Wa Wb C. unfold amt_minus. rewrite C, comm_eqb_refl, ok_bind. apply d_sub_some; assumption. Qed.
Lemma product_some a b : wf_amt a -> wf_amt b ->
  (exists r, amt_mul a b = Ok r) <-> 2 * Z.abs (aunits a * aunits b) < (2 ^ 97 - 1) * unit1 * unit1.
Proof. intros Wa Wb. unfold amt_mul. rewrite (ok_bind _ (fun q => mkAmt q (comm_or (a_c a) (a_c b)))). apply d_mul_some; assumption. Qed.
Lemma quotient_some a b : wf_amt a -> wf_amt b ->
  (exists r, amt_div a b = Ok r) <-> aunits b <> 0 /\ 2 * Z.abs (aunits a) < (2 ^ 97 - 1) * Z.abs (aunits b).
Proof. intros Wa Wb. unfold amt_div. rewrite (ok_bind _ (fun q => mkAmt q (comm_or (a_c a) (a_c b)))). apply d_div_some; assumption. Qed.
(** Only a panic can take the place of a result. *)
Lemma reduced_ends z s : d_reduced z s <> Diverge.
Proof. unfold d_reduced. destruct (reduce _ _) as [[? ?]|]; discriminate. Qed.
Lemma bind_ends {A B} (o : outcome A) (f : A -> B) : o <> Diverge -> (let* q := o in Ok (f q)) <> Diverge.
Proof. destruct o; cbn; congruence. Qed.
Lemma arithmetic_ends a b : amt_add a b <> Diverge /\ amt_plus a b <> Diverge /\ amt_minus a b <> Diverge /\ amt_mul a b <> Diverge /\ amt_div a b <> Diverge.
Proof.
  assert (A : d_add (a_q a) (a_q b) <> Diverge) by (unfold d_add; destruct (d_is_zero _); [discriminate|]; destruct (d_is_zero _); [discriminate|]; apply reduced_ends).
  assert (S : d_sub (a_q a) (a_q b) <> Diverge) by (unfold d_sub; destruct (d_is_zero _); [discriminate|]; destruct (d_is_zero _); [discriminate|]; apply reduced_ends).
  assert (M : d_mul (a_q a) (a_q b) <> Diverge) by (unfold d_mul; destruct (_ || _); [discriminate|]; match goal with |- context [if ?c then _ else _] => destruct c end; [discriminate|apply reduced_ends]).
  assert (D : d_div (a_q a) (a_q b) <> Diverge) by (unfold d_div; repeat (match goal with |- context [match ?x with _ => _ end] => destruct x end; try discriminate)).
  unfold amt_add, amt_plus, amt_minus, amt_mul, amt_div. repeat split; try (destruct (comm_eqb _ _); [|discriminate]); try (destruct (d_is_zero _); [discriminate|]);
    first [apply (bind_ends _ (fun q => mkAmt q (a_c a))); assumption|apply (bind_ends _ (fun q => mkAmt q (comm_or (a_c a) (a_c b)))); assumption].
Qed.
