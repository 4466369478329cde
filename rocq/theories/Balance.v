(** Model of balance.rs: a vector of amounts, one per commodity. *)
From Coq Require Import List NArith ZArith Bool Lia.
From Verif Require Import Base Decimal Amount.
Import ListNotations.

(** balance.rs:14-22 *)
Definition balance := list amount.
(** balance.rs:25-34 [new] *)
Definition bal_new : balance := [].

(** balance.rs:40-57 [add]: the first entry of the same commodity is increased, else the amount
    is appended. *)
Fixpoint bal_add (b : balance) (a : amount) : outcome balance :=
  match b with
  | [] => Ok [a]
  | x :: b' => if comm_eqb (a_c x) (a_c a)
               then let* x' := amt_add x a in Ok (x' :: b')
               else let* b'' := bal_add b' a in Ok (x :: b'')
  end.

(** balance.rs:60-77 [SubAssign<Amount>]: a missing commodity gets [inverse()] of the amount. *)
Fixpoint bal_sub (b : balance) (a : amount) : outcome balance :=
  match b with
  | [] => Ok [amt_inverse a]
  | x :: b' => if comm_eqb (a_c x) (a_c a)
               then let* x' := amt_minus x a in Ok (x' :: b')
               else let* b'' := bal_sub b' a in Ok (x :: b'')
  end.

(** balance.rs:85-91 [AddAssign<Balance>]. *)
Definition bal_add_bal (b o : balance) : outcome balance := fold_outcome bal_add o b.
