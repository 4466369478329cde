(** What decides the result of an operation on quantities: values, not the way they are written. *)
From Coq Require Import List NArith ZArith Bool Lia.
From Verif Require Import Base Decimal Amount Balance SpecDecimal SpecAmount.
Import ListNotations.
Open Scope Z_scope.

(** The integer next to n/d; the even one of two that are equally close. *)
Definition half_even (n d q : Z) : Prop :=
  2 * Z.abs (q * d - n) < d \/ 2 * Z.abs (q * d - n) = d /\ Z.even q = true.

(** [m] is the number num/den (in multiples of 10^-28), without its sign, in multiples of 10^-s. *)
Definition mantissa_at (num den : Z) (s : nat) (m : Z) : Prop :=
  half_even (Z.abs num * 10 ^ Z.of_nat s) (Z.abs den * 10 ^ 28) m.

(** [q] is the number num/den, if some quantity is; otherwise that number with as many decimals as fit, at most 28,
    the last one rounded half to even. *)
Definition nearest (num den : Z) (q : dec) : Prop :=
  wf_dec q /\
  (units q * den = num
   \/ exists s m, (s <= 28)%nat /\ (d_s q <= s)%nat /\ mantissa_at num den s m /\ m < 2 ^ 96
      /\ (s = 28%nat \/ exists m', mantissa_at num den (S s) m' /\ 2 ^ 96 <= m')
      /\ units q = Z.sgn num * Z.sgn den * m * 10 ^ Z.of_nat (28 - s)).

(** Two quantities, or two amounts, of the same value. *)
Definition same_value (a b : dec) : Prop := wf_dec a /\ wf_dec b /\ units a = units b.
Definition same_amount (a b : amount) : Prop := a_c a = a_c b /\ same_value (a_q a) (a_q b).
Definition same_balance (b b' : balance) : Prop := Forall2 same_amount b b'.

(** Two computations that both fail in the same way or both have a result, and the results are related. *)
Definition same_outcome {A B} (R : A -> B -> Prop) (x : outcome A) (y : outcome B) : Prop :=
  match x, y with
  | Ok a, Ok b => R a b
  | Panic p, Panic p' => p = p'
  | Diverge, Diverge => True
  | _, _ => False
  end.
