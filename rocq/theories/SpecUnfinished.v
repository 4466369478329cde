(** Specification vocabulary for iterators and unused functions. *)
From Coq Require Import List NArith ZArith Bool.
From Verif Require Import Base.
Import ListNotations.

(** A [for] loop over an iterator: the items it sees and the iterator afterwards. *)
Inductive loop {S A} (next : S -> outcome (option A * S)) : S -> list A -> S -> Prop :=
| loop_end s s' : next s = Ok (None, s') -> loop next s [] s'
| loop_item s a s' items s'' : next s = Ok (Some a, s') -> loop next s' items s'' -> loop next s (a :: items) s''.
(** [n] calls: what they return, and the iterator afterwards. *)
Inductive calls {S A} (next : S -> outcome (option A * S)) : S -> list (option A) -> S -> Prop :=
| calls_none s : calls next s [] s
| calls_one s a s' l s'' : next s = Ok (a, s') -> calls next s' l s'' -> calls next s (a :: l) s''.
(** After the first [None] there are only [None]s. *)
Definition fused {S A} (next : S -> outcome (option A * S)) (s : S) : Prop :=
  forall l s', calls next s l s' -> forall i j, (i < j)%nat -> nth_error l i = Some None -> nth_error l j <> None -> nth_error l j = Some None.
Definition fails {A} (o : outcome A) : Prop := exists p, o = Panic p.

Definition separator (c : N) : Prop := c = 32%N \/ c = 9%N.
(** [z] is the number [u], in multiples of 10^-28, without its decimals. *)
Definition truncation (u z : Z) : Prop :=
  (0 <= z * u /\ Z.abs z * 10 ^ 28 <= Z.abs u < (Z.abs z + 1) * 10 ^ 28)%Z.
