(** Model of the derived comparisons: [Quantity] (amount.rs:202: PartialEq, Eq, PartialOrd, Ord), [Amount]
    (amount.rs:14: PartialEq, Eq) and [PricePoint] (commodity.rs:62: PartialEq, Eq). *)
From Coq Require Import List NArith ZArith Bool Lia.
From Verif Require Import Base Decimal Dates Amount.
Import ListNotations.
Open Scope Z_scope.

(** [Ord for Decimal]: the fractions are brought to the same denominator. *)
Definition d_cmp (a b : dec) : comparison := d_signed a * p10 (d_s b) ?= d_signed b * p10 (d_s a).
(** [<], and [max], [min] of [Ord]: of two equal values [max] takes the second and [min] the first. *)
Definition d_ltb (a b : dec) : bool := match d_cmp a b with Lt => true | _ => false end.
Definition d_max (a b : dec) : dec := match d_cmp a b with Gt => a | _ => b end.
Definition d_min (a b : dec) : dec := match d_cmp a b with Gt => b | _ => a end.

(** Field by field: the quantities as numbers, the commodities as pointers. *)
Definition amt_eqb (a b : amount) : bool := d_eqb (a_q a) (a_q b) && comm_eqb (a_c a) (a_c b).

Record price_point := mkPP { pp_when : datetime; pp_price : amount }.
Definition pp_eqb (a b : price_point) : bool := (dt_key (pp_when a) =? dt_key (pp_when b)) && amt_eqb (pp_price a) (pp_price b).
