(** Model of amount.rs:14-199 ([Amount]).  The commodity pointer is replaced by the symbol of the
    commodity; [None] is the null pointer.  Pointer equality is symbol equality because a pool
    holds one commodity per symbol. *)
From Coq Require Import List NArith ZArith Bool Lia.
From Verif Require Import Base Decimal.
Import ListNotations.

Definition comm := option str.

(** [*const Commodity ==] and [Option<&Commodity> ==]. *)
Definition comm_eqb (a b : comm) : bool :=
  match a, b with
  | None, None => true
  | Some x, Some y => str_eqb x y
  | _, _ => false
  end.

(** amount.rs:14-18 *)
Record amount := mkAmt { a_q : dec; a_c : comm }.

(** [Amount::new] with the result of [find_or_create], which is null for an empty symbol. *)
Definition comm_of (symbol : str) : comm := match symbol with [] => None | _ => Some symbol end.

(** amount.rs:32-36 [abs] *)
Definition amt_abs (a : amount) : amount := mkAmt (d_set_pos (a_q a)) (a_c a).

(** amount.rs:52-63 [add]: panics on different commodities, skips a zero operand. *)
Definition amt_add (a b : amount) : outcome amount :=
  if comm_eqb (a_c a) (a_c b) then
    if d_is_zero (a_q b) then Ok a
    else let* q := d_add (a_q a) (a_q b) in Ok (mkAmt q (a_c a))
  else Panic PExplicit.

(** amount.rs:116-138 [Add], [AddAssign]. *)
Definition amt_plus (a b : amount) : outcome amount :=
  if comm_eqb (a_c a) (a_c b) then
    let* q := d_add (a_q a) (a_q b) in Ok (mkAmt q (a_c a))
  else Panic PExplicit.

(** amount.rs:180-188 [SubAssign]. *)
Definition amt_minus (a b : amount) : outcome amount :=
  if comm_eqb (a_c a) (a_c b) then
    let* q := d_sub (a_q a) (a_q b) in Ok (mkAmt q (a_c a))
  else Panic PExplicit.

(** amount.rs:76-86 [inverse]: sets the sign bit of a positive quantity and returns any other
    quantity as it is. *)
Definition amt_inverse (a : amount) : amount :=
  mkAmt (if d_is_sign_positive (a_q a) then d_set_neg (a_q a) else a_q a) (a_c a).

(** amount.rs:89-95 [invert]. *)
Definition amt_invert (a : amount) : amount :=
  mkAmt (if d_is_sign_positive (a_q a) then d_set_neg (a_q a) else d_set_pos (a_q a)) (a_c a).

(** amount.rs:99-109 [is_null], [is_zero]. *)
Definition amt_is_zero (a : amount) : bool := d_is_zero (a_q a).
Definition amt_is_null (a : amount) : bool :=
  d_is_zero (a_q a) && match a_c a with None => true | _ => false end.

(** amount.rs:111-113 [remove_commodity]. *)
Definition amt_remove_commodity (a : amount) : amount := mkAmt (a_q a) None.

(** Commodity of a product or quotient: the left one if there is one. *)
Definition comm_or (a b : comm) : comm := match a with None => b | Some _ => a end.

(** amount.rs:140-156 [Div]. *)
Definition amt_div (a b : amount) : outcome amount :=
  let* q := d_div (a_q a) (a_q b) in Ok (mkAmt q (comm_or (a_c a) (a_c b))).

(** amount.rs:158-172 [Mul], 190-199 [MulAssign] (same result). *)
Definition amt_mul (a b : amount) : outcome amount :=
  let* q := d_mul (a_q a) (a_q b) in Ok (mkAmt q (comm_or (a_c a) (a_c b))).

(** amount.rs:45-50 [null], 174-178 [From<i32>] of 0. *)
Definition amt_null : amount := mkAmt d_zero None.
