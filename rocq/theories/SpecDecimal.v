(** Specification vocabulary for decimal numbers, independent of the arithmetic of the model. *)
From Coq Require Import List NArith ZArith Bool.
From Verif Require Import Base Decimal.
Import ListNotations.
Open Scope Z_scope.

(** A representable decimal: 96-bit mantissa, at most 28 decimals. *)
Definition wf_dec (d : dec) : Prop := 0 <= d_m d < 2 ^ 96 /\ (d_s d <= 28)%nat.

(** The number denoted by a decimal, as a multiple of 10^-28 (exact, because a representable
    decimal has at most 28 decimals). *)
Definition units (d : dec) : Z :=
  (if d_neg d then - d_m d else d_m d) * 10 ^ Z.of_nat (28 - d_s d).

(** 10^28, the number one. *)
Definition unit1 : Z := 10 ^ 28.

(** A number (in multiples of 10^-28) that some decimal denotes. *)
Definition representable (u : Z) : Prop := exists d, wf_dec d /\ units d = u.

(** A finite collection of decimals whose absolute values can be summed in any order without
    rounding or overflow: written with a common number of decimals [s], the absolute mantissas
    sum up to less than 2^96. *)
Definition scaled_abs (s : nat) (d : dec) : Z := d_m d * 10 ^ Z.of_nat (s - d_s d).
Definition sumZ (l : list Z) : Z := fold_right Z.add 0 l.
Definition fits (l : list dec) : Prop :=
  exists s, (s <= 28)%nat /\ Forall (fun d => (d_s d <= s)%nat) l
            /\ sumZ (map (scaled_abs s) l) < 2 ^ 96.

(** ** Decimal literals *)

(** Value of a digit string. *)
Definition number (ds : str) : Z := fold_left (fun n c => 10 * n + (Z.of_N c - 48)) ds 0.

(** The characters '+', '-', '.', '_'. *)
Definition plus_c : char := 43%N.
Definition minus_c : char := 45%N.
Definition point_c : char := 46%N.
Definition underscore_c : char := 95%N.

(** [literal_of s neg whole frac]: the text [s] is an optional sign followed by the digits [whole],
    and optionally a point followed by the digits [frac]; underscores may be interspersed after
    the first digit. *)
Definition no_underscores (s : str) : str := filter (fun c => negb (c =? underscore_c)%N) s.
Definition literal_of (s : str) (neg : bool) (whole frac : str) : Prop :=
  exists sign body,
    s = sign ++ body
    /\ (sign = [] /\ neg = false \/ sign = [plus_c] /\ neg = false \/ sign = [minus_c] /\ neg = true)
    /\ (no_underscores body = whole /\ frac = [] \/ no_underscores body = whole ++ point_c :: frac)
    /\ forallb is_digit whole = true /\ forallb is_digit frac = true
    /\ whole ++ frac <> [].

(** ** Rounding *)

(** [q] is the number num/den (in multiples of 10^-28) up to rounding: either exactly that number,
    or the number rounded to [s] decimals, where [s] is 28 or such that one decimal more would not
    fit into a mantissa of 96 bits (the number times 10^(s+1) is at least 2^96 - 1/2). *)
Definition rounded (num den : Z) (q : dec) : Prop :=
  wf_dec q /\
  (units q * den = num
   \/ exists s, (s <= 28)%nat /\ (d_s q <= s)%nat
      /\ 2 * Z.abs (units q * den - num) <= Z.abs den * 10 ^ Z.of_nat (28 - s)
      /\ (s = 28%nat
          \/ (2 ^ 97 - 1) * Z.abs den * unit1 <= 2 * Z.abs num * 10 ^ Z.of_nat (S s))).
Definition rounded_product (a b q : dec) : Prop := rounded (units a * units b) unit1 q.
Definition rounded_quotient (a b q : dec) : Prop :=
  units b <> 0 /\ rounded (units a * unit1) (units b) q.
