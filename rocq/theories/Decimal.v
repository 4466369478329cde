(** Model of [rust_decimal::Decimal] 1.32 as used through [Quantity] (amount.rs:203-362).

    The crate is not part of /repo.  Modelled from its documentation: a 96-bit mantissa, a scale
    of 0..28 decimals and a sign bit; equality is numeric; sums, products and quotients are exact
    when representable and otherwise rounded half-to-even to the largest scale that fits;
    overflow and division by zero panic. *)
From Coq Require Import List NArith ZArith Bool Lia.
From Verif Require Import Base.
Import ListNotations.
Open Scope Z_scope.

(** Sign bit, mantissa (0 <= m < 2^96), scale (0..28). *)
Record dec := mkDec { d_neg : bool; d_m : Z; d_s : nat }.

Definition p10 (k : nat) : Z := 10 ^ Z.of_nat k.
(** First mantissa that does not fit. *)
Definition MAXM : Z := 2 ^ 96.
Definition MAXS : nat := 28.

(** Mantissa with its sign. *)
Definition d_signed (d : dec) : Z := if d_neg d then - d_m d else d_m d.

(** [Decimal::ZERO], [Decimal::ONE], [Decimal::from(i32)]. *)
Definition d_of_int (z : Z) : dec := mkDec (z <? 0) (Z.abs z) 0.
Definition d_zero : dec := d_of_int 0.
Definition d_one : dec := d_of_int 1.

(** [Decimal::is_zero], [is_sign_positive], [set_sign_negative(true)], [set_sign_positive(true)]:
    the latter two only touch the sign bit, also for zero. *)
Definition d_is_zero (d : dec) : bool := d_m d =? 0.
Definition d_is_sign_positive (d : dec) : bool := negb (d_neg d).
Definition d_set_neg (d : dec) : dec := mkDec true (d_m d) (d_s d).
Definition d_set_pos (d : dec) : dec := mkDec false (d_m d) (d_s d).

(** [Decimal::from_parts]: zero has no sign. *)
Definition d_make (neg : bool) (m : Z) (s : nat) : dec :=
  mkDec (if m =? 0 then false else neg) m s.

(** Quotient rounded half to even. *)
Definition rhe (n d : Z) : Z :=
  let q := n / d in
  let r := n mod d in
  if 2 * r <? d then q else if d <? 2 * r then q + 1 else if Z.even q then q else q + 1.

(** Drop as few decimals as needed (rounding once, half to even) to fit mantissa and scale. *)
Fixpoint reduce_from (fuel k : nat) (m : Z) (s : nat) : option (Z * nat) :=
  let q := rhe m (p10 k) in
  if (q <? MAXM) && (s - k <=? MAXS)%nat then Some (q, (s - k)%nat)
  else match fuel with
       | O => None
       | S f => reduce_from f (S k) m s
       end.
Definition reduce (m : Z) (s : nat) : option (Z * nat) := reduce_from s 0 m s.

Definition d_reduced (z : Z) (s : nat) : outcome dec :=
  match reduce (Z.abs z) s with
  | Some (m, s') => Ok (d_make (z <? 0) m s')
  | None => Panic PArith
  end.

(** [Add for Decimal]: a zero operand returns the other one unchanged. *)
Definition d_add (a b : dec) : outcome dec :=
  if d_is_zero a then Ok b
  else if d_is_zero b then Ok a
  else let s := Nat.max (d_s a) (d_s b) in
       d_reduced (d_signed a * p10 (s - d_s a) + d_signed b * p10 (s - d_s b)) s.

(** [Sub for Decimal]. *)
Definition d_sub (a b : dec) : outcome dec :=
  if d_is_zero a then Ok (if d_is_zero b then b else mkDec (negb (d_neg b)) (d_m b) (d_s b))
  else if d_is_zero b then Ok a
  else let s := Nat.max (d_s a) (d_s b) in
       d_reduced (d_signed a * p10 (s - d_s a) - d_signed b * p10 (s - d_s b)) s.

(** [Mul for Decimal]: a zero operand gives [Decimal::ZERO]; two 32-bit mantissas with a combined
    scale above 47 also. *)
Definition d_mul (a b : dec) : outcome dec :=
  if d_is_zero a || d_is_zero b then Ok d_zero
  else if (d_m a <? 2 ^ 32) && (d_m b <? 2 ^ 32) && (47 <? d_s a + d_s b)%nat then Ok d_zero
  else d_reduced (d_signed a * d_signed b) (d_s a + d_s b).

(** Largest scale [s <= top] at which the truncated quotient of [n * 10^(s - base)] by [d] fits. *)
Fixpoint div_scale (top : nat) (fits : nat -> bool) : option nat :=
  if fits top then Some top
  else match top with O => None | S t => div_scale t fits end.

(** Remove trailing zero decimals. *)
Fixpoint strip (s : nat) (m : Z) : Z * nat :=
  match s with
  | O => (m, O)
  | S s' => if m mod 10 =? 0 then strip s' (m / 10) else (m, s)
  end.

(** [Div for Decimal]: an exact quotient at the natural scale keeps that scale; otherwise as many
    decimals as fit are produced, the last one rounded half to even, and trailing zeros removed. *)
Definition d_div (a b : dec) : outcome dec :=
  if d_is_zero b then Panic PArith
  else if d_is_zero a then Ok d_zero
  else
    let neg := xorb (d_neg a) (d_neg b) in
    let s0 := (d_s a - d_s b)%nat in
    (* numerator of the quotient at scale s >= s0 *)
    let num s := d_m a * p10 (s + d_s b - d_s a) in
    if (num s0 mod d_m b =? 0) then
      if num s0 / d_m b <? MAXM then Ok (d_make neg (num s0 / d_m b) s0) else Panic PArith
    else
      match div_scale MAXS (fun s => (s0 <=? s)%nat && (rhe (num s) (d_m b) <? MAXM)) with
      | None => Panic PArith
      | Some s => let '(m, s') := strip s (rhe (num s) (d_m b)) in Ok (d_make neg m s')
      end.

(** [PartialEq for Decimal]: numeric equality. *)
Definition d_eqb (a b : dec) : bool :=
  d_signed a * p10 (d_s b) =? d_signed b * p10 (d_s a).

(** [PartialOrd for Decimal]: numeric order. *)
Definition d_leb (a b : dec) : bool :=
  d_signed a * p10 (d_s b) <=? d_signed b * p10 (d_s a).

(** ** Text *)

(** [Decimal::from_str_exact] after the optional sign: digits, at most one point, underscores
    after a digit; no rounding, hence an error beyond 28 decimals or 96 bits. *)
Fixpoint parse_digits (s : str) (point has : bool) (m : Z) (sc : nat) : option (Z * nat) :=
  match s with
  | [] => if has then Some (m, sc) else None
  | c :: s' =>
      if is_digit c then
        let m' := m * 10 + Z.of_N (c - 48) in
        let sc' := if point then S sc else sc in
        if MAXM <=? m' then None
        else if point && (MAXS <=? sc')%nat && negb (is_empty s') then None
        else parse_digits s' point true m' sc'
      else if (c =? 46)%N && negb point then parse_digits s' true has m sc
      else if (c =? 95)%N && has then parse_digits s' point has m sc
      else None
  end.

(** [Quantity::from_str] (amount.rs:209-216) over [Decimal::from_str_exact]. *)
Definition d_from_str (s : str) : option dec :=
  let '(neg, body) := match s with
                      | 45%N :: r => (true, r)   (* '-' *)
                      | 43%N :: r => (false, r)  (* '+' *)
                      | _ => (false, s)
                      end in
  match parse_digits body false false 0 0 with
  | Some (m, sc) => Some (d_make neg m sc)
  | None => None
  end.

(** Decimal digits of a mantissa, most significant first, no leading zeros; [fuel] bounds their
    number (a 96-bit mantissa has at most 29). *)
Fixpoint digits_acc (fuel : nat) (m : Z) (acc : str) : str :=
  match fuel with
  | O => acc
  | S f => if m =? 0 then acc
           else digits_acc f (m / 10) ((48 + Z.to_N (m mod 10))%N :: acc)
  end.
Definition digits (m : Z) : str := digits_acc 40 m [].

(** [Display for Quantity] (amount.rs) / [Display for Decimal]: all [scale] decimals are printed. *)
Definition d_to_string (d : dec) : str :=
  let ds := digits (d_m d) in
  let ds := repeat 48%N (d_s d - length ds) ++ ds in
  let whole := firstn (length ds - d_s d) ds in
  let frac := skipn (length ds - d_s d) ds in
  (if d_neg d then [45%N] else [])
  ++ (match whole with [] => [48%N] | _ => whole end)
  ++ (match d_s d with O => [] | _ => 46%N :: frac end).
