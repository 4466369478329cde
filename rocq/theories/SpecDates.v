(** Specification vocabulary for dates and times. *)
From Coq Require Import List NArith ZArith Bool.
From Verif Require Import Base Dates SpecDecimal.
Import ListNotations.
Open Scope Z_scope.

(** The Gregorian rule: every fourth year, except centuries not divisible by 400. *)
Definition leap_year (y : Z) : Prop := (4 | y) /\ ((100 | y) -> (400 | y)).

(** The lengths of the months of a year with 365 days. *)
Definition month_lengths : list Z := [31; 28; 31; 30; 31; 30; 31; 31; 30; 31; 30; 31].
Definition month_length (y m : Z) (len : Z) : Prop :=
  exists n, nth_error month_lengths (Z.to_nat (m - 1)) = Some n
            /\ (m = 2 /\ leap_year y -> len = 29) /\ (~ (m = 2 /\ leap_year y) -> len = n).

(** A day of the proleptic Gregorian calendar within the range of [NaiveDate]. *)
Definition valid_date (d : date) : Prop :=
  -262144 <= dt_y d <= 262143 /\ 1 <= dt_m d <= 12
  /\ exists len, month_length (dt_y d) (dt_m d) len /\ 1 <= dt_d d <= len.

(** A time of day; second 60 is a leap second. *)
Definition valid_time (t : time) : Prop :=
  0 <= tm_h t <= 23 /\ 0 <= tm_m t <= 59 /\ 0 <= tm_s t <= 60.
Definition valid_dt (t : datetime) : Prop := valid_date (dt_date t) /\ valid_time (dt_time t).

(** Chronological order, field by field. *)
Definition fields (t : datetime) : list Z :=
  [dt_y (dt_date t); dt_m (dt_date t); dt_d (dt_date t);
   tm_h (dt_time t); tm_m (dt_time t); tm_s (dt_time t)].
Fixpoint lex_lt (a b : list Z) : Prop :=
  match a, b with
  | x :: a', y :: b' => x < y \/ x = y /\ lex_lt a' b'
  | _, _ => False
  end.
Definition before (t1 t2 : datetime) : Prop := lex_lt (fields t1) (fields t2).
Definition not_after (t1 t2 : datetime) : Prop := before t1 t2 \/ t1 = t2.

(** The texts that are accepted for a field and for a date.  White space may precede each field, the
    year may have a sign, and then any number of digits. *)
Definition field_text (width : nat) (t : str) (v : Z) : Prop :=
  exists w ds, t = w ++ ds /\ forallb is_ws w = true /\ forallb is_digit ds = true
               /\ (1 <= length ds <= width)%nat /\ v = number ds.
Inductive year_text : str -> Z -> Prop :=
| yt_plain t v : field_text 4 t v -> year_text t v
| yt_minus w ds : forallb is_ws w = true -> forallb is_digit ds = true -> ds <> [] -> year_text (w ++ 45%N :: ds) (- number ds)
| yt_plus w ds : forallb is_ws w = true -> forallb is_digit ds = true -> ds <> [] -> year_text (w ++ 43%N :: ds) (number ds).
Definition denotes_date (t : str) (d : date) : Prop :=
  exists ty tm td, t = ty ++ 45%N :: tm ++ 45%N :: td
    /\ year_text ty (dt_y d) /\ field_text 2 tm (dt_m d) /\ field_text 2 td (dt_d d) /\ valid_date d.
Definition denotes_time (t : str) (v : time) : Prop :=
  exists th tm ts, t = th ++ 58%N :: tm ++ 58%N :: ts
    /\ field_text 2 th (tm_h v) /\ field_text 2 tm (tm_m v) /\ field_text 2 ts (tm_s v) /\ valid_time v.
