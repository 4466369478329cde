(** Model of the [chrono] calls: [NaiveDate::parse_from_str(_, "%Y-%m-%d")] (parser.rs:49-53,
    56-61, pool.rs:228, annotate.rs:47), [NaiveTime::parse_from_str(_, "%H:%M:%S")] (pool.rs:231)
    and the order of [NaiveDateTime]. *)
From Coq Require Import List NArith ZArith Bool Lia.
From Verif Require Import Base.
Import ListNotations.
Open Scope Z_scope.

Record date := mkDate { dt_y : Z; dt_m : Z; dt_d : Z }.
Record time := mkTime { tm_h : Z; tm_m : Z; tm_s : Z }.
Record datetime := mkDT { dt_date : date; dt_time : time }.

(** [NaiveTime::MIN] *)
Definition midnight : time := mkTime 0 0 0.

(** chrono [scan::number]: at least one and at most [width] ASCII digits. *)
Fixpoint take_digits (width : nat) (s : str) (acc : Z) (any : bool) : option (Z * str) :=
  match width, s with
  | S w, c :: s' => if is_digit c then take_digits w s' (acc * 10 + Z.of_N (c - 48)) true
                    else if any then Some (acc, s) else None
  | _, _ => if any then Some (acc, s) else None
  end.

(** A numeric field: leading white space is skipped. *)
Definition num_field (width : nat) (s : str) : option (Z * str) :=
  take_digits width (trim_start s) 0 false.

(** The [%Y] field: an explicit sign lifts the width limit of four digits. *)
Definition year_field (s : str) : option (Z * str) :=
  let s := trim_start s in
  match s with
  | 45%N :: r => option_map (fun '(v, t) => (- v, t)) (take_digits (length r) r 0 false)
  | 43%N :: r => take_digits (length r) r 0 false
  | _ => take_digits 4 s 0 false
  end.

Definition literal (c : char) (s : str) : option str :=
  match s with
  | x :: s' => if (x =? c)%N then Some s' else None
  | [] => None
  end.

Definition obind {A B} (o : option A) (k : A -> option B) : option B :=
  match o with Some a => k a | None => None end.
Notation "'let?' x ':=' m 'in' k" := (obind m (fun x => k))
  (at level 200, x pattern, m at level 100, k at level 200, right associativity).

Definition is_leap (y : Z) : bool :=
  ((y mod 4 =? 0) && negb (y mod 100 =? 0)) || (y mod 400 =? 0).

Definition days_in_month (y m : Z) : Z :=
  if m =? 2 then (if is_leap y then 29 else 28)
  else if (m =? 4) || (m =? 6) || (m =? 9) || (m =? 11) then 30
  else 31.

(** [NaiveDate::from_ymd_opt] *)
Definition from_ymd (y m d : Z) : option date :=
  if (-262144 <=? y) && (y <=? 262143) && (1 <=? m) && (m <=? 12)
     && (1 <=? d) && (d <=? days_in_month y m)
  then Some (mkDate y m d) else None.

(** [NaiveDate::parse_from_str(s, "%Y-%m-%d").ok()]: the whole text has to be consumed. *)
Definition parse_date_opt (s : str) : option date :=
  let? (y, s1) := year_field s in
  let? s2 := literal 45%N s1 in
  let? (m, s3) := num_field 2 s2 in
  let? s4 := literal 45%N s3 in
  let? (d, s5) := num_field 2 s4 in
  match s5 with [] => from_ymd y m d | _ => None end.

(** [NaiveTime::parse_from_str(s, "%H:%M:%S").ok()]; second 60 is a leap second. *)
Definition parse_time_opt (s : str) : option time :=
  let? (h, s1) := num_field 2 s in
  let? s2 := literal 58%N s1 in
  let? (m, s3) := num_field 2 s2 in
  let? s4 := literal 58%N s3 in
  let? (sec, s5) := num_field 2 s4 in
  match s5 with
  | [] => if (h <=? 23) && (m <=? 59) && (sec <=? 60) then Some (mkTime h m sec) else None
  | _ => None
  end.

(** [parser::parse_date] (parser.rs:49-53): panics on anything that is not a date. *)
Definition parse_date (s : str) : outcome date := unwrap (parse_date_opt s).

(** [parser::parse_datetime] (parser.rs:56-61), the [Ok] value. *)
Definition parse_datetime (s : str) : option datetime :=
  option_map (fun d => mkDT d midnight) (parse_date_opt s).

(** Order of [NaiveDateTime]: a position on a time line with generous month/day/hour strides. *)
Definition dt_key (t : datetime) : Z :=
  ((((dt_y (dt_date t) * 16 + dt_m (dt_date t)) * 32 + dt_d (dt_date t)) * 32
    + tm_h (dt_time t)) * 64 + tm_m (dt_time t)) * 64 + tm_s (dt_time t).
