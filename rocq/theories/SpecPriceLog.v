(** Specification vocabulary for the prices that a source leaves behind. *)
From Coq Require Import String List NArith ZArith Bool.
From Verif Require Import Base Decimal Dates Amount Pool Journal.
From Verif Require Import SpecDecimal SpecDates SpecPool SpecText SpecReading SpecXact SpecOutline SpecFull.
Import ListNotations.
Open Scope nat_scope.

(** What ends an element of a price line: a space or tab; more white space may follow. *)
Definition gap (w : str) : Prop := spaces w /\ exists c r, w = c :: r /\ (c = 32%N \/ c = 9%N).
Definition element (x : str) : Prop :=
  (exists c r, x = c :: r /\ is_ws c = false) /\ Forall (fun c => c <> 32%N /\ c <> 9%N) x.
(** The number written. *)
Definition number_said (t : str) (v : dec) : Prop :=
  wf_dec v /\ exists neg whole frac, literal_of t neg whole frac /\ d_s v = length frac
    /\ units v = ((if neg then - number (whole ++ frac) else number (whole ++ frac)) * 10 ^ Z.of_nat (28 - length frac))%Z.
(** The first character of a price line is skipped; then come the date, perhaps the time, the commodity, the
    quantity and the commodity of the price. *)
Definition price_said (l : str) (r : record) : Prop :=
  exists c w1 date w2 clock s w4 q w5 t rest d tm v,
    (c < 128)%N /\ l = c :: w1 ++ date ++ w2 ++ clock ++ s ++ w4 ++ q ++ w5 ++ t ++ rest
    /\ spaces w1 /\ gap w2 /\ gap w4 /\ gap w5 /\ element date /\ element s /\ element q /\ element t
    /\ (rest = [] \/ exists c' r', rest = c' :: r' /\ (c' = 32%N \/ c' = 9%N))
    /\ denotes_date date d
    /\ (clock = [] /\ starts_digit s = false /\ tm = (mkTime 0 0 0)
        \/ exists time w3, clock = time ++ w3 /\ element time /\ starts_digit time = true /\ gap w3 /\ denotes_time time tm)
    /\ number_said q v /\ s <> t /\ r = (s, t, mkDT d tm, v).

(** The transactions read and the prices recorded for the items of a source: those of each transaction, for the
    costs of its postings, and that of each price line, in the order of the source. *)
Inductive recorded : list item -> list xact -> list record -> Prop :=
| rec_nil : recorded [] [] []
| rec_xact o x its xs rs rs' : read_from o x -> xact_records x rs -> recorded its xs rs' -> recorded (Lines o :: its) (x :: xs) (rs ++ rs')
| rec_price l r its xs rs : price_said l r -> recorded its xs rs -> recorded (Price_line l :: its) xs (r :: rs).
