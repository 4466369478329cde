(** Specification vocabulary for texts. *)
From Coq Require Import String List NArith ZArith Bool.
From Verif Require Import Base.
Import ListNotations.

(** A non-empty text without white space. *)
Definition word (s : str) : Prop := s <> [] /\ forallb (fun c => negb (is_ws c)) s = true.
(** ... that does not start with a digit. *)
Definition starts_digit (s : str) : bool := match s with c :: _ => is_digit c | [] => false end.
Definition sp : str := [32%N].
Definition nl : str := [10%N].

(** A price line: [P DATE [TIME] SYM QTY SYM2]. *)
Definition price_line (date : str) (time : option str) (sym qty sym2 : str) : str :=
  lit "P" ++ sp ++ date ++ sp ++ match time with Some t => t ++ sp | None => [] end
  ++ sym ++ sp ++ qty ++ sp ++ sym2.
