(** Specification vocabulary for the smaller properties. *)
From Coq Require Import String List NArith ZArith Bool.
From Verif Require Import Base Decimal Amount Balance SpecDecimal SpecAmount SpecReport.
Import ListNotations.
Open Scope list_scope.

(** A text with a comma and a space between the parts. *)
Fixpoint listed (l : list str) : str :=
  match l with
  | [] => []
  | [x] => x
  | x :: l' => x ++ lit ", " ++ listed l'
  end.
Definition written_out (a : amount) : str :=
  match a_c a with
  | Some (c :: s) => d_to_string (a_q a) ++ 32%N :: c :: s
  | _ => d_to_string (a_q a)
  end.
(** An amount whose symbol, if it has one, is not empty and has no space. *)
Definition one_word (a : amount) : Prop := forall s, a_c a = Some s -> s <> [] /\ ~ In 32%N s.

(** The value of a commodity in a balance before and after taking an amount away. *)
Definition less (b : balance) (a : amount) (c : comm) : Z := (holds b c - if comm_dec (a_c a) c then aunits a else 0)%Z.
