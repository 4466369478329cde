(** Specification vocabulary: journals whose balance report can be read back. *)
From Coq Require Import String List NArith ZArith Bool.
From Verif Require Import Base Decimal Amount Account Journal.
From Verif Require Import SpecAmount SpecAccount SpecReport.
Import ListNotations.
Open Scope nat_scope.

(** A name that is not empty and does not contain the words of the report. *)
Definition plain_account (n : str) : Prop := n <> [] /\ ~ exists a b, n = a ++ lit " has balance" ++ b.
(** All accounts have such names, and every amount is in a commodity without digits, points and minus signs. *)
Definition plain_journal (j : journal) : Prop :=
  (forall q, exists_at (j_master j) q -> Forall plain_account q) /\ Forall plain_symbol (amounts_of (all_posts j)).
(** Amounts with the same commodity, value and number of decimals. *)
Definition same_entry (a b : amount) : Prop := a_c a = a_c b /\ aunits a = aunits b /\ d_s (a_q a) = d_s (a_q b).
