(** Specification vocabulary: postings with the same amounts. *)
From Coq Require Import List NArith ZArith Bool.
From Verif Require Import Base Account SpecAccount SpecScan SpecFull.
Import ListNotations.
Open Scope nat_scope.

(** The two postings have the same amount, with the same decimals, in the same account.  Their lots, costs and notes may differ. *)
Definition same_amount_written (p p' : fposting) : Prop :=
  components (fp_account p) = components (fp_account p')
  /\ exists v v', fp_value p = Some v /\ fp_value p' = Some v' /\ wv_amount v = wv_amount v'.
(** The postings of all transactions. *)
Definition postings_of (ws : list fxact) : list fposting := flat_map fx_posts ws.
