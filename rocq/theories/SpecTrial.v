(** Specification vocabulary for the trial balance. *)
From Coq Require Import String List NArith ZArith Bool.
From Verif Require Import Base Decimal Amount Balance Account Parser.
From Verif Require Import SpecDecimal SpecAmount SpecScan SpecWhole SpecFull SpecEnd SpecFullEnd.
Import ListNotations.
Open Scope list_scope.
Open Scope nat_scope.

(** No posting has a cost. *)
Definition no_costs (w : fxact) : Prop := Forall (fun v => wv_cost v = None) (values_of (fx_posts w)).
(** An amount is left out. *)
Definition leaves_out (w : fxact) : Prop := Exists (fun p => fp_value p = None) (fx_posts w).
(** The written amounts of every commodity sum to zero. *)
Definition sums_to_zero (w : fxact) : Prop :=
  forall s, sumZ (map (fun v => if str_eqb (wa_symbol (wv_amount v)) s then wa_units (wv_amount v) else 0%Z) (values_of (fx_posts w))) = 0%Z.
(** The amounts that are given come to zero or more, so that what is left out is not meant to be positive (C06). *)
Definition rest_not_positive (w : fxact) : Prop := (0 <= sumZ (map (fun v => wa_units (wv_amount v)) (values_of (fx_posts w))))%Z.
(** Either an amount is left out that makes the sum zero, or the amounts sum to zero. *)
Definition even (w : fxact) : Prop := no_costs w /\ (leaves_out w /\ rest_not_positive w \/ ~ leaves_out w /\ sums_to_zero w).
(** The first line of the report [out] shows zero for every commodity of the postings. *)
Definition zero_root (out : list str) (ws : list fxact) : Prop :=
  exists b, hd_error out = Some (lit "Account  has balance " ++ shown_amounts b)
    /\ NoDup (map a_c b) /\ (forall c, In c (map a_c b) <-> exists e, In e (full_entries ws) /\ snd (fst e) = c)
    /\ Forall wf_amt b /\ Forall (fun a => aunits a = 0%Z) b.
