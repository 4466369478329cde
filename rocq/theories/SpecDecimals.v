(** Specification vocabulary for journals that write a commodity always with the same number of decimals. *)
From Coq Require Import String List NArith ZArith Bool Permutation.
From Verif Require Import Base Decimal Amount Balance Account Parser SpecDecimal SpecAmount SpecAccount SpecScan SpecWhole SpecCommand SpecFull SpecEnd SpecFullEnd.
Import ListNotations.
Open Scope nat_scope.

(** Every amount is written with as many decimals as [f] gives for its commodity.  If an amount is left out,
    the same holds for what the other postings are worth. *)
Definition decimals_alike (f : comm -> nat) (w : fxact) : Prop :=
  let vs := values_of (fx_posts w) in
  Forall (fun v => wa_decimals (wv_amount v) = f (commodity_of (wa_symbol (wv_amount v)))) vs
  /\ (Forall (fun p => fp_value p <> None) (fx_posts w)
      \/ Forall (fun v => worth_decimals v = f (commodity_of (worth_symbol v)) /\ exact_worth v) vs).
(** An amount left out is not zero. *)
Definition no_zero_rest (w : fxact) : Prop :=
  Forall (fun p => fp_value p <> None) (fx_posts w) \/ sumZ (map worth_units (values_of (fx_posts w))) <> 0%Z.
(** Line by line the same accounts with the same amounts, up to the order of the commodities in a line. *)
Definition same_lines (out out' : list str) : Prop :=
  exists rows : list (path * balance * balance),
    Forall (fun r => Permutation (snd (fst r)) (snd r) /\ NoDup (map a_c (snd r))) rows
    /\ out = map (fun r => lit "Account " ++ shown_name (fst (fst r)) ++ lit " has balance " ++ shown_amounts (snd (fst r))) rows
    /\ out' = map (fun r => lit "Account " ++ shown_name (fst (fst r)) ++ lit " has balance " ++ shown_amounts (snd r)) rows.
(** All postings are in one commodity. *)
Definition one_commodity (ws : list fxact) : Prop := exists c, Forall (fun e => snd (fst e) = c) (full_entries ws).
