(** Specification vocabulary for the reports on full journals. *)
From Coq Require Import List NArith ZArith Bool.
From Verif Require Import Base Decimal Amount Account Journal Parser.
From Verif Require Import SpecDecimal SpecAmount SpecAccount SpecScan SpecWhole SpecFull SpecEnd.
Import ListNotations.
Open Scope nat_scope.

(** The file [f] says [ws]; included files are nested at most [depth] deep. *)
Definition ffile_says (depth : nat) (cwd : str) (fs : filesystem) (f : str) (ws : list fxact) : Prop :=
  exists t lines, fs f = Some (text_source t) /\ lines_of t lines /\ says cwd fs depth lines ws.

(** For each posting the account, the commodity and the value.  An amount left out is in the commodity of the
    worths; it counts as minus the size of their sum.  (It should be minus their sum: C06.) *)
Definition rest_commodity (w : fxact) : comm :=
  commodity_of (hd [] (map worth_symbol (values_of (fx_posts w)))).
Definition rest_value (w : fxact) : Z := (- Z.abs (sumZ (map worth_units (values_of (fx_posts w)))))%Z.
Definition full_entries (ws : list fxact) : list entry :=
  flat_map (fun w => map (fun p => match fp_value p with
                                   | Some v => (components (fp_account p), commodity_of (wa_symbol (wv_amount v)), wa_units (wv_amount v))
                                   | None => (components (fp_account p), rest_commodity w, rest_value w)
                                   end) (fx_posts w)) ws.
(** All sums are representable. *)
Definition full_sums_fit (ws : list fxact) : Prop :=
  exists scale, scale <= 28
  /\ Forall (fun w => Forall (fun v => wa_decimals (wv_amount v) <= scale) (values_of (fx_posts w))
                      /\ (Forall (fun p => fp_value p <> None) (fx_posts w) \/ Forall (fun v => worth_decimals v <= scale) (values_of (fx_posts w)))) ws
  /\ (sumZ (map (fun e => Z.abs (snd e)) (full_entries ws)) < 2 ^ 96 * 10 ^ Z.of_nat (28 - scale))%Z.
