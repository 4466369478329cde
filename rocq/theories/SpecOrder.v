(** Specification vocabulary for reports on the same entries in another order. *)
From Coq Require Import String List NArith ZArith Bool Permutation.
From Verif Require Import Base Decimal Amount Balance Account Parser SpecDecimal SpecAmount SpecCommand SpecFull SpecEnd SpecFullEnd.
Import ListNotations.
Open Scope nat_scope.

(** The same amounts, each commodity once: the order and the number of decimals may differ. *)
Definition same_amounts (b b' : balance) : Prop :=
  NoDup (map a_c b) /\ NoDup (map a_c b')
  /\ Permutation (map (fun a => (a_c a, aunits a)) b) (map (fun a => (a_c a, aunits a)) b').
(** Line by line the same accounts with the same amounts. *)
Definition same_report (out out' : list str) : Prop :=
  exists rows : list (path * balance * balance),
    Forall (fun r => same_amounts (snd (fst r)) (snd r)) rows
    /\ out = map (fun r => lit "Account " ++ shown_name (fst (fst r)) ++ lit " has balance " ++ shown_amounts (snd (fst r))) rows
    /\ out' = map (fun r => lit "Account " ++ shown_name (fst (fst r)) ++ lit " has balance " ++ shown_amounts (snd r)) rows.

(** The arguments name the command [verb] and files that say, one after the other, [ws]. *)
Definition said_run (depth : nat) (cwd : str) (fs : filesystem) (args files : list str) (verb : str) (ws : list fxact) : Prop :=
  exists cmds wss, args_mean args (verb :: cmds) files /\ Forall2 (ffile_says depth cwd fs) files wss /\ ws = concat wss.
