(** Specification vocabulary: entries with the same sums. *)
From Coq Require Import String List NArith ZArith Bool.
From Verif Require Import Base Decimal Amount Account SpecDecimal SpecAmount SpecAccount SpecJournal SpecScan SpecFull SpecEnd SpecFullEnd.
Import ListNotations.
Open Scope list_scope.
Open Scope nat_scope.

Definition key_dec (k k' : path * comm) : {k = k'} + {k <> k'}.
Proof. decide equality; [apply comm_dec|apply (list_eq_dec (list_eq_dec N.eq_dec))]. Defined.
(** The sum of the entries of one account, without those below it, in one commodity. *)
Definition own_sum (k : path * comm) (es : list entry) : Z := sumZ (map snd (filter (fun e => if key_dec (fst e) k then true else false) es)).
(** The same accounts have entries in the same commodities, with the same sums. *)
Definition same_sums (es es' : list entry) : Prop :=
  forall k, ((exists u, In (k, u) es) <-> (exists u, In (k, u) es')) /\ own_sum k es = own_sum k es'.

(** In [w'] one posting of [w] with an amount and neither lot nor cost is split into two. *)
Definition plain_value (u : Z) (k : nat) (s : str) : option wvalue := Some (mkWV (mkWA u k s) None None None).
Definition split_in (w w' : fxact) : Prop :=
  exists ps1 ps2 acct s u u1 u2 k k1 k2 ns ns1 ns2, u = (u1 + u2)%Z
    /\ fx_posts w = ps1 ++ mkFP acct (plain_value u k s) ns :: ps2
    /\ fx_posts w' = ps1 ++ mkFP acct (plain_value u1 k1 s) ns1 :: mkFP acct (plain_value u2 k2 s) ns2 :: ps2.
(** [w] has the postings of [w1] and [w2], all of which have amounts. *)
Definition merged (w1 w2 w : fxact) : Prop :=
  Forall (fun p => fp_value p <> None) (fx_posts w) /\ fx_posts w = fx_posts w1 ++ fx_posts w2.
(** In [w'] the amount left out in [w] is written. *)
Definition written_out (w w' : fxact) : Prop :=
  exists ps1 ps2 acct s k ns ns', fx_posts w = ps1 ++ mkFP acct None ns :: ps2
    /\ fx_posts w' = ps1 ++ mkFP acct (plain_value (rest_value w) k s) ns' :: ps2
    /\ Forall (fun p => fp_value p <> None) (ps1 ++ ps2) /\ commodity_of s = rest_commodity w.
