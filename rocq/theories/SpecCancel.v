(** Specification vocabulary: a file and then its reversal. *)
From Coq Require Import List NArith ZArith Bool.
From Verif Require Import Base Amount Balance Pool Account Journal Parser.
From Verif Require Import SpecAmount SpecAccount SpecPool SpecReading SpecReport SpecTogether SpecOpposite.
Import ListNotations.
Open Scope nat_scope.

(** A balance in which nothing is left. *)
Definition nothing_left (b : balance) : Prop := Forall (fun x => aunits x = 0%Z) b.
(** The amounts can be added up twice without rounding. *)
Definition fit_twice (ps : list post) : Prop := fits_amts (amounts_of ps ++ amounts_of ps).
(** A source without include lines (a line that starts with a space is none). *)
Definition no_includes (src : source) : Prop := forall l arg, In (Some l) src -> include_line l arg -> hd 0%N l = 32%N.

(** [j] has the transactions of [j1] and then their opposites; the accounts, commodities and prices are those of [j1], and
    nothing is left in any account. *)
Record cancelled (j1 j : journal) : Prop := {
  ca_xacts : exists new, j_xacts j = j_xacts j1 ++ new /\ Forall2 opposite_xact (j_xacts j1) new;
  ca_accounts : forall q, exists_at (j_master j) q <-> exists_at (j_master j1) q;
  ca_commodities : forall s, pool_find (j_pool j) s <> None <-> pool_find (j_pool j1) s <> None;
  ca_prices : forall s t w v, price_on (j_pool j) s t w v <-> price_on (j_pool j1) s t w v;
  ca_totals : forall q a, get_account (j_master j) q = Some a -> fit_twice (posts_below j1 q) ->
    exists b, account_total (j_xacts j) a = Ok b /\ nothing_left b }.
