(** Specification vocabulary: reading the same lines into different journals, and files together. *)
From Coq Require Import List NArith ZArith Bool.
From Verif Require Import Base Decimal Dates Amount Balance Pool Account Journal Xact Parser.
From Verif Require Import SpecValue SpecAmount SpecAccount SpecPool SpecReport.
Import ListNotations.
Open Scope nat_scope.

(** The two end alike, unless a number overflows in one of them. *)
Definition unless_overflow {A B} (R : A -> B -> Prop) (x : outcome A) (y : outcome B) : Prop :=
  x = Panic PArith \/ y = Panic PArith \/ same_outcome R x y.

(** The total of the account [q] in the commodity [c] is [v]; that of an account that is not there is 0. *)
Definition total_is (j : journal) (q : path) (c : comm) (v : Z) : Prop :=
  match get_account (j_master j) q with
  | Some a => exists b, account_total (j_xacts j) a = Ok b /\ holds b c = v
  | None => v = 0%Z
  end.

(** [j] has what [j1] and [j2] have: the transactions of [j1] and then those of [j2], the accounts and the commodities
    of both, and the prices of both, where those of [j2] count for the moments for which both have one. *)
Record together (j1 j2 j : journal) : Prop := {
  tg_xacts : j_xacts j = j_xacts j1 ++ j_xacts j2;
  tg_accounts : forall q, exists_at (j_master j) q <-> exists_at (j_master j1) q \/ exists_at (j_master j2) q;
  tg_commodities : forall s, pool_find (j_pool j) s <> None <-> pool_find (j_pool j1) s <> None \/ pool_find (j_pool j2) s <> None;
  tg_prices : forall s t w v, price_on (j_pool j) s t w v <->
    price_on (j_pool j2) s t w v \/ price_on (j_pool j1) s t w v /\ forall v', ~ price_on (j_pool j2) s t w v' }.

(** For a commodity for which [j1] keeps a lot price, [j2] keeps the same one, or does not keep any lot at all. *)
Definition lots_agree (j1 j2 : journal) : Prop :=
  forall s x y, lookup s (p_ann (j_pool j1)) = Some x -> lookup s (p_ann (j_pool j2)) = Some y ->
  an_price x = None \/ an_price x = an_price y.

(** Reading files one after the other into a journal. *)
Definition read_files (depth : nat) (cwd : str) (fs : filesystem) (files : list str) (j : journal) : outcome journal :=
  fold_outcome (fun j f => parse_file depth cwd fs f j) files j.
