(** Specification vocabulary for price lookups after reading: what a list of recorded prices says. *)
From Coq Require Import String List NArith ZArith Bool.
From Verif Require Import Base Decimal Dates Amount Scanner Pool Journal Xact Parser.
From Verif Require Import SpecDecimal SpecAmount SpecDates SpecPool SpecText SpecReading SpecXact SpecOutline.
Import ListNotations.
Open Scope nat_scope.

(** A price of [s] in [t] is recorded. *)
Definition said (rs : list record) (s t : str) : Prop := exists w v, In (s, t, w, v) rs.

(** A chain of commodities, each with a recorded price in the next one. *)
Fixpoint said_chain (rs : list record) (s : str) (path : list str) (t : str) : Prop :=
  match path with
  | [] => s = t
  | x :: path' => said rs s x /\ said_chain rs x path' t
  end.

(** [v] at [w] is the newest recorded price of [s] in [t]; of several for that moment the one recorded last. *)
Definition newest_said (rs : list record) (s t : str) (w : datetime) (v : dec) : Prop :=
  exists r1 r2, rs = r1 ++ (s, t, w, v) :: r2
    /\ (forall w' v', In (s, t, w', v') r1 -> not_after w' w)
    /\ (forall w' v', In (s, t, w', v') r2 -> before w' w).
Fixpoint newest_said_along (rs : list record) (s : str) (path : list str) (prices : list (datetime * dec)) : Prop :=
  match path, prices with
  | [], [] => True
  | x :: path', (w, v) :: prices' => newest_said rs s x w v /\ newest_said_along rs x path' prices'
  | _, _ => False
  end.

(** The items of files read one after the other. *)
Definition files_outline (cwd : str) (fs : filesystem) (files : list str) (its : list item) : Prop :=
  exists itss, Forall2 (fun f i => exists src, fs f = Some src /\ outline cwd fs None src i) files itss /\ its = concat itss.

(** [amt] at [d] is what the records say about the price of [s] in [t]: along a shortest chain, the newest price if
    the chain is a single step; otherwise the product of the newest prices of the steps, each multiplication rounded,
    at the earliest of their moments and now. *)
Definition lookup_says (rs : list record) (s t : str) (now d : datetime) (amt : amount) : Prop :=
  a_c amt = Some t /\ exists path prices,
    said_chain rs s path t
    /\ (forall other, said_chain rs s other t -> length path <= length other)
    /\ newest_said_along rs s path prices
    /\ (length path = 1 -> prices = [(d, a_q amt)])
    /\ (length path <> 1 -> earliest now (map fst prices) d
          /\ (exists one, units one = unit1 /\ rounded_products one (map snd prices) (a_q amt))
          /\ forall r, exact_product unit1 (map snd prices) r -> aunits amt = r).
