(** Specification vocabulary: the lots that are kept, and the commodities of any posting line. *)
From Coq Require Import String List NArith ZArith Bool.
From Verif Require Import Base Dates Decimal Amount Scanner History Pool Journal Parser.
From Verif Require Import SpecText SpecDates SpecScan SpecOutline SpecLine SpecContent.
Import ListNotations.
Open Scope nat_scope.

(** Of the posting lines, [l] is the first one with an amount in [s]; [tok] are its parts. *)
Definition first_posting (s : str) (ls : list str) (tok : post_tokens) : Prop :=
  exists ls1 l ls2, ls = ls1 ++ l :: ls2 /\ post_read l tok /\ t_symbol tok = s
    /\ forall l' tok', In l' ls1 -> post_read l' tok' -> t_symbol tok' <> s.
Definition no_posting (s : str) (ls : list str) : Prop := forall l tok, In l ls -> post_read l tok -> t_symbol tok <> s.
(** The lot that a posting line says: its price, if it is a number, and its date. *)
Definition lot_told (tok : post_tokens) (an : annotation) : Prop :=
  amount_told (t_price_quantity tok) (t_price_commodity tok) (an_price an)
  /\ (t_price_date tok = [] /\ an_date an = None \/ exists e, denotes_date (t_price_date tok) e /\ an_date an = Some e).
Definition lot_of (p : pool) (s : str) : option annotation := lookup s (p_ann p).

(** The commodities that a posting line makes known: those of the amount and of the lot price in any case, that of a cost only
    if the amount is a number and there is something where the quantity of the cost should be. *)
Definition symbol_told (tok : post_tokens) (s : str) : Prop :=
  s <> [] /\ (s = t_symbol tok \/ s = t_price_commodity tok
              \/ s = t_cost_symbol tok /\ t_cost_quantity tok <> [] /\ number_text (t_quantity tok)).
