(** Specification vocabulary for amounts and balances, independent of the operations of the
    model: commodities are compared with Leibniz equality and quantities by their value. *)
From Coq Require Import List NArith ZArith Bool.
From Verif Require Import Base Decimal Amount Balance SpecDecimal.
Import ListNotations.
Open Scope Z_scope.

Definition comm_dec (a b : comm) : {a = b} + {a <> b}.
Proof. decide equality. apply (list_eq_dec N.eq_dec). Defined.

(** A readable amount: its quantity is a representable decimal. *)
Definition wf_amt (a : amount) : Prop := wf_dec (a_q a).
(** Value of an amount in multiples of 10^-28 of its commodity. *)
Definition aunits (a : amount) : Z := units (a_q a).

(** [b] is the amount [a] with the opposite sign. *)
Definition opposite (a b : amount) : Prop := a_c b = a_c a /\ aunits b = - aunits a.

(** The quantities of commodity [c] among some amounts, and their sum. *)
Definition in_comm (c : comm) (l : list amount) : list amount :=
  filter (fun a => if comm_dec (a_c a) c then true else false) l.
Definition total (c : comm) (l : list amount) : Z := sumZ (map aunits (in_comm c l)).

(** The elements of a list, each at its first occurrence. *)
Fixpoint firsts (l : list comm) : list comm :=
  match l with
  | [] => []
  | c :: l' => c :: filter (fun d => if comm_dec d c then false else true) (firsts l')
  end.

(** [b] has exactly one entry for each commodity of [l], in the order of first occurrence, and
    each entry is the exact sum of the amounts of [l] in its commodity. *)
Definition is_balance_of (b : balance) (l : list amount) : Prop :=
  map a_c b = firsts (map a_c l)
  /\ forall a, In a b -> wf_amt a /\ aunits a = total (a_c a) l.

(** Amounts that can be summed in any order without rounding. *)
Definition fits_amts (l : list amount) : Prop :=
  Forall wf_amt l /\ forall c, fits (map a_q (in_comm c l)).

(** The value that a balance holds for a commodity (0 without an entry). *)
Definition holds (b : balance) (c : comm) : Z := total c b.
