(** Specification vocabulary: how much there is of something, and how much text is read. *)
From Coq Require Import String List NArith ZArith Bool.
From Verif Require Import Base Dates Decimal Pool Account Journal Parser SpecReading SpecPool SpecAccount.
Import ListNotations.
Open Scope nat_scope.

(** No more than [n] things have the property [P]. *)
Definition at_most {A : Type} (P : A -> Prop) (n : nat) : Prop := forall l, NoDup l -> Forall P l -> length l <= n.

(** What the lines of a source cost, if the line [l] costs [v l] and a line that includes a file what the file costs, each time. *)
Inductive costs (v : str -> nat) (cwd : str) (fs : filesystem) : source -> nat -> Prop :=
| co_nil : costs v cwd fs [] 0
| co_undecodable src n : costs v cwd fs src n -> costs v cwd fs (None :: src) n
| co_line l src n : (forall arg p, include_line l arg -> names_file cwd arg p -> fs p = None) -> costs v cwd fs src n -> costs v cwd fs (Some l :: src) (v l + n)
| co_include l arg p f src m n : include_line l arg -> names_file cwd arg p -> fs p = Some f -> costs v cwd fs f m -> costs v cwd fs src n ->
    costs v cwd fs (Some l :: src) (Nat.max (v l) m + n).
Definition per_line (l : str) : nat := 1.
Definition per_character (l : str) : nat := length l.

(** The number of transactions and postings. *)
Definition entries_in (j : journal) : nat := length (j_xacts j) + length (flat_map x_posts (j_xacts j)).
(** A price of one commodity in another for a moment is known. *)
Definition price_known (p : pool) (k : str * str * datetime) : Prop := exists v, price_on p (fst (fst k)) (snd (fst k)) (snd k) v.
Definition commodity_known (p : pool) (s : str) : Prop := pool_find p s <> None.
(** The lines of all files. *)
Definition lines_in (fs : filesystem) (files : list str) : nat := list_sum (map (fun f => match fs f with Some src => length src | None => 0 end) files).
