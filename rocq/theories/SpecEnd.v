(** Specification vocabulary for the way from written files to a printed report. *)
From Coq Require Import List NArith ZArith Bool Sorted.
From Verif Require Import Base Decimal Amount Balance Account Journal Parser.
From Verif Require Import SpecDecimal SpecAmount SpecAccount SpecReport SpecScan SpecWhole.
Import ListNotations.
Open Scope nat_scope.

(** What a written transaction says about accounts: for each posting the account, the commodity and the
    value in multiples of 10^-28.  The commodity is that of the written amounts, and an amount left out
    is what makes the sum zero. *)
Definition entry : Type := path * comm * Z.
Definition symbols (w : wxact) : list str :=
  flat_map (fun p => match wp_amount p with Some (_, _, s) => [s] | None => [] end) (wx_posts w).
Definition currency (w : wxact) : comm := commodity_of (hd [] (symbols w)).
Definition value (w : wxact) (p : wposting) : Z :=
  match wp_amount p with Some (u, _, _) => u | None => (- sumZ (written_units w))%Z end.
Definition entries (ws : list wxact) : list entry :=
  flat_map (fun w => map (fun p => (components (wp_account p), currency w, value w p)) (wx_posts w)) ws.

(** The entries of the account [q] and of the accounts below it, and their sum in a commodity. *)
Definition below (q : path) (es : list entry) : list entry := filter (fun e => prefix_of q (fst (fst e))) es.
Definition sum_in (c : comm) (es : list entry) : Z :=
  sumZ (map snd (filter (fun e => if comm_dec (snd (fst e)) c then true else false) es)).

(** The known defect C06 does not strike: an amount left out is not meant to be positive. *)
Definition no_positive_rest (w : wxact) : Prop :=
  Forall (fun p => wp_amount p <> None) (wx_posts w) \/ (0 <= sumZ (written_units w))%Z.
(** All sums are representable. *)
Definition sums_fit (ws : list wxact) : Prop :=
  exists scale, scale <= 28
  /\ Forall (fun w => Forall (fun p => forall u k s, wp_amount p = Some (u, k, s) -> k <= scale) (wx_posts w)) ws
  /\ (sumZ (map (fun e => Z.abs (snd e)) (entries ws)) < 2 ^ 96 * 10 ^ Z.of_nat (28 - scale))%Z.

(** The file [f] contains the written transactions [ws]. *)
Definition file_says (fs : filesystem) (f : str) (ws : list wxact) : Prop :=
  exists t lines, fs f = Some (text_source t) /\ lines_of t lines /\ writes_journal lines ws.

(** All accounts that are named, with their parents and the root, each once and in the order of the report. *)
Definition accounts_of_entries (es : list entry) (ps : list path) : Prop :=
  StronglySorted path_lt ps
  /\ forall p, In p ps <-> p = [] \/ exists e, In e es /\ prefix_of p (fst (fst e)) = true.
Definition accounts_said (ws : list wxact) (ps : list path) : Prop := accounts_of_entries (entries ws) ps.

(** The balance [b] has exactly one amount for each commodity of the entries, and it is their sum. *)
Definition totals_said (es : list entry) (b : balance) : Prop :=
  NoDup (map a_c b) /\ (forall c, In c (map a_c b) <-> exists e, In e es /\ snd (fst e) = c)
  /\ Forall wf_amt b /\ forall a, In a b -> aunits a = sum_in (a_c a) es.

(** How an account and a balance are shown: names joined by colons, where empty names above the last are
    left out; amounts one after the other. *)
Definition shown_name (p : path) : str :=
  match p with [] => [] | _ => join (filter (fun n => negb (is_empty n)) (removelast p) ++ [last p []]) end.
Definition shown_amounts (b : balance) : str :=
  concat (map (fun x => d_to_string (a_q x) ++ match a_c x with Some s => 32%N :: s | None => [] end) b).
