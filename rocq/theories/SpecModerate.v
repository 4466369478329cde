(** Specification vocabulary: files with numbers of moderate size. *)
From Coq Require Import String List NArith ZArith Bool.
From Verif Require Import Base Decimal Amount Scanner Pool Journal Parser.
From Verif Require Import SpecText SpecDecimal SpecAmount SpecReading SpecLine SpecRefused.
Import ListNotations.
Open Scope Z_scope.

(** A text that, if it is a number, is at most [B] in size and has at most [k] decimals. *)
Definition moderate (B : Z) (k : nat) (s : str) : Prop :=
  forall neg whole frac, quantity_text s neg whole frac -> (length frac <= k)%nat /\ number (whole ++ frac) <= B * 10 ^ Z.of_nat (length frac).
(** The numbers of a posting line: quantity, lot price and cost. *)
Definition moderate_line (B : Z) (k : nat) (l : str) : Prop :=
  forall r tok, l = 32%N :: r -> post_read r tok ->
  moderate B k (t_quantity tok) /\ moderate B k (t_price_quantity tok) /\ moderate B k (t_cost_quantity tok).
(** At most [n] indented lines follow each other. *)
Definition short_blocks (n : nat) (src : source) : Prop :=
  forall s1 b s2, src = s1 ++ b ++ s2 -> (forall l, In l b -> exists r, l = Some (32%N :: r)) -> (length b <= n)%nat.
Definition moderate_source (B : Z) (k n : nat) (src : source) : Prop :=
  (forall l, In (Some l) src -> moderate_line B k l) /\ short_blocks n src.
(** The size, the decimals and the number of postings are small enough together. *)
Definition moderate_bounds (B : Z) (k n : nat) : Prop :=
  1 <= B /\ (k <= 14)%nat /\ (1 <= n)%nat /\ 8 * (Z.of_nat n * Z.of_nat n * (B * B * B) * 10 ^ Z.of_nat (2 * k)) <= 2 ^ 96.

(** A quantity of at most [s] decimals and at most [w] in multiples of 10^-s. *)
Definition small (s : nat) (w : Z) (d : dec) : Prop := 0 <= d_m d /\ (d_s d <= s)%nat /\ d_m d * 10 ^ Z.of_nat (s - d_s d) <= w.
(** The amounts of a journal read from such files: a left-out amount can be the sum of products. *)
Definition moderate_journal (B : Z) (k n : nat) (j : journal) : Prop :=
  (forall p a, In p (all_posts j) -> po_amount p = Some a -> small (2 * k) (Z.of_nat n * (B * B * 10 ^ Z.of_nat (2 * k))) (a_q a))
  /\ (forall s an pr, lookup s (p_ann (j_pool j)) = Some an -> an_price an = Some pr -> small k (B * 10 ^ Z.of_nat k) (a_q pr)).
