(** What is read from any line, written by a fixed reading of its characters, and which lines are refused. *)
From Coq Require Import String List NArith ZArith Bool Lia.
From Verif Require Import Base Scanner SpecText SpecReading SpecScan SpecLine.
From Verif Require Import BaseFacts ScanFacts ScanProofs LineReadProofs DemoScan.
Import ListNotations.
Open Scope nat_scope.

(** * C83: the texts read from a line are those of the grammar, whatever the line; every other posting line is refused. *)
Theorem C83_posting : forall l tok, scan_post l = Ok tok <-> post_read l tok.
Proof. exact post_iff. Qed.
Print Assumptions C83_posting.
Theorem C83_posting_refused : forall l, (exists p, scan_post l = Panic p) <-> post_refused l.
Proof. exact post_refused_iff. Qed.
Print Assumptions C83_posting_refused.
(** So each posting line is read in exactly one way or refused, never both. *)
Theorem C83_posting_one_way : forall l,
  (exists tok, post_read l tok /\ (forall tok', post_read l tok' -> tok' = tok) /\ ~ post_refused l) \/ post_refused l /\ forall tok, ~ post_read l tok.
Proof.
  intros l. destruct (post_cases l) as [(tok & H)|H].
  - left. exists tok. split; [exact H|]. apply post_iff in H. split; [intros tok' H'; apply post_iff in H'; congruence|].
    intros R. apply post_refused_iff in R as (p & E). congruence.
  - right. split; [exact H|]. intros tok H'. apply post_iff in H'. apply post_refused_iff in H as (p & E). congruence.
Qed.
Print Assumptions C83_posting_one_way.
Theorem C83_header : forall l d aux payee note, tokenize_xact_header l = Ok (d, aux, payee, note) <-> header_read l d aux payee note.
Proof. exact header_iff. Qed.
Print Assumptions C83_header.
Theorem C83_header_total : forall l, l <> [] -> exists d aux payee note, header_read l d aux payee note.
Proof. exact header_total. Qed.
Print Assumptions C83_header_total.
Theorem C83_price : forall l date time s q t, scan_price_directive l = Ok (date, time, s, q, t) <-> price_read l date time s q t.
Proof. exact price_iff. Qed.
Print Assumptions C83_price.
Theorem C83_price_refused : forall l, (exists p, scan_price_directive l = Panic p) <-> price_refused l.
Proof. exact price_refused_iff. Qed.
Print Assumptions C83_price_refused.

(** A brace that touches the symbol belongs to it; any one character may follow [@]; what follows the cost is dropped. *)
Example C83_odd_posting : post_read (lit "  Assets:Stock  5 VTI{EUR} [2023-01-02] {2 USD}@x3USD tail") (mkPT (lit "Assets:Stock") (lit "5") (lit "VTI{EUR}") (lit "2") (lit "USD") (lit "2023-01-02") (lit "3") (lit "USD") true).
Proof. apply post_iff. vm_compute. reflexivity. Qed.
(** A lot price may be written twice if the first has no quantity. *)
Example C83_empty_lot_price : post_read (lit "  Assets:Stock  5 VTI {EUR} {2 USD}") (mkPT (lit "Assets:Stock") (lit "5") (lit "VTI") (lit "2") (lit "USD") [] [] [] false).
Proof. apply post_iff. vm_compute. reflexivity. Qed.
(** A character of two bytes after [@]. *)
Example C83_wide_cost : post_refused (lit " Food  5 VTI @" ++ [233%N] ++ lit "5 EUR").
Proof.
  apply (pf_cost _ (lit "Food  5 VTI @" ++ [233%N] ++ lit "5 EUR") (lit "Food") (lit "5 VTI @" ++ [233%N] ++ lit "5 EUR") (lit "5") (lit "VTI") (lit "@" ++ [233%N] ++ lit "5 EUR") [] [] [] (lit "@" ++ [233%N] ++ lit "5 EUR")).
  - apply skip_trim. reflexivity.
  - apply first_find; [discriminate|reflexivity|]. exists 4. repeat split; reflexivity.
  - apply amount_iff. reflexivity.
  - apply lr_end. reflexivity.
  - apply cf_wide. cbn. lia.
Qed.
Example C83_open_brace : post_refused (lit " Food  5 VTI {5 EUR").
Proof. apply post_refused_iff. eexists. vm_compute. reflexivity. Qed.
Example C83_odd_header : header_read (lit "2023-05-01==2023-05-02 =Shop ; x  ;  note  ; more ") (lit "2023-05-01") (lit "2023-05-02") (lit "=Shop ; x") (lit "note  ; more").
Proof. apply header_iff. vm_compute. reflexivity. Qed.
Example C83_odd_price : price_read (lit "Pxy 2023-05-01 VTI") (lit "xy") (lit "2023-05-01") (lit "VTI") [] [].
Proof. apply price_iff. vm_compute. reflexivity. Qed.
Example C83_no_price : price_refused (lit "P 2023-05-01 ").
Proof. apply price_refused_iff. eexists. vm_compute. reflexivity. Qed.
