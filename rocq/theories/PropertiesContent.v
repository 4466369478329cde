(** What the transactions of any accepted source are. *)
From Coq Require Import String List NArith ZArith Bool Lia.
From Verif Require Import Base Decimal Dates Amount Balance Scanner History Pool Account Journal Xact Parser.
From Verif Require Import SpecText SpecDecimal SpecAmount SpecReading SpecScan SpecDates SpecAccount SpecXact SpecJournal SpecOutline SpecLine SpecValue SpecContent.
From Verif Require Import BaseFacts DatesFacts LineReadProofs ContentProofs DemoReading DemoScan.
Import ListNotations.
Open Scope nat_scope.

(** * C84: the transactions are those the lines tell of, well-formed or not.  Every line of the files is accounted for in
    [content]; each header, posting and note is read by the rules of C83; a quantity that is not a number counts as none. *)
Theorem C84_transactions :
  forall depth cwd fs src j j', reachable_journal j -> read_into_journal depth cwd fs src j = Ok j' ->
  exists its new, content cwd fs None src its /\ j_xacts j' = j_xacts j ++ new /\ Forall2 xact_told its new.
Proof. exact read_content. Qed.
Print Assumptions C84_transactions.
Theorem C84_content_unique :
  forall cwd fs, (forall p, fs p <> None -> file_path p) -> forall cur src its, content cwd fs cur src its ->
  forall its', content cwd fs cur src its' -> its' = its.
Proof. exact content_unique. Qed.
Print Assumptions C84_content_unique.

(** A line with a quantity that is not a number, a cost that touches the sign, a lot price and notes. *)
Definition odd_lines : list str :=
  [lit "2023-05-01=2023-05-02 " ++ nl; lit " ; first" ++ nl; lit " Expenses:Food  1,000 EUR" ++ nl; lit "  Assets:Stock  -5 VTI {2 USD} @@x3USD ; tail" ++ nl; lit " ;" ++ nl; lit " ; second ; third " ++ nl].
Definition odd_entries : entries :=
  (lit "2023-05-01=2023-05-02 " ++ nl,
   [Note_line (lit "; first" ++ nl); Posting_line (lit "Expenses:Food  1,000 EUR" ++ nl); Posting_line (lit " Assets:Stock  -5 VTI {2 USD} @@x3USD ; tail" ++ nl);
    Note_line (lit ";" ++ nl); Note_line (lit "; second ; third " ++ nl)]).
Lemma odd_content : content [] (fun _ => None) None (map Some odd_lines) [odd_entries].
Proof.
  apply (ct_header _ _ 50%N); [reflexivity|]. apply ct_note; [exists [], (lit " first" ++ nl); repeat split|].
  apply (ct_posting _ _ _ _ _ 69%N); [exists [], (lit "xpenses:Food  1,000 EUR" ++ nl); repeat split|discriminate|].
  apply (ct_posting _ _ _ _ _ 65%N); [exists sp, (lit "ssets:Stock  -5 VTI {2 USD} @@x3USD ; tail" ++ nl); repeat split|discriminate|].
  apply ct_note; [exists [], nl; repeat split|]. apply ct_note; [exists [], (lit " second ; third " ++ nl); repeat split|]. apply ct_end_xact.
Qed.
Example C84_case :
  exists j, read_into_journal 1 [] (fun _ => None) (map Some odd_lines) journal_new = Ok j /\ Forall2 xact_told [odd_entries] (j_xacts j)
    /\ map (fun x => (x_note x, map po_note (x_posts x))) (j_xacts j) = [(Some (lit "first"), [None; Some (lit "second ; third")])]
    /\ map (fun x => map po_amount (x_posts x)) (j_xacts j) = [[Some (mkAmt (mkDec true 3 0) (Some (lit "USD"))); Some (mkAmt (mkDec true 5 0) (Some (lit "VTI")))]].
Proof.
  destruct (read_into_journal 1 [] (fun _ => None) (map Some odd_lines) journal_new) as [j| |] eqn:E; [|vm_compute in E; discriminate|vm_compute in E; discriminate].
  exists j. split; [reflexivity|]. split.
  - destruct (read_content _ _ _ _ _ _ rj_new E) as (its & new & C & Ej & F). rewrite Ej. cbn [journal_new j_xacts app].
    rewrite <- (content_unique [] (fun _ => None) (fun p H => False_ind _ (H eq_refl)) _ _ _ odd_content _ C). exact F.
  - vm_compute in E. injection E as <-. split; reflexivity.
Qed.
