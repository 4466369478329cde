(** Which sources are refused. *)
From Coq Require Import String List NArith ZArith Bool Lia.
From Verif Require Import Base Decimal Dates Amount Balance Scanner History Pool Account Journal Xact Parser Unfinished.
From Verif Require Import SpecText SpecDecimal SpecAmount SpecReading SpecScan SpecDates SpecAccount SpecXact SpecJournal SpecOutline SpecLine SpecValue SpecContent SpecRefused.
From Verif Require Import BaseFacts DatesFacts LineReadProofs LiteralProofs ContentProofs RefusedProofs ArithProofs DemoReading DemoScan.
Import ListNotations.
Open Scope nat_scope.

(** * C02: the texts that are read as quantities are exactly the literals in range. *)
Theorem C02_accepted_texts :
  forall s, (exists d, d_from_str s = Some d) <-> exists neg whole frac, quantity_text s neg whole frac.
Proof. exact quantity_text_iff. Qed.
Print Assumptions C02_accepted_texts.
Example C02_accepted_case :
  (exists d, d_from_str (lit "-.5_0") = Some d) /\ (exists neg whole frac, quantity_text (lit "-.5_0") neg whole frac)
  /\ ~ (exists neg whole frac, quantity_text (lit "1,000") neg whole frac) /\ ~ exists neg whole frac, quantity_text (lit "_1") neg whole frac.
Proof.
  assert (A : exists d, d_from_str (lit "-.5_0") = Some d) by (eexists; vm_compute; reflexivity). split; [exact A|]. split; [apply quantity_text_iff, A|].
  split; intros H; apply quantity_text_iff in H as [d H]; vm_compute in H; discriminate.
Qed.

(** * C69: the conversion of texts to quantities, which fails for all other texts. *)
Theorem C69_text :
  forall s,
  (forall neg whole frac, quantity_text s neg whole frac ->
     exists d, quantity_from_str s = Ok d /\ wf_dec d /\ d_s d = length frac
     /\ units d = ((if neg then - number (whole ++ frac) else number (whole ++ frac)) * 10 ^ Z.of_nat (28 - length frac))%Z)
  /\ ((exists p, quantity_from_str s = Panic p) <-> ~ exists neg whole frac, quantity_text s neg whole frac).
Proof.
  intros s. unfold quantity_from_str. split.
  - intros neg whole frac Q. pose proof (quantity_text_value _ _ _ _ Q) as E. pose proof (proj1 (read_exactly _ _ E)) as W. rewrite E. eexists. split; [reflexivity|]. split; [exact W|]. split; [reflexivity|].
    unfold units, d_make. cbn [d_neg d_m d_s]. destruct (Z.eqb_spec (number (whole ++ frac)) 0) as [->|N]; [destruct neg; reflexivity|reflexivity].
  - rewrite <- quantity_text_iff. destruct (d_from_str s) as [d|]; cbn; split.
    + intros [p H]. discriminate.
    + intros H. elim H. eexists. reflexivity.
    + intros _ [d H]. discriminate.
    + intros _. eexists. reflexivity.
Qed.
Print Assumptions C69_text.
Example C69_text_case :
  quantity_from_str (lit "-.5_0") = Ok (mkDec true 50 2) /\ (exists neg whole frac, quantity_text (lit "-.5_0") neg whole frac)
  /\ quantity_from_str (lit "1,000") = Panic PUnwrap.
Proof.
  split; [vm_compute; reflexivity|]. split; [|vm_compute; reflexivity]. apply quantity_text_iff. eexists. vm_compute. reflexivity.
Qed.

(** * C85: reading fails exactly for the sources with something that is refused, short of decimal overflow and of includes
    nested too deep. *)
Theorem C85_refused :
  forall depth cwd fs src j p, (forall q, fs q <> None -> file_path q) -> reachable_journal j ->
  read_into_journal depth cwd fs src j = Panic p -> p <> PArith -> refused cwd fs None src.
Proof. intros depth cwd fs src j p. exact (panics_refused depth cwd fs src j p). Qed.
Print Assumptions C85_refused.
Theorem C85_never_read :
  forall depth cwd fs src j j', reachable_journal j -> refused cwd fs None src -> read_into_journal depth cwd fs src j <> Ok j'.
Proof. exact refused_not_read. Qed.
Print Assumptions C85_never_read.

(** A comment, then a line that no rule of reading covers. *)
Definition stray_lines : list str := [lit "; prices" ++ nl; lit "P 2023-05-01 EUR 1.1 USD" ++ nl].
Example C85_line_case :
  refused [] (fun _ => None) None (map Some stray_lines) /\ exists p, read_into_journal 1 [] (fun _ => None) (map Some stray_lines) journal_new = Panic p.
Proof.
  split; [|eexists; vm_compute; reflexivity]. apply rf_inert; [eexists; split; [reflexivity|]; right; right; exists 59%N, (lit " prices" ++ nl); split; [reflexivity|left; reflexivity]|]. apply rf_line.
  apply lx_unknown; [|reflexivity|].
  - intros (l & [= <-] & [X|[X|(c & r & [= <- _] & X)]]); try discriminate. vm_compute in X. intuition discriminate.
  - intros w x E Sp. destruct w as [|c w]; [discriminate|]. injection E as <- _. discriminate.
Qed.
(** A transaction with one posting, in an included file. *)
Definition alone_lines : list str := [lit "2023-05-01 Shop" ++ nl; lit " Expenses:Food  1 EUR" ++ nl].
Definition alone_fs (p : str) : option source := if str_eqb p inc_path then Some (map Some alone_lines) else None.
Example C85_include_case :
  (forall q, alone_fs q <> None -> file_path q) /\ refused (lit "/w") alone_fs None [Some include_food]
  /\ read_into_journal 3 (lit "/w") alone_fs [Some include_food] journal_new = Panic PTodo.
Proof.
  assert (F : forall q, alone_fs q <> None -> file_path q).
  { unfold alone_fs. intros q H. destruct (str_eqb q inc_path) eqn:E; [|congruence]. apply str_eqb_eq in E. subst q. exists (lit "/w"), (lit "food.ledger"). repeat split; try discriminate. intros H2. vm_compute in H2. intuition discriminate. }
  assert (R : read_into_journal 3 (lit "/w") alone_fs [Some include_food] journal_new = Panic PTodo) by (vm_compute; reflexivity).
  split; [exact F|]. split; [|exact R]. exact (C85_refused _ _ _ _ _ _ F rj_new R ltac:(discriminate)).
Qed.
(** Wrong dates, two amounts left out, a cost in the commodity of the amount; and a file that is not refused. *)
Definition refuses (ls : list string) : Prop := refused [] (fun _ => None) None (map (fun l => Some (lit l ++ nl)) ls).
Example C85_cases :
  refuses ["2023-02-29 Shop"; " A  1 EUR"; " B"]%string /\ refuses ["2023-02-28 Shop"; " A  1 EUR"; " B"; " C"]%string
  /\ refuses ["2023-02-28 Shop"; " A  1 EUR @ 2 EUR"; " B"]%string /\ refuses ["2023-02-28 Shop"; " A  1 VTI {2 EUR} {3 EUR}"; " B"]%string
  /\ refuses ["2023-02-28 Shop"; "A  1 EUR"; " B"]%string /\ ~ refuses ["2023-02-28 Shop"; " A  1 EUR @ 2 USD"; " B"]%string.
Proof.
  assert (F : forall q : str, (fun _ => @None source) q <> None -> file_path q) by (intros q H; congruence).
  assert (R : forall ls p, read_into_journal 1 [] (fun _ => None) (map (fun l => Some (lit l ++ nl)) ls) journal_new = Panic p -> p <> PArith -> refuses ls) by (intros ls p; apply (C85_refused 1 [] (fun _ => None) _ _ _ F rj_new)).
  repeat (split; [eapply R; [vm_compute; reflexivity|discriminate]|]).
  intros H. destruct (read_into_journal 1 [] (fun _ => None) (map (fun l => Some (lit l ++ nl)) ["2023-02-28 Shop"; " A  1 EUR @ 2 USD"; " B"]%string) journal_new) as [j| |] eqn:E; [|vm_compute in E; discriminate|vm_compute in E; discriminate].
  exact (C85_never_read _ _ _ _ _ _ rj_new H E).
Qed.
