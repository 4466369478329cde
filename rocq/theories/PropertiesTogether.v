(** C96: what files contribute when they are read one after the other. *)
From Coq Require Import String List NArith ZArith Bool Lia.
From Verif Require Import Base Decimal Dates Amount Balance Scanner History Pool Account Journal Xact Parser Report Options Lib.
From Verif Require Import SpecDecimal SpecAmount SpecText SpecAccount SpecPool SpecJournal SpecReport SpecValue SpecTogether.
From Verif Require Import BaseFacts TogetherProofs DemoXact DemoPrices.
Import ListNotations.
Open Scope list_scope.
Open Scope nat_scope.

(** Lines that are read into two journals, whatever these contain, end alike and add the same transactions to both,
    unless a number overflows in one of them. *)
Theorem C96_source :
  forall depth cwd fs src j1 j2, reachable_journal j1 -> reachable_journal j2 ->
  unless_overflow (fun j1' j2' => exists new, j_xacts j1' = j_xacts j1 ++ new /\ j_xacts j2' = j_xacts j2 ++ new)
    (read_into_journal depth cwd fs src j1) (read_into_journal depth cwd fs src j2).
Proof. exact source_alike. Qed.
Print Assumptions C96_source.
(** Files that are named together: what each of the two groups has on its own. *)
Theorem C96_together :
  forall depth cwd fs files1 files2 j1 j2 j, read_journal_files depth cwd fs files1 = Ok j1 -> read_journal_files depth cwd fs files2 = Ok j2 ->
  read_journal_files depth cwd fs (files1 ++ files2) = Ok j -> together j1 j2 j.
Proof. exact files_together. Qed.
Print Assumptions C96_together.
(** They can be read together if they can be read each on their own and agree on the lot prices. *)
Theorem C96_readable :
  forall depth cwd fs files1 files2 j1 j2, read_journal_files depth cwd fs files1 = Ok j1 -> read_journal_files depth cwd fs files2 = Ok j2 ->
  lots_agree j1 j2 -> exists j, read_journal_files depth cwd fs (files1 ++ files2) = Ok j /\ together j1 j2 j.
Proof. exact files_compatible. Qed.
Print Assumptions C96_readable.
(** A file that is refused on its own is refused for the same reason after others, unless a number overflows. *)
Theorem C96_refused :
  forall depth cwd fs files1 files2 j1 e, read_journal_files depth cwd fs files1 = Ok j1 -> read_journal_files depth cwd fs files2 = Panic e -> e <> PArith ->
  read_journal_files depth cwd fs (files1 ++ files2) = Panic e \/ read_journal_files depth cwd fs (files1 ++ files2) = Panic PArith.
Proof. exact files_fail. Qed.
Print Assumptions C96_refused.
(** The totals add up, for each account and commodity. *)
Theorem C96_totals :
  forall depth cwd fs files1 files2 j1 j2 j q c v1 v2, read_journal_files depth cwd fs files1 = Ok j1 -> read_journal_files depth cwd fs files2 = Ok j2 ->
  read_journal_files depth cwd fs (files1 ++ files2) = Ok j -> fits_amts (amounts_of (posts_below j q)) ->
  total_is j1 q c v1 -> total_is j2 q c v2 -> total_is j q c (v1 + v2)%Z.
Proof. exact files_totals. Qed.
Print Assumptions C96_totals.
(** The order in which they are named changes neither the accounts, nor the commodities, nor the totals, nor for which
    moments there is a price. *)
Theorem C96_order :
  forall depth cwd fs files1 files2 j1 j2 j j', read_journal_files depth cwd fs files1 = Ok j1 -> read_journal_files depth cwd fs files2 = Ok j2 ->
  read_journal_files depth cwd fs (files1 ++ files2) = Ok j -> read_journal_files depth cwd fs (files2 ++ files1) = Ok j' ->
  (forall q, exists_at (j_master j) q <-> exists_at (j_master j') q)
  /\ (forall s, pool_find (j_pool j) s <> None <-> pool_find (j_pool j') s <> None)
  /\ (forall s t w, (exists v, price_on (j_pool j) s t w v) <-> exists v, price_on (j_pool j') s t w v)
  /\ forall q c v, fits_amts (amounts_of (posts_below j q)) -> total_is j q c v -> total_is j' q c v.
Proof. exact files_either_order. Qed.
Print Assumptions C96_order.
(** Files that can be read can be read twice, and then all totals double while the accounts, the commodities and the
    prices stay what they are. *)
Theorem C96_twice :
  forall depth cwd fs files j, read_journal_files depth cwd fs files = Ok j ->
  exists j', read_journal_files depth cwd fs (files ++ files) = Ok j'
  /\ j_xacts j' = j_xacts j ++ j_xacts j /\ (forall q, exists_at (j_master j') q <-> exists_at (j_master j) q)
  /\ (forall s, pool_find (j_pool j') s <> None <-> pool_find (j_pool j) s <> None)
  /\ (forall s t w v, price_on (j_pool j') s t w v <-> price_on (j_pool j) s t w v)
  /\ forall q c v, fits_amts (amounts_of (posts_below j' q)) -> total_is j q c v -> total_is j' q c (2 * v)%Z.
Proof.
  intros depth cwd fs files j H. destruct (files_twice depth cwd fs files j H) as (j' & H' & _). exists j'. split; [exact H'|]. exact (twice_doubles depth cwd fs files j j' H H').
Qed.
Print Assumptions C96_twice.

Definition first_text : str := lit "2024-01-01 Buy
  Assets:Broker  10 VTI {5 USD} @ 5 USD
  Assets:Cash

i 2024-01-02 VTI 6 USD
".
Definition second_text : str := lit "2024-01-05 Sell
  Assets:Broker  -4 VTI {5 USD} @ 7 USD
  Income:Gains  -3 USD
  Assets:Bank

i 2024-01-02 VTI 8 USD
i 2024-01-03 EUR 1.1 USD
".
Definition huge_text : str := lit "2024-01-01 x
  A  1 VTI {79228162514264337593543950335 EUR} @ 1 EUR
  B  -1 EUR
".
Definition small_text : str := lit "2024-01-02 y
  A  2 VTI @ 1 EUR
  B  -2 EUR
".
Definition own_text : str := lit "2024-01-02 y
  A  2 VTI {79228162514264337593543950335 EUR} @ 1 EUR
  B  -2 EUR
".
Definition two_files : filesystem := fun p =>
  if str_eqb p (lit "/w/first") then Some (text_source first_text)
  else if str_eqb p (lit "/w/second") then Some (text_source second_text)
  else if str_eqb p (lit "/w/huge") then Some (text_source huge_text)
  else if str_eqb p (lit "/w/small") then Some (text_source small_text)
  else if str_eqb p (lit "/w/own") then Some (text_source own_text)
  else None.
Definition read_two (files : list str) : outcome journal := read_journal_files 2 (lit "/w") two_files files.
Definition journal_of (files : list str) : journal := match read_two files with Ok j => j | _ => journal_new end.
Definition file1 : list str := [lit "/w/first"].
Definition file2 : list str := [lit "/w/second"].
Definition huge : list str := [lit "/w/huge"].
Definition small : list str := [lit "/w/small"].
Definition own : list str := [lit "/w/own"].
Definition total_check (j : journal) (q : path) (c : comm) (v : Z) : bool :=
  match get_account (j_master j) q with
  | Some a => match account_total (j_xacts j) a with Ok b => Z.eqb (holds b c) v | _ => false end
  | None => Z.eqb v 0
  end.
Lemma total_check_ok j q c v : total_check j q c v = true -> total_is j q c v.
Proof.
  unfold total_check, total_is. destruct (get_account (j_master j) q) as [a|]; [|intro H; apply Z.eqb_eq in H; exact H].
  destruct (account_total (j_xacts j) a) as [b| |]; intro H; try discriminate H. exists b. split; [reflexivity|]. apply Z.eqb_eq in H. exact H.
Qed.
Lemma one_lot j1 j2 k a : p_ann (j_pool j1) = [(k, a)] -> lookup k (p_ann (j_pool j2)) = Some a -> lots_agree j1 j2.
Proof.
  intros E1 E2 s x y Hx Hy. rewrite E1 in Hx. cbn [lookup] in Hx. destruct (str_eqb s k) eqn:E; [|discriminate Hx].
  apply str_eqb_eq in E. subst s. rewrite E2 in Hy. injection Hx as <-. injection Hy as <-. right. reflexivity.
Qed.
(** The broker account of the first file has 10 VTI, that of the second -4 VTI, and that of both 6 VTI. Only the second
    file has the bank account and the price of EUR. Both have a price of VTI for January 2; that of the second counts. *)
Example C96_demo :
  read_two file1 = Ok (journal_of file1) /\ read_two file2 = Ok (journal_of file2) /\ read_two (file1 ++ file2) = Ok (journal_of (file1 ++ file2))
  /\ lots_agree (journal_of file1) (journal_of file2)
  /\ fits_amts (amounts_of (posts_below (journal_of (file1 ++ file2)) [lit "Assets"]))
  /\ total_is (journal_of file1) [lit "Assets"] (Some (lit "VTI")) (10 * unit1)%Z
  /\ total_is (journal_of file2) [lit "Assets"] (Some (lit "VTI")) (-4 * unit1)%Z
  /\ total_is (journal_of (file1 ++ file2)) [lit "Assets"] (Some (lit "VTI")) (6 * unit1)%Z
  /\ get_account (j_master (journal_of file1)) [lit "Assets"; lit "Bank"] = None
  /\ total_is (journal_of (file1 ++ file2)) [lit "Assets"; lit "Bank"] (Some (lit "USD")) (-31 * unit1)%Z
  /\ pool_find (j_pool (journal_of file1)) (lit "EUR") = None
  /\ price_on (j_pool (journal_of file1)) (lit "VTI") (lit "USD" ++ nl) (day 2024 1 2) (dq 6 0)
  /\ price_on (j_pool (journal_of (file1 ++ file2))) (lit "VTI") (lit "USD" ++ nl) (day 2024 1 2) (dq 8 0)
  /\ price_on (j_pool (journal_of (file1 ++ file2))) (lit "VTI") (lit "USD") (day 2024 1 1) (dq 5 0)
  /\ price_on (j_pool (journal_of (file1 ++ file2))) (lit "EUR") (lit "USD" ++ nl) (day 2024 1 3) (dq 11 1).
Proof.
  split; [vm_compute; reflexivity|]. split; [vm_compute; reflexivity|]. split; [vm_compute; reflexivity|].
  split.
  { apply (one_lot (journal_of file1) (journal_of file2) (lit "VTI") (mkAnn (Some (mkAmt (dq 5 0) (Some (lit "USD")))) None)); vm_compute; reflexivity. }
  split; [apply (fits_check_ok 2); vm_compute; reflexivity|].
  split; [apply total_check_ok; vm_compute; reflexivity|].
  split; [apply total_check_ok; vm_compute; reflexivity|].
  split; [apply total_check_ok; vm_compute; reflexivity|].
  split; [vm_compute; reflexivity|].
  split; [apply total_check_ok; vm_compute; reflexivity|].
  split; [vm_compute; reflexivity|].
  split; [exists 0, 2; split; [vm_compute; reflexivity|]; split; [vm_compute; reflexivity|]; vm_compute; left; reflexivity|].
  split; [exists 0, 2; split; [vm_compute; reflexivity|]; split; [vm_compute; reflexivity|]; vm_compute; left; reflexivity|].
  split; [exists 0, 1; split; [vm_compute; reflexivity|]; split; [vm_compute; reflexivity|]; vm_compute; left; reflexivity|].
  exists 3, 2. split; [vm_compute; reflexivity|]. split; [vm_compute; reflexivity|]. vm_compute. left. reflexivity.
Qed.
(** The file is read twice; the total doubles. *)
Example C96_twice_demo :
  read_two (file1 ++ file1) = Ok (journal_of (file1 ++ file1)) /\ total_is (journal_of (file1 ++ file1)) [lit "Assets"] (Some (lit "VTI")) (20 * unit1)%Z.
Proof. split; [vm_compute; reflexivity|]. apply total_check_ok; vm_compute; reflexivity. Qed.
(** A file that is missing is refused after others as it is on its own. *)
Example C96_refused_demo :
  read_two [lit "/w/none"] = Panic PIo /\ read_two (file1 ++ [lit "/w/none"]) = Panic PIo.
Proof. split; vm_compute; reflexivity. Qed.

(** Without the condition on the lots it is false that files that can each be read on their own can be read together: a
    file with a large lot price makes another one overflow that does not have any lot. *)
Theorem C96_readable_refuted :
  ~ (forall depth cwd fs files1 files2 j1 j2, read_journal_files depth cwd fs files1 = Ok j1 -> read_journal_files depth cwd fs files2 = Ok j2 ->
     exists j, read_journal_files depth cwd fs (files1 ++ files2) = Ok j).
Proof.
  intro H. destruct (H 2 (lit "/w") two_files huge small (journal_of huge) (journal_of small)) as (j & E).
  - vm_compute. reflexivity.
  - vm_compute. reflexivity.
  - vm_compute in E. discriminate E.
Qed.
Print Assumptions C96_readable_refuted.
(** And it is false that a file that is refused on its own stays refused after others: the lot price that another file
    has given first is the one that is kept. *)
Theorem C96_refused_refuted :
  ~ (forall depth cwd fs files1 files2 j1 e, read_journal_files depth cwd fs files1 = Ok j1 -> read_journal_files depth cwd fs files2 = Panic e ->
     exists e', read_journal_files depth cwd fs (files1 ++ files2) = Panic e').
Proof.
  intro H. destruct (H 2 (lit "/w") two_files small own (journal_of small) PArith) as (j & E).
  - vm_compute. reflexivity.
  - vm_compute. reflexivity.
  - vm_compute in E. discriminate E.
Qed.
Print Assumptions C96_refused_refuted.
