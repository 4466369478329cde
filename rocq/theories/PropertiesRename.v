(** C89: other names of the commodities. *)
From Coq Require Import String List NArith ZArith Bool Lia.
From Verif Require Import Base Decimal Dates Amount Balance Scanner History Pool Account Journal Xact Parser Report Options Lib.
From Verif Require Import SpecText SpecReading SpecScan SpecOutline SpecLine SpecEnd SpecValue SpecSpelling SpecRename.
From Verif Require Import BaseFacts LineReadProofs RenameProofs DemoScan.
Import ListNotations.
Open Scope list_scope.
Open Scope nat_scope.

(** ** C89: commodities with other names give the same journal with the other names *)
Theorem C89_reading :
  forall f depth cwd fs fs' src src' j, renaming f -> files_renamed f fs fs' -> source_renamed f src src' ->
  same_outcome (fun j1 j2 => j2 = journal_renamed f j1)
    (read_into_journal depth cwd fs src j) (read_into_journal depth cwd fs' src' (journal_renamed f j)).
Proof. intros f depth cwd fs fs' src src' j R. exact (reading_ren f R depth cwd fs fs' src src' j). Qed.
Print Assumptions C89_reading.
Theorem C89_report :
  forall f j, renaming f ->
  same_outcome (Forall2 (shown_renamed f)) (balance_report j) (balance_report (journal_renamed f j))
  /\ report_accounts (journal_renamed f j) = report_accounts j.
Proof. intros f j R. exact (report_ren f R j). Qed.
Print Assumptions C89_report.
(** The commands end in the same way; the text is the same but for the names. *)
Theorem C89_run :
  forall f depth cwd fs fs' args, renaming f -> files_renamed f fs fs' ->
  same_outcome (fun out out' => out = out' \/ Forall2 (shown_renamed f) out out') (run depth cwd fs args) (run depth cwd fs' args).
Proof. intros f depth cwd fs fs' args R. exact (run_ren f R depth cwd fs fs' args). Qed.
Print Assumptions C89_run.
Theorem C89_prices :
  forall f astar p s t now moment oldest, renaming f -> blind_to_names astar ->
  same_outcome (fun x y => y = option_map (fun v => (fst v, amount_renamed f (snd v))) x)
    (pool_find_price astar p s t now moment oldest)
    (pool_find_price astar (pool_renamed f p) (option_map f s) (option_map f t) now moment oldest).
Proof. intros f astar p s t now moment oldest R. exact (price_ren f R astar p s t now moment oldest). Qed.
Print Assumptions C89_prices.

(** EUR and USD change places. *)
Definition swapped (s : str) : str :=
  if str_eqb s (lit "EUR") then lit "USD" else if str_eqb s (lit "USD") then lit "EUR" else s.
Lemma swapped_twice s : swapped (swapped s) = s.
Proof.
  unfold swapped. destruct (str_eqb s (lit "EUR")) eqn:A; [apply str_eqb_eq in A; subst; reflexivity|].
  destruct (str_eqb s (lit "USD")) eqn:B; [apply str_eqb_eq in B; subst; reflexivity|]. rewrite A, B. reflexivity.
Qed.
Lemma swapped_renaming : renaming swapped.
Proof. split; [|reflexivity]. intros s t E. rewrite <- (swapped_twice s), E. apply swapped_twice. Qed.
Definition euro_file : list str := [lit "; prices" ++ nl; lit "i 2023-05-01 VTI 2.60 EUR"  ++ lit " " ++ nl; lit "2023-05-03 Broker" ++ nl; lit "  ; EUR" ++ nl;
  lit "  Assets:Stock  2 VTI {3 EUR} @@ 5 USD" ++ nl; lit "  Assets:Cash  EUR -3" ++ nl; lit "  Assets:Cash  -2 USD"].
Definition dollar_file : list str := [lit "; prices" ++ nl; lit "i 2023-05-01 VTI 2.60 USD" ++ lit " " ++ nl; lit "2023-05-03 Broker" ++ nl; lit "  ; EUR" ++ nl;
  lit "  Assets:Stock  2 VTI {3 USD} @@ 5 EUR" ++ nl; lit "  Assets:Cash  -3 USD" ++ nl; lit "  Assets:Cash  -2 EUR"].
Definition money_fs (l : list str) : filesystem := fun p => if str_eqb p (lit "j") then Some (text_source (concat l)) else None.
Lemma no_price c r : is_ws c = false -> c <> 105%N -> ~ read_as_price (c :: r).
Proof.
  intros W N (w & x & r' & E & S & _ & _ & H & _). destruct w as [|d w].
  - destruct x as [|e x]; [discriminate|]. cbn in E, H. injection E as -> _. contradiction.
  - injection E as -> _. unfold spaces in S. cbn in S. apply andb_prop in S as [S _]. congruence.
Qed.
Lemma two_moneys : source_renamed swapped (map Some euro_file) (map Some dollar_file).
Proof.
  unfold euro_file, dollar_file. cbn [map]. repeat apply Forall2_cons; try apply Forall2_nil.
  - apply ln_other; [discriminate|apply no_price; [reflexivity|discriminate]].
  - apply (ln_price _ _ _ (lit "2023-05-01") [] (lit "VTI") (lit "2.60") (lit "EUR")); try reflexivity.
    + exists [], (lit "i"), (lit " 2023-05-01 VTI 2.60 EUR " ++ nl). repeat split; try discriminate. right. eexists _, _. split; reflexivity.
    + exists [], (lit "i"), (lit " 2023-05-01 VTI 2.60 USD " ++ nl). repeat split; try discriminate. right. eexists _, _. split; reflexivity.
    + apply price_iff. vm_compute. reflexivity.
    + apply price_iff. vm_compute. reflexivity.
  - apply ln_other; [discriminate|apply no_price; [reflexivity|discriminate]].
  - apply ln_note. exists sp, (lit " EUR" ++ nl). repeat split.
  - eapply ln_posting; apply post_iff; vm_compute; reflexivity.
  - eapply ln_posting; apply post_iff; vm_compute; reflexivity.
  - eapply ln_posting; apply post_iff; vm_compute; reflexivity.
Qed.
Example C89_swapped : files_renamed swapped (money_fs euro_file) (money_fs dollar_file)
  /\ run 1 [] (money_fs euro_file) [lit "-f"; lit "j"; lit "b"] = Ok [lit "Account  has balance -3 EUR-2 USD2 VTI"; lit "Account Assets has balance -3 EUR-2 USD2 VTI";
       lit "Account Assets:Cash has balance -3 EUR-2 USD"; lit "Account Assets:Stock has balance 2 VTI"]
  /\ run 1 [] (money_fs dollar_file) [lit "-f"; lit "j"; lit "b"] = Ok [lit "Account  has balance -3 USD-2 EUR2 VTI"; lit "Account Assets has balance -3 USD-2 EUR2 VTI";
       lit "Account Assets:Cash has balance -3 USD-2 EUR"; lit "Account Assets:Stock has balance 2 VTI"].
Proof.
  split; [|split; vm_compute; reflexivity]. intros p. unfold money_fs. destruct (str_eqb p (lit "j")); [|exact I]. exact two_moneys.
Qed.
(** A search that looks only at the edges. *)
Example C89_blind : blind_to_names bfs.
Proof. exact bfs_blind. Qed.
