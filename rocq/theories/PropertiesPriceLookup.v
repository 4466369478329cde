(** C92: what a price lookup gives after reading files. *)
From Coq Require Import String List NArith ZArith Bool Lia.
From Verif Require Import Base Decimal Dates Amount Balance Scanner History Pool Account Journal Xact Parser Lib.
From Verif Require Import SpecDecimal SpecAmount SpecDates SpecPool SpecText SpecReading SpecXact SpecJournal SpecFull SpecOutline SpecPriceLog SpecPriceLookup.
From Verif Require Import PriceFacts PriceLookupProofs DemoPrices.
Import ListNotations.
Open Scope nat_scope.

(** ** C92: a price lookup gives what the transactions and price lines of the files say *)
Theorem C92_lookup :
  forall depth cwd fs files j, read_journal_files depth cwd fs files = Ok j ->
  exists its rs, files_outline cwd fs files its /\ recorded its (j_xacts j) rs
    /\ forall astar s t now moment oldest, shortest_paths astar -> valid_dt now -> s <> t ->
       let r := pool_find_price astar (j_pool j) (Some s) (Some t) now moment oldest in
       ((exists path, said_chain rs s path t) ->
          (exists d amt, r = Ok (Some (d, amt)) /\ lookup_says rs s t now d amt)
          \/ r = Panic PArith /\ ~ said rs s t)
       /\ ((forall path, ~ said_chain rs s path t) ->
          (exists c, pool_find (j_pool j) s = Some c) -> (exists c, pool_find (j_pool j) t = Some c) -> r = Ok None).
Proof. exact lookup_files. Qed.
Print Assumptions C92_lookup.

(** Two files.  The newest price of VTI in EUR is in the first one though the second gives an older one later; VTI is
    priced in USD through EUR; there is no price of USD. *)
Definition quotes_fs : filesystem := fun f =>
  if str_eqb f (lit "/w/a") then
    Some (text_source (lit "2023-05-03 Broker" ++ nl ++ lit " Assets:Stock  2 VTI @@ 5 EUR" ++ nl ++ lit " Assets:Cash" ++ nl ++ nl
      ++ lit "i 2023-05-03 VTI 2.6 EUR " ++ nl ++ lit "i 2023-05-04 12:30:00 VTI 2.75 EUR " ++ nl))
  else if str_eqb f (lit "/w/b") then
    Some (text_source (lit "i 2023-05-01 VTI 9 EUR " ++ nl ++ lit "i 2023-01-01 EUR 1.2 USD " ++ nl))
  else None.
Definition quotes : list record :=
  [(lit "VTI", lit "EUR", day 2023 5 3, mkDec false 25 1); (lit "VTI", lit "EUR", day 2023 5 3, mkDec false 26 1);
   (lit "VTI", lit "EUR", mkDT (mkDate 2023 5 4) (mkTime 12 30 0), mkDec false 275 2);
   (lit "VTI", lit "EUR", day 2023 5 1, mkDec false 9 0); (lit "EUR", lit "USD", day 2023 1 1, mkDec false 12 1)].
Example C92_case :
  exists j, read_journal_files 1 (lit "/w") quotes_fs [lit "/w/a"; lit "/w/b"] = Ok j
  /\ let look s t := pool_find_price bfs (j_pool j) (Some (lit s)) (Some (lit t)) (day 2024 1 1) (day 2020 1 1) (day 2020 1 1) in
     look "VTI"%string "EUR"%string = Ok (Some (mkDT (mkDate 2023 5 4) (mkTime 12 30 0), mkAmt (mkDec false 275 2) (Some (lit "EUR"))))
     /\ look "VTI"%string "USD"%string = Ok (Some (day 2023 1 1, mkAmt (mkDec false 3300 3) (Some (lit "USD"))))
     /\ look "USD"%string "EUR"%string = Ok None.
Proof. eexists. split; [vm_compute; reflexivity|]. vm_compute. auto. Qed.
Example C92_newest :
  newest_said quotes (lit "VTI") (lit "EUR") (mkDT (mkDate 2023 5 4) (mkTime 12 30 0)) (mkDec false 275 2)
  /\ said_chain quotes (lit "VTI") [lit "EUR"; lit "USD"] (lit "USD") /\ ~ said quotes (lit "VTI") (lit "USD").
Proof.
  split; [|split].
  - exists (firstn 2 quotes), (skipn 3 quotes). split; [reflexivity|]. split.
    + intros w v [E|[E|[]]]; injection E as <- <-; left; vm_compute; tauto.
    + intros w v [E|[E|[]]]; injection E as; [subst w; vm_compute; tauto|discriminate].
  - split; [|split; [|reflexivity]].
    + do 2 eexists. left. reflexivity.
    + do 2 eexists. do 4 right. left. reflexivity.
  - intros (w & v & I). repeat (destruct I as [I|I]; [discriminate|]). exact I.
Qed.
