(** C93: opposite amounts give opposite totals. *)
From Coq Require Import String List NArith ZArith Bool Lia.
From Verif Require Import Base Decimal Dates Amount Balance Scanner History Pool Account Journal Xact Parser Report Options Lib.
From Verif Require Import SpecDecimal SpecText SpecReading SpecDates SpecScan SpecOutline SpecLine SpecEnd SpecValue SpecRefused SpecSpelling SpecOpposite.
From Verif Require Import BaseFacts DatesFacts LineReadProofs LiteralProofs ScanFacts OppositeProofs DemoScan.
Import ListNotations.
Open Scope list_scope.
Open Scope nat_scope.

(** ** C93: opposite amounts give opposite totals *)
(** Sums and differences of opposite quantities are opposite, also if they are rounded; so are products with one
    opposite factor; quotients of opposite quantities are the same. *)
Theorem C93_arithmetic :
  forall a a' b b', opposite a a' -> opposite b b' ->
  same_outcome opposite (d_add a b) (d_add a' b') /\ same_outcome opposite (d_sub a b) (d_sub a' b')
  /\ same_outcome opposite (d_mul a b) (d_mul a b') /\ d_div a b = d_div a' b'.
Proof.
  intros a a' b b' A B. split; [apply add_opp; assumption|]. split; [apply sub_opp; assumption|]. split; [apply mul_opp; assumption|apply div_opp; assumption].
Qed.
Print Assumptions C93_arithmetic.
Theorem C93_balance :
  forall b b' a a', opposite_balance b b' -> opposite_amount a a' -> same_outcome opposite_balance (bal_add b a) (bal_add b' a').
Proof. exact bal_add_opp. Qed.
Print Assumptions C93_balance.

(** Both files are read, and the journals are opposite, with the same accounts and the same prices; or both end alike.
    Every posting has an amount. *)
Theorem C93_reading_partial :
  forall depth cwd fs fs' src src' j j', opposite_files fs fs' -> opposite_source src src' -> opposite_journal j j' ->
  same_outcome opposite_journal (read_into_journal depth cwd fs src j) (read_into_journal depth cwd fs' src' j').
Proof. exact reading_opp. Qed.
Print Assumptions C93_reading_partial.
Theorem C93_totals :
  forall j j', opposite_journal j j' -> forall a, same_outcome opposite_balance (account_total (j_xacts j) a) (account_total (j_xacts j') a).
Proof. intros j j' (_ & _ & X). exact (total_opp _ _ X). Qed.
Print Assumptions C93_totals.
Theorem C93_report :
  forall j j', opposite_journal j j' ->
  same_outcome (Forall2 opposite_shown) (balance_report j) (balance_report j') /\ report_accounts j = report_accounts j'.
Proof. exact report_opp. Qed.
Print Assumptions C93_report.
Theorem C93_run_partial :
  forall depth cwd fs fs' args, opposite_files fs fs' ->
  same_outcome (fun out out' => out = out' \/ Forall2 opposite_shown out out') (run depth cwd fs args) (run depth cwd fs' args).
Proof. exact run_opp. Qed.
Print Assumptions C93_run_partial.

Definition bought : list str := [lit "2023-05-03 Broker" ++ nl; lit "  ; first" ++ nl; lit "  Assets:Stock  2 VTI {3 EUR} @ 2.50 EUR" ++ nl; lit "  Assets:Cash  -5 EUR" ++ nl; nl;
  lit "2023-05-04 Change" ++ nl; lit "  Assets:Cash  -10 EUR" ++ nl; lit "  Assets:Dollars  12 USD @@ 10 EUR" ++ nl; nl;
  lit "2023-05-05 Change" ++ nl; lit "  Assets:Cash  3 EUR" ++ nl; lit "  Assets:Dollars  -4 USD" ++ nl].
Definition sold : list str := [lit "2023-05-03 Broker" ++ nl; lit "  ; first" ++ nl; lit "  Assets:Stock  -2 VTI {3 EUR} @ 2.50 EUR" ++ nl; lit "  Assets:Cash  5 EUR" ++ nl; nl;
  lit "2023-05-04 Change" ++ nl; lit "  Assets:Cash  10 EUR" ++ nl; lit "  Assets:Dollars  -12 USD @@ -10 EUR" ++ nl; nl;
  lit "2023-05-05 Change" ++ nl; lit "  Assets:Cash  -3 EUR" ++ nl; lit "  Assets:Dollars  4 USD" ++ nl].
Definition trade_fs (l : list str) : filesystem := fun p => if str_eqb p (lit "j") then Some (text_source (concat l)) else None.
Lemma plain_number (neg : bool) ds : forallb is_digit ds && negb (is_empty ds) && (number ds <? 2 ^ 96)%Z = true -> quantity_text ((if neg then [minus_c] else []) ++ ds) neg ds [].
Proof.
  intros H. apply andb_prop in H as [H B]. apply andb_prop in H as [D N]. apply Z.ltb_lt in B.
  assert (U : forall c, In c ds -> c <> underscore_c). { intros c I ->. rewrite forallb_forall in D. apply D in I. discriminate. }
  assert (U' : ~ In underscore_c ((if neg then [minus_c] else []) ++ ds)).
  { intros I. apply in_app_or in I as [I|I]; [destruct neg; [destruct I as [I|[]]; discriminate|destruct I]|]. apply (U _ I). reflexivity. }
  split; [|split; [|split; [|split]]].
  - exists (if neg then [minus_c] else []), ds. split; [reflexivity|]. split; [destruct neg; auto|]. split.
    + left. split; [|reflexivity]. unfold no_underscores. clear -U. induction ds as [|c ds IH]; [reflexivity|]. cbn [filter].
      destruct (N.eqb_spec c underscore_c) as [E|E]; [exfalso; apply (U c); [left; reflexivity|exact E]|]. cbn. f_equal. apply IH. intros d I. apply U. right. exact I.
    + split; [exact D|]. split; [reflexivity|]. rewrite app_nil_r. intros ->. discriminate.
  - intros a b E. exfalso. apply U'. rewrite E. apply in_or_app. right. left. reflexivity.
  - rewrite app_nil_r. exact B.
  - apply Nat.le_0_l.
  - discriminate.
Qed.
Lemma number_pair ds : forallb is_digit ds && negb (is_empty ds) && (number ds <? 2 ^ 96)%Z = true -> opposite_number ds ([minus_c] ++ ds) /\ opposite_number ([minus_c] ++ ds) ds.
Proof.
  intros H. split; [exists false, ds, []|exists true, ds, []].
  - split; [exact (plain_number false _ H)|exact (plain_number true _ H)].
  - split; [exact (plain_number true _ H)|exact (plain_number false _ H)].
Qed.
Lemma two_trades : opposite_source (map Some bought) (map Some sold).
Proof.
  assert (K : forall r r' t t', scan_post r = Ok t -> scan_post r' = Ok t' -> opposite_parts t t' -> opposite_line (Some (32%N :: r)) (Some (32%N :: r'))).
  { intros r r' t t' S S' T. eapply ol_posting; [apply post_iff, S|apply post_iff, S'|exact T]. }
  assert (N : forall ds, forallb is_digit (lit ds) && negb (is_empty (lit ds)) && (number (lit ds) <? 2 ^ 96)%Z = true -> opposite_number (lit ds) ([minus_c] ++ lit ds) /\ opposite_number ([minus_c] ++ lit ds) (lit ds)) by (intros ds H; apply number_pair, H).
  unfold bought, sold. cbn [map].
  repeat apply Forall2_cons; try apply Forall2_nil; try (apply ol_same; left; discriminate).
  - apply ol_same. right. right. eexists. split; [reflexivity|]. exists sp, (lit " first" ++ nl). repeat split.
  - eapply K; [vm_compute; reflexivity|vm_compute; reflexivity|]. repeat split; cbn. apply (N "2"%string). vm_compute. reflexivity.
  - eapply K; [vm_compute; reflexivity|vm_compute; reflexivity|]. repeat split; cbn; [apply (N "5"%string); vm_compute; reflexivity|left; split; reflexivity].
  - eapply K; [vm_compute; reflexivity|vm_compute; reflexivity|]. repeat split; cbn; [apply (N "10"%string); vm_compute; reflexivity|left; split; reflexivity].
  - eapply K; [vm_compute; reflexivity|vm_compute; reflexivity|]. repeat split; cbn; [apply (N "12"%string); vm_compute; reflexivity|right; apply (N "10"%string); vm_compute; reflexivity].
  - eapply K; [vm_compute; reflexivity|vm_compute; reflexivity|]. repeat split; cbn; [apply (N "3"%string); vm_compute; reflexivity|left; split; reflexivity].
  - eapply K; [vm_compute; reflexivity|vm_compute; reflexivity|]. repeat split; cbn; [apply (N "4"%string); vm_compute; reflexivity|left; split; reflexivity].
Qed.
Example C93_trades : opposite_files (trade_fs bought) (trade_fs sold)
  /\   run 1 [] (trade_fs bought) [lit "-f"; lit "j"; lit "b"] = Ok [lit "Account  has balance -12 EUR8 USD2 VTI"; lit "Account Assets has balance -12 EUR8 USD2 VTI";
       lit "Account Assets:Cash has balance -12 EUR"; lit "Account Assets:Dollars has balance 8 USD"; lit "Account Assets:Stock has balance 2 VTI"]
  /\ run 1 [] (trade_fs sold) [lit "-f"; lit "j"; lit "b"] = Ok [lit "Account  has balance 12 EUR-8 USD-2 VTI"; lit "Account Assets has balance 12 EUR-8 USD-2 VTI";
       lit "Account Assets:Cash has balance 12 EUR"; lit "Account Assets:Dollars has balance -8 USD"; lit "Account Assets:Stock has balance -2 VTI"].
Proof.
  split; [|split; vm_compute; reflexivity]. intros p. unfold trade_fs. destruct (str_eqb p (lit "j")); [|exact I]. exact two_trades.
Qed.

(** A left-out amount does not change its sign: the account that it is posted to has the same total. *)
Definition given_all : list str := [lit "2023-05-03 Shop" ++ nl; lit "  Food  5 EUR" ++ nl; lit "  Cash" ++ nl].
Definition given_back : list str := [lit "2023-05-03 Shop" ++ nl; lit "  Food  -5 EUR" ++ nl; lit "  Cash" ++ nl].
Definition journal_of (l : list str) : journal :=
  match read_into_journal 1 [] (fun _ => None) (map Some l) journal_new with Ok j => j | _ => journal_new end.
Theorem C93_left_out_refuted :
  exists src src' j j' a b b', Forall2 turned_line src src'
  /\ read_into_journal 1 [] (fun _ => None) src journal_new = Ok j /\ read_into_journal 1 [] (fun _ => None) src' journal_new = Ok j'
  /\ j_master j = j_master j' /\ In a (ac_children (j_master j))
  /\ account_total (j_xacts j) a = Ok b /\ account_total (j_xacts j') a = Ok b' /\ ~ opposite_balance b b'.
Proof.
  exists (map Some given_all), (map Some given_back), (journal_of given_all), (journal_of given_back), (nth 1 (ac_children (j_master (journal_of given_all))) (Acct [] [] [])).
  exists [mkAmt (mkDec true 5 0) (Some (lit "EUR"))], [mkAmt (mkDec true 5 0) (Some (lit "EUR"))].
  split.
  { unfold given_all, given_back. cbn [map]. repeat apply Forall2_cons; try apply Forall2_nil.
    - apply tl_opposite, ol_same. left. discriminate.
    - apply tl_opposite. eapply ol_posting; [apply post_iff; vm_compute; reflexivity|apply post_iff; vm_compute; reflexivity|].
      repeat split; cbn; [apply (number_pair (lit "5")); vm_compute; reflexivity|left; split; reflexivity].
    - eapply tl_left_out; [apply post_iff; vm_compute; reflexivity|reflexivity]. }
  split; [vm_compute; reflexivity|]. split; [vm_compute; reflexivity|]. split; [vm_compute; reflexivity|].
  split; [vm_compute; auto|]. split; [vm_compute; reflexivity|]. split; [vm_compute; reflexivity|].
  intros H. inversion H as [|x y l l' (_ & _ & _ & [Z|Z]) _]; discriminate.
Qed.
Print Assumptions C93_left_out_refuted.
