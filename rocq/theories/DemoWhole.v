(** A written journal for the examples about whole journals. *)
From Coq Require Import String List NArith ZArith Bool Lia.
From Verif Require Import Base Decimal Dates Amount Balance Scanner History Pool Account Journal Xact Parser Lib.
From Verif Require Import SpecDecimal SpecAmount SpecDates SpecPool SpecAccount SpecXact SpecJournal SpecText SpecReading SpecScan SpecWhole.
From Verif Require Import BaseFacts ScanFacts ScanProofs DemoJournal DemoScan WholeProofs.
Import ListNotations.
Open Scope list_scope.
Open Scope nat_scope.

Definition wcomment : str := lit "; a journal
".
Definition wpost1 : str := lit "    Assets:Cash  12.34 EUR
".
Definition wpost2 : str := lit "    Assets:Cash  25 EUR
".
Definition wpost3 : str := lit "    Expenses:Food
".
Definition wpost4 : str := lit "    Assets:Cash  -10 VTI
".
Definition wpost5 : str := lit "    Expenses:Food".
Definition whole_lines : list str := [wcomment; demo_header; wpost1; wpost2; wpost3; nl; demo_header; wpost4; wpost5].
Definition whole_text : str := concat whole_lines.
Definition food : str := lit "Expenses:Food".
Definition wa : wxact := mkWX (mkDate 2023 4 5) (Some (mkDate 2023 4 6)) (lit "The; Shop") (lit "a note")
  [mkWP cash (Some ((1234 * (unit1 / 100))%Z, 2, lit "EUR")); mkWP cash (Some ((25 * unit1)%Z, 0, lit "EUR")); mkWP food None].
Definition wb : wxact := mkWX (mkDate 2023 4 5) (Some (mkDate 2023 4 6)) (lit "The; Shop") (lit "a note")
  [mkWP cash (Some ((-10 * unit1)%Z, 0, lit "VTI")); mkWP food None].

Lemma lines_check ls l : forallb (fun l => match rev l with 10%N :: b => forallb (fun c => negb (c =? 10)%N) b | _ => false end) ls = true ->
  negb (is_empty l) && forallb (fun c => negb (c =? 10)%N) l = true -> lines_of (concat (ls ++ [l])) (ls ++ [l]).
Proof.
  intros H1 H2. apply andb_prop in H2 as [N F]. split; [reflexivity|right]. exists ls, l. split; [reflexivity|]. split; [|split].
  - rewrite forallb_forall in H1. apply Forall_forall. intros x Hx. specialize (H1 x Hx). destruct (rev x) as [|c b] eqn:E; [discriminate|].
    destruct (N.eq_dec c 10) as [->|Nc]; [|destruct c as [|p]; [discriminate|]; repeat (destruct p as [p|p|]; try discriminate); congruence].
    exists (rev b). split; [rewrite <- (rev_involutive x), E; reflexivity|]. rewrite <- in_rev. intros X. rewrite forallb_forall in H1. specialize (H1 _ X). discriminate H1.
  - destruct l; discriminate.
  - intros X. rewrite forallb_forall in F. specialize (F _ X). discriminate F.
Qed.
Lemma whole_lines_of : lines_of whole_text whole_lines.
Proof. apply (lines_check [wcomment; demo_header; wpost1; wpost2; wpost3; nl; demo_header; wpost4] wpost5); reflexivity. Qed.

Lemma amount_line t q s : written_amount t q s -> posting_line (lit "    " ++ cash ++ lit "  " ++ [] ++ t ++ [] ++ [] ++ [] ++ nl) (mkPT cash q s [] [] [] [] [] false).
Proof.
  intros W. apply (pl_amount (lit "    ") cash [] t q s [] [] [] [] [] [] [] [] false nl); try reflexivity; try exact cash_account; try exact lp_none; try exact ld_none; try exact c_none; [exact W|auto].
Qed.
Lemma food_line w1 : w1 = [] \/ w1 = nl -> posting_line (lit "    " ++ food ++ w1) (mkPT food [] [] [] [] [] [] [] false).
Proof.
  intros H. apply pl_account; try reflexivity; [destruct H as [->| ->]; reflexivity|apply check_account_ok; reflexivity| |apply find_sub_not; destruct H as [->| ->]; reflexivity].
  intros r c E. apply (f_equal (@rev char)) in E. rewrite rev_app_distr in E. cbn in E. injection E as <- _. reflexivity.
Qed.
Lemma writes1 : writes_posting wpost1 (mkWP cash (Some ((1234 * (unit1 / 100))%Z, 2, lit "EUR"))).
Proof. eexists _, _, _. split; [reflexivity|]. split; [exact (amount_line _ _ _ (after_eur (lit "12.34") eq_refl))|split; [reflexivity|exact denotes_1234]]. Qed.
Lemma writes2 : writes_posting wpost2 (mkWP cash (Some ((25 * unit1)%Z, 0, lit "EUR"))).
Proof. eexists _, _, _. split; [reflexivity|]. split; [exact (amount_line _ _ _ (after_eur (lit "25") eq_refl))|split; [reflexivity|exact denotes_25]]. Qed.
Lemma writes4 : writes_posting wpost4 (mkWP cash (Some ((-10 * unit1)%Z, 0, lit "VTI"))).
Proof. eexists _, _, _. split; [reflexivity|]. split; [exact (amount_line _ _ _ (after_vti (lit "-10") eq_refl))|split; [reflexivity|exact denotes_m10]]. Qed.
Lemma writes3 : writes_posting wpost3 (mkWP food None).
Proof. eexists _, _, _. split; [reflexivity|]. split; [exact (food_line nl (or_intror eq_refl))|split; reflexivity]. Qed.
Lemma writes5 : writes_posting wpost5 (mkWP food None).
Proof. eexists _, _, _. split; [reflexivity|]. split; [exact (food_line [] (or_introl eq_refl))|split; reflexivity]. Qed.
Lemma writes_demo_header ps : writes_header demo_header (mkWX (mkDate 2023 4 5) (Some (mkDate 2023 4 6)) (lit "The; Shop") (lit "a note") ps).
Proof. eexists _, _. split; [exact demo_header_line|]. split; [exact date_0405|right]. eexists. split; [exact date_0406|reflexivity]. Qed.
Lemma whole_written : writes_journal whole_lines [wa; wb].
Proof.
  apply wj_inert; [eexists; split; [reflexivity|]; right; right; eexists _, _; split; [reflexivity|left; reflexivity]|]. apply (wj_xact demo_header [wpost1; wpost2; wpost3] nl).
  - apply writes_demo_header.
  - repeat constructor; [apply writes1|apply writes2|apply writes3].
  - left. reflexivity.
  - apply (wj_last demo_header [wpost4; wpost5]); [apply writes_demo_header|]. repeat constructor; [apply writes4|apply writes5].
Qed.
(** A check for well-formedness. *)
Definition count_none (ws : list wposting) : nat := length (filter (fun p => match wp_amount p with None => true | Some _ => false end) ws).
Lemma count_none_at ws : forall i, option_map wp_amount (nth_error ws i) = Some None -> 1 <= count_none ws.
Proof.
  unfold count_none. induction ws as [|wp ws IH]; intros [|i] H; try discriminate; cbn [filter].
  - cbn in H. injection H as H. rewrite H. cbn [length]. lia.
  - specialize (IH i H). destruct (wp_amount wp); cbn [length]; lia.
Qed.
Lemma count_none_one ws : count_none ws <= 1 -> forall i k, option_map wp_amount (nth_error ws i) = Some None ->
  option_map wp_amount (nth_error ws k) = Some None -> i = k.
Proof.
  induction ws as [|wp ws IH]; intros C [|i] [|k] Hi Hk; try discriminate; try reflexivity.
  - exfalso. cbn in Hi, Hk. injection Hi as Hi. apply count_none_at in Hk. unfold count_none in *. cbn [filter] in C. rewrite Hi in C. cbn [length] in C. lia.
  - exfalso. cbn in Hi, Hk. injection Hk as Hk. apply count_none_at in Hi. unfold count_none in *. cbn [filter] in C. rewrite Hk in C. cbn [length] in C. lia.
  - f_equal. apply IH; [|exact Hi|exact Hk]. unfold count_none in *. cbn [filter] in C. destruct (wp_amount wp); cbn [length] in C; lia.
Qed.
Definition well_formed_check (sym : str) (scale : nat) (w : wxact) : bool :=
  (2 <=? length (wx_posts w)) && (count_none (wx_posts w) <=? 1)
  && forallb (fun p => match wp_amount p with Some (_, k, s) => str_eqb s sym && (k <=? scale) | None => true end) (wx_posts w)
  && (scale <=? 28) && (sumZ (map Z.abs (written_units w)) <? 2 ^ 96 * 10 ^ Z.of_nat (28 - scale))%Z.
Lemma well_formed_ok sym scale w : well_formed_check sym scale w = true -> well_formed w.
Proof.
  unfold well_formed_check. rewrite !andb_true_iff. intros [[[[A B] C] D] E]. apply Nat.leb_le in A, B, D. apply Z.ltb_lt in E. rewrite forallb_forall in C.
  split; [exact A|]. split; [apply count_none_one, B|]. split.
  - exists sym. apply Forall_forall. intros p Hp u k s Ep. specialize (C p Hp). rewrite Ep in C. apply andb_prop in C as [C _]. apply str_eqb_eq, C.
  - exists scale. split; [exact D|]. split; [|exact E]. apply Forall_forall. intros p Hp u k s Ep. specialize (C p Hp). rewrite Ep in C.
    apply andb_prop in C as [_ C]. apply Nat.leb_le, C.
Qed.
Lemma wa_well_formed : well_formed wa.
Proof. apply (well_formed_ok (lit "EUR") 2). vm_compute. reflexivity. Qed.
Lemma wb_well_formed : well_formed wb.
Proof. apply (well_formed_ok (lit "VTI") 0). vm_compute. reflexivity. Qed.
Lemma whole_well_formed : Forall well_formed [wa; wb].
Proof. constructor; [apply wa_well_formed|]. constructor; [apply wb_well_formed|constructor]. Qed.

Definition whole_j : journal := from_ok journal_new (parse_text 1 [] (fun _ => None) whole_text j1).
Lemma whole_j_ok : parse_text 1 [] (fun _ => None) whole_text j1 = Ok whole_j.
Proof. vm_compute. reflexivity. Qed.
Lemma parse_ok_inv {A} (a : A) o b : o = Ok a -> o = Ok b -> a = b.
Proof. congruence. Qed.

(** An amount left out is not minus the sum when the sum is negative. *)
Definition third (j : journal) : option Z :=
  match nth_error (j_xacts j) 3 with Some x => match nth_error (x_posts x) 1 with Some p => option_map aunits (po_amount p) | None => None end | None => None end.
Lemma whole_third : third whole_j = Some (-10 * unit1)%Z.
Proof. vm_compute. reflexivity. Qed.
Lemma length_j1 : length (j_xacts j1) = 2.
Proof. vm_compute. reflexivity. Qed.
Lemma elided_sum_refuted :
  ~ (forall depth cwd fs t lines ws j j', lines_of t lines -> writes_journal lines ws -> Forall well_formed ws -> reachable_journal j ->
       parse_text depth cwd fs t j = Ok j' ->
       forall i n w x wp p, nth_error ws i = Some w -> nth_error (j_xacts j') (length (j_xacts j) + i) = Some x ->
         nth_error (wx_posts w) n = Some wp -> nth_error (x_posts x) n = Some p -> wp_amount wp = None ->
         exists a, po_amount p = Some a /\ aunits a = (- sumZ (written_units w))%Z).
Proof.
  intros H. specialize (H 1 [] (fun _ => None) whole_text whole_lines [wa; wb] j1 whole_j whole_lines_of whole_written whole_well_formed j1_reachable whole_j_ok 1 1 wb).
  rewrite length_j1 in H. pose proof whole_third as T. unfold third in T. change (2 + 1) with 3 in H.
  destruct (nth_error (j_xacts whole_j) 3) as [x|]; [|discriminate T]. specialize (H x (mkWP food None)).
  destruct (nth_error (x_posts x) 1) as [p|]; [|discriminate T]. destruct (H p eq_refl eq_refl eq_refl eq_refl eq_refl) as (a & E & U).
  rewrite E in T. cbn [option_map] in T. assert (X : (-10 * unit1 = - sumZ (written_units wb))%Z) by congruence. vm_compute in X. discriminate X.
Qed.
