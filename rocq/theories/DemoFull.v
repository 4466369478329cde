(** A journal with lots, costs, notes and an include, for the examples about full journals. *)
From Coq Require Import String List NArith ZArith Bool Lia.
From Verif Require Import Base Decimal Dates Amount Balance Scanner History Pool Account Journal Xact Parser Lib.
From Verif Require Import SpecDecimal SpecAmount SpecDates SpecPool SpecAccount SpecXact SpecJournal SpecText SpecReading SpecScan SpecWhole SpecFull.
From Verif Require Import BaseFacts DecimalFacts ReadingFacts ScanFacts ScanProofs DemoJournal DemoReading DemoScan DemoWhole WholeProofs ImpliedFacts FullFacts.
Import ListNotations.
Open Scope list_scope.
Open Scope nat_scope.

(** ** Checks *)
Definition cost_check (v : wvalue) : bool :=
  match wv_cost v with
  | None => true
  | Some (_, c) =>
      negb (is_empty (wa_symbol (wv_amount v))) && negb (is_empty (wa_symbol c)) && negb (str_eqb (wa_symbol c) (wa_symbol (wv_amount v)))
      && ((wa_units (wv_amount v) =? 0) || (2 * Z.abs (worth_units v) <? (2 ^ 97 - 1) * Z.abs (wa_units (wv_amount v))))%Z
  end.
Lemma not_empty (s : str) : negb (is_empty s) = true -> s <> [].
Proof. destruct s; discriminate. Qed.
Lemma cost_check_ok v : cost_check v = true -> cost_fits v.
Proof.
  unfold cost_check, cost_fits. destruct (wv_cost v) as [[u c]|]; [|auto]. rewrite !andb_true_iff. intros [[[A B] C] D].
  split; [apply not_empty, A|]. split; [apply not_empty, B|]. split.
  - intros E. rewrite E in C. rewrite (proj2 (str_eqb_eq _ _) eq_refl) in C. discriminate.
  - intros N. apply orb_prop in D as [D|D]; [apply Z.eqb_eq in D; contradiction|apply Z.ltb_lt, D].
Qed.
Definition count_open (ps : list fposting) : nat := length (filter (fun p => match fp_value p with None => true | Some _ => false end) ps).
Lemma count_open_at ps : forall i, option_map fp_value (nth_error ps i) = Some None -> 1 <= count_open ps.
Proof.
  unfold count_open. induction ps as [|p ps IH]; intros [|i] H; try discriminate; cbn [filter].
  - cbn in H. injection H as H. rewrite H. cbn [length]. lia.
  - specialize (IH i H). destruct (fp_value p); cbn [length]; lia.
Qed.
Lemma count_open_one ps : count_open ps <= 1 -> forall i k, option_map fp_value (nth_error ps i) = Some None ->
  option_map fp_value (nth_error ps k) = Some None -> i = k.
Proof.
  induction ps as [|p ps IH]; intros C [|i] [|k] Hi Hk; try discriminate; try reflexivity.
  - exfalso. cbn in Hi, Hk. injection Hi as Hi. apply count_open_at in Hk. unfold count_open in *. cbn [filter] in C. rewrite Hi in C. cbn [length] in C. lia.
  - exfalso. cbn in Hi, Hk. injection Hk as Hk. apply count_open_at in Hi. unfold count_open in *. cbn [filter] in C. rewrite Hk in C. cbn [length] in C. lia.
  - f_equal. apply IH; [|exact Hi|exact Hk]. unfold count_open in *. cbn [filter] in C. destruct (fp_value p); cbn [length] in C; lia.
Qed.
(** All but [sym] sum to zero. *)
Definition one_open_check (sym : str) (vs : list wvalue) : bool :=
  forallb (fun v => str_eqb (worth_symbol v) sym || (sum_of (worth_symbol v) vs =? 0)%Z) vs.
Lemma one_open_ok sym vs : one_open_check sym vs = true -> ~ two_open vs.
Proof.
  unfold one_open_check. rewrite forallb_forall. intros H (x & y & N & _ & Hx & Hy).
  assert (X : forall s, sum_of s vs <> 0%Z -> s = sym).
  { intros s Hs. destruct (sum_occurs s vs Hs) as (v & Hv & E). specialize (H v Hv). rewrite E in H. apply orb_prop in H as [H|H]; [apply str_eqb_eq, H|]. apply Z.eqb_eq in H. contradiction. }
  apply N. rewrite (X x Hx), (X y Hy). reflexivity.
Qed.
Lemma forallb_imp {A} (f : A -> bool) (P : A -> Prop) l : (forall x, f x = true -> P x) -> forallb f l = true -> Forall P l.
Proof. intros H F. rewrite forallb_forall in F. apply Forall_forall. auto. Qed.
Definition priced_check (x y : str) (r : Z) (scale : nat) (w : fxact) : bool :=
  let vs := values_of (fx_posts w) in
  negb (str_eqb x y) && forallb (fun p => match fp_value p with Some _ => true | None => false end) (fx_posts w)
  && forallb (fun v => str_eqb (worth_symbol v) x || str_eqb (worth_symbol v) y) vs
  && negb (sum_of x vs =? 0)%Z && negb (sum_of y vs =? 0)%Z
  && match vs with
     | [] => false
     | v :: _ => str_eqb (wa_symbol (wv_amount v)) x || negb (str_eqb (wa_symbol (wv_amount v)) y) && str_eqb (worth_symbol v) y
     end
  && (r * Z.abs (sum_of x vs) =? Z.abs (sum_of y vs) * unit1)%Z.
Lemma neg_eqb (s t : str) : negb (str_eqb s t) = true -> s <> t.
Proof. intros H E. rewrite (proj2 (str_eqb_eq _ _) E) in H. discriminate. Qed.
Lemma priced_check_ok x y r scale w : priced_check x y r scale w = true -> priced_at w x y r.
Proof.
  unfold priced_check, priced_at. rewrite !andb_true_iff. intros [[[[[[A B] C] D] E] F] G]. split; [apply neg_eqb, A|].
  split; [eapply forallb_imp; [|exact B]; cbv beta; intros p; destruct (fp_value p); discriminate|].
  split; [eapply forallb_imp; [|exact C]; cbv beta; intros v Hv; apply orb_prop in Hv as [Hv|Hv]; apply str_eqb_eq in Hv; auto|].
  split; [intros X; rewrite X in D; discriminate|]. split; [intros X; rewrite X in E; discriminate|]. split; [|apply Z.eqb_eq, G].
  destruct (values_of (fx_posts w)) as [|v vs]; [discriminate|]. exists v, vs. split; [reflexivity|]. apply orb_prop in F as [F|F]; [left; apply str_eqb_eq, F|right].
  apply andb_prop in F as [F1 F2]. split; [apply neg_eqb, F1|apply str_eqb_eq, F2].
Qed.
Definition exact_check (x y : str) (r : Z) (scale rs : nat) (w : fxact) : bool :=
  let vs := values_of (fx_posts w) in let m := (10 ^ Z.of_nat (28 - scale))%Z in
  priced_check x y r scale w && negb (is_empty x) && negb (is_empty y)
  && ((rs <=? 28) && (r mod p10 (28 - rs) =? 0)%Z && (Z.abs r <? 2 ^ 96 * p10 (28 - rs))%Z) && (scale <=? 28)
  && forallb (fun v => worth_decimals v <=? scale) vs
  && forallb (fun v => negb (str_eqb (wa_symbol (wv_amount v)) x)
       || (match wv_cost v with None => true | Some _ => false end && (rate_cost r v * unit1 =? r * wa_units (wv_amount v))%Z && (rate_cost r v mod m =? 0)%Z)) vs
  && (sumZ (map (fun v => 2 * Z.abs (worth_units v) + if str_eqb (wa_symbol (wv_amount v)) x then Z.abs (rate_cost r v) else 0) vs) <? 2 ^ 96 * m)%Z.
Lemma exact_check_ok x y r scale rs w : exact_check x y r scale rs w = true -> exactly_priced w.
Proof.
  unfold exact_check. rewrite !andb_true_iff. intros [[[[[[[A B] C] [[D1 D2] D3]] E] F] G] H]. exists x, y, r, scale.
  split; [eapply priced_check_ok, A|]. split; [apply not_empty, B|]. split; [apply not_empty, C|]. apply Nat.leb_le in E, D1. apply Z.eqb_eq in D2. apply Z.ltb_lt in D3.
  split; [eapply multiple_representable; [exact D1| |exact D3]; apply Z.mod_divide; [pose proof (p10_pos (28 - rs)); lia|exact D2]|].
  split; [exact E|]. split; [eapply forallb_imp; [|exact F]; intros v; apply Nat.leb_le|]. split; [|apply Z.ltb_lt, H].
  eapply forallb_imp; [|exact G]. cbv beta. intros v Hv Es. apply orb_prop in Hv as [Hv|Hv]; [apply neg_eqb in Hv; contradiction|].
  rewrite !andb_true_iff in Hv. destruct Hv as [[V1 V2] V3]. split; [destruct (wv_cost v); [discriminate|reflexivity]|]. split; [apply Z.eqb_eq, V2|].
  apply Z.mod_divide; [apply Z.pow_nonzero; lia|]. apply Z.eqb_eq, V3.
Qed.
Definition xact_check (sym : str) (scale : nat) (w : fxact) : bool :=
  let vs := values_of (fx_posts w) in
  (2 <=? length (fx_posts w)) && (count_open (fx_posts w) <=? 1) && forallb cost_check vs
  && (scale <=? 28) && forallb (fun v => worth_decimals v <=? scale) vs
  && (sumZ (map (fun v => Z.abs (worth_units v)) vs) <? 2 ^ 96 * 10 ^ Z.of_nat (28 - scale))%Z
  && (forallb (fun v => str_eqb (worth_symbol v) sym) vs || (forallb (fun p => match fp_value p with Some _ => true | None => false end) (fx_posts w) && one_open_check sym vs)).
Lemma xact_check_ok sym scale w : xact_check sym scale w = true -> xact_ok w.
Proof.
  unfold xact_check, xact_ok. rewrite !andb_true_iff. intros [[[[[[A B] C] D] E] F] G].
  split; [apply Nat.leb_le, A|]. split; [apply count_open_one, Nat.leb_le, B|]. split; [eapply forallb_imp; [exact cost_check_ok|exact C]|]. split.
  - exists scale. split; [apply Nat.leb_le, D|]. split; [eapply forallb_imp; [|exact E]; intros v; apply Nat.leb_le|apply Z.ltb_lt, F].
  - apply orb_prop in G as [G|G].
    + left. exists sym. eapply forallb_imp; [|exact G]. intros v. apply str_eqb_eq.
    + apply andb_prop in G as [G1 G2]. right. left. split; [|eapply one_open_ok, G2]. eapply forallb_imp; [|exact G1]. cbn. intros p. destruct (fp_value p); discriminate.
Qed.
Definition implied_check (x y : str) (r : Z) (scale rs : nat) (w : fxact) : bool :=
  let vs := values_of (fx_posts w) in
  (2 <=? length (fx_posts w)) && (count_open (fx_posts w) <=? 1) && forallb cost_check vs
  && (sumZ (map (fun v => Z.abs (worth_units v)) vs) <? 2 ^ 96 * 10 ^ Z.of_nat (28 - scale))%Z && exact_check x y r scale rs w.
Lemma implied_check_ok x y r scale rs w : implied_check x y r scale rs w = true -> xact_ok w.
Proof.
  unfold implied_check, xact_ok. rewrite !andb_true_iff. intros [[[[A B] C] F] G].
  split; [apply Nat.leb_le, A|]. split; [apply count_open_one, Nat.leb_le, B|]. split; [eapply forallb_imp; [exact cost_check_ok|exact C]|].
  split; [|right; right; eapply exact_check_ok, G]. unfold exact_check in G. rewrite !andb_true_iff in G. destruct G as [[[[_ D] E] _] _].
  exists scale. split; [apply Nat.leb_le, D|]. split; [eapply forallb_imp; [|exact E]; intros v; apply Nat.leb_le|apply Z.ltb_lt, F].
Qed.
Definition lots_of (pl : pool) (ws : list fxact) (s : str) : list Z :=
  (match lookup s (p_ann pl) with Some a => match an_price a with Some ap => [aunits ap] | None => [] end | None => [] end)
  ++ flat_map (fun w => flat_map (fun v => if str_eqb (wa_symbol (wv_amount v)) s then match wv_lot v with Some l => [wa_units l] | None => [] end else []) (values_of (fx_posts w))) ws.
Definition lots_check (pl : pool) (ws : list fxact) : bool :=
  forallb (fun w => forallb (fun v => 
    forallb (fun u => (2 * Z.abs (u * wa_units (wv_amount v)) <? (2 ^ 97 - 1) * unit1 * unit1)%Z) (lots_of pl ws (wa_symbol (wv_amount v)))) (values_of (fx_posts w))) ws.
Lemma lots_check_ok pl ws : lots_check pl ws = true -> lots_ok pl ws.
Proof.
  unfold lots_check. rewrite forallb_forall. intros H w v u Hw Hv _ L. specialize (H w Hw). rewrite forallb_forall in H. specialize (H v Hv).
  rewrite forallb_forall in H. apply Z.ltb_lt, H. unfold lots_of. apply in_or_app. destruct L as [(a & ap & -> & -> & <-)|(w' & v' & lot & Hw' & Hv' & Es & El & <-)].
  - left. left. reflexivity.
  - right. apply in_flat_map. exists w'. split; [exact Hw'|]. apply in_flat_map. exists v'. split; [exact Hv'|]. rewrite El.
    rewrite (proj2 (str_eqb_eq _ _) Es). left. reflexivity.
Qed.

(** ** The journal *)
Definition fincl : str := lit "include old.ledger
".
Definition fpost1 : str := lit "    Assets:Stocks  10 VTI {12.34 EUR} [2023-04-05] @ 20.5 EUR
".
Definition fpost2 : str := lit "    Assets:Cash  5 IVV @@ 100 EUR
".
Definition fpost3 : str := lit "    Assets:Cash  -305 EUR
".
Definition fpost4 : str := lit "    Assets:Cash  12.34 EUR
".
Definition fpost5 : str := lit "    Expenses:Food".
Definition fpost6 : str := lit "    Assets:Cash  4 VTI
".
Definition fpost7 : str := lit "    Assets:Cash  -82 EUR
".
Definition old_text : str := concat [demo_header; fpost4; fpost5].
Definition full_lines : list str := [wcomment; fincl; demo_header; note1; fpost1; note2; note1; fpost2; fpost3; nl; demo_header; fpost6; fpost7; nl; demo_header; fpost4; fpost5].
Definition full_text : str := concat full_lines.
Definition main_file : str := lit "/w/main.ledger".
Definition old_file : str := lit "/home/old.ledger".
Definition full_fs : filesystem := fun p => if str_eqb p old_file then Some (text_source old_text) else if str_eqb p main_file then Some (text_source full_text) else None.

Definition eur_of (u : Z) (k : nat) : wamount := mkWA u k (lit "EUR").
Definition v1 : wvalue := mkWV (mkWA (10 * unit1) 0 (lit "VTI")) (Some (eur_of (1234 * (unit1 / 100)) 2)) (Some (mkDate 2023 4 5)) (Some (true, eur_of (205 * (unit1 / 10)) 1)).
Definition v2 : wvalue := mkWV (mkWA (5 * unit1) 0 (lit "IVV")) None None (Some (false, eur_of (100 * unit1) 0)).
Definition v3 : wvalue := mkWV (eur_of (-305 * unit1) 0) None None None.
Definition v4 : wvalue := mkWV (eur_of (1234 * (unit1 / 100)) 2) None None None.
Definition fa : fxact := mkFX (mkDate 2023 4 5) (Some (mkDate 2023 4 6)) (lit "The; Shop") (lit "a note") [lit "first note"]
  [mkFP (lit "Assets:Stocks") (Some v1) [lit "second note"; lit "first note"]; mkFP cash (Some v2) []; mkFP cash (Some v3) []].
Definition fb : fxact := mkFX (mkDate 2023 4 5) (Some (mkDate 2023 4 6)) (lit "The; Shop") (lit "a note") [] [mkFP cash (Some v4) []; mkFP food None []].

Definition v6 : wvalue := mkWV (mkWA (4 * unit1) 0 (lit "VTI")) None None None.
Definition v7 : wvalue := mkWV (eur_of (-82 * unit1) 0) None None None.
Definition fc : fxact := mkFX (mkDate 2023 4 5) (Some (mkDate 2023 4 6)) (lit "The; Shop") (lit "a note") [] [mkFP cash (Some v6) []; mkFP cash (Some v7) []].

Lemma fpost1_line : posting_line fpost1 (mkPT (lit "Assets:Stocks") (lit "10") (lit "VTI") (lit "12.34") (lit "EUR") (lit "2023-04-05") (lit "20.5") (lit "EUR") true).
Proof.
  apply (pl_amount (lit "    ") (lit "Assets:Stocks") [] (lit "10" ++ sp ++ lit "VTI") (lit "10") (lit "VTI")
           (sp ++ lit "{" ++ [] ++ (lit "12.34" ++ sp ++ lit "EUR") ++ [] ++ lit "}") (lit "12.34") (lit "EUR")
           (sp ++ lit "[" ++ lit "2023-04-05" ++ lit "]") (lit "2023-04-05")
           (sp ++ lit "@ " ++ [] ++ (lit "20.5" ++ sp ++ lit "EUR")) (lit "20.5") (lit "EUR") true nl); try reflexivity.
  - apply check_account_ok. reflexivity.
  - apply after_vti. reflexivity.
  - apply lp_some; try reflexivity; [apply space_one|apply after_eur; reflexivity|].
    intros H. repeat (destruct H as [H|H]; [discriminate|]). destruct H.
  - apply ld_some; [apply space_one|discriminate|reflexivity].
  - apply c_unit; [apply space_one|reflexivity|apply after_eur; reflexivity].
  - discriminate.
Qed.
Lemma fpost2_line : posting_line fpost2 (mkPT cash (lit "5") (lit "IVV") [] [] [] (lit "100") (lit "EUR") false).
Proof.
  apply (pl_amount (lit "    ") cash [] (lit "5" ++ sp ++ lit "IVV") (lit "5") (lit "IVV") [] [] [] [] []
           (sp ++ lit "@@ " ++ [] ++ (lit "100" ++ sp ++ lit "EUR")) (lit "100") (lit "EUR") false nl); try reflexivity; try exact cash_account; try exact lp_none; try exact ld_none.
  - apply wa_after; [apply quantity_check; reflexivity|reflexivity|apply symbol_check; reflexivity|discriminate].
  - apply c_total; [apply space_one|reflexivity|apply after_eur; reflexivity].
  - discriminate.
Qed.
Lemma denotes_int q u : forallb is_digit q && negb (is_empty q) && (number q <? 2 ^ 96)%Z && (number q * unit1 =? u)%Z = true -> denotes q u 0.
Proof.
  rewrite !andb_true_iff. intros [[[A B] C] D]. apply Z.eqb_eq in D.
  rewrite <- (app_nil_r q). apply (denotes_check [] false q [] [] u); auto.
  - rewrite A. rewrite app_nil_r, B, C. reflexivity.
  - rewrite app_nil_r. exact D.
Qed.
Lemma writes_f1 : writes_fposting [fpost1; note2; note1] (mkFP (lit "Assets:Stocks") (Some v1) [lit "second note"; lit "first note"]).
Proof.
  eexists _, _, _, _. split; [reflexivity|]. split; [reflexivity|]. split; [exact fpost1_line|]. split; [reflexivity|]. split.
  - split; [|split; [|split; [|]]].
    + split; [apply denotes_int; vm_compute; reflexivity|reflexivity].
    + split; [exact denotes_1234|reflexivity].
    + right. eexists. split; [exact date_0405|reflexivity].
    + split; [reflexivity|]. split; [|reflexivity]. apply (denotes_check [] false (lit "20") [point_c] (lit "5")); auto.
  - repeat constructor; [exact note2_line|exact note1_line].
Qed.
Lemma writes_f2 : writes_fposting [fpost2] (mkFP cash (Some v2) []).
Proof.
  eexists _, _, _, _. split; [reflexivity|]. split; [reflexivity|]. split; [exact fpost2_line|]. split; [reflexivity|]. split; [|constructor].
  split; [split; [apply denotes_int; vm_compute; reflexivity|reflexivity]|]. split; [reflexivity|]. split; [left; auto|].
  split; [reflexivity|]. split; [apply denotes_int; vm_compute; reflexivity|reflexivity].
Qed.
Lemma writes_plain l q s u k : posting_line l (mkPT cash q s [] [] [] [] [] false) -> (exists r, l = 32%N :: r) -> denotes q u k ->
  writes_fposting [l] (mkFP cash (Some (mkWV (mkWA u k s) None None None)) []).
Proof.
  intros Hl (r & El) D. eexists _, r, _, _. split; [reflexivity|]. split; [exact El|]. split; [exact Hl|]. split; [reflexivity|]. split; [|constructor].
  split; [split; [exact D|reflexivity]|]. split; [reflexivity|]. split; [left; auto|reflexivity].
Qed.
Lemma writes_f3 : writes_fposting [fpost3] (mkFP cash (Some v3) []).
Proof.
  eapply writes_plain; [exact (amount_line _ _ _ (after_eur (lit "-305") eq_refl))|eexists; reflexivity|].
  apply (denotes_check [minus_c] true (lit "305") [] []); auto.
Qed.
Lemma writes_f4 : writes_fposting [fpost4] (mkFP cash (Some v4) []).
Proof. eapply writes_plain; [exact (amount_line _ _ _ (after_eur (lit "12.34") eq_refl))|eexists; reflexivity|exact denotes_1234]. Qed.
Lemma writes_f6 : writes_fposting [fpost6] (mkFP cash (Some v6) []).
Proof. eapply writes_plain; [exact (amount_line _ _ _ (after_vti (lit "4") eq_refl))|eexists; reflexivity|apply denotes_int; vm_compute; reflexivity]. Qed.
Lemma writes_f7 : writes_fposting [fpost7] (mkFP cash (Some v7) []).
Proof.
  eapply writes_plain; [exact (amount_line _ _ _ (after_eur (lit "-82") eq_refl))|eexists; reflexivity|].
  apply (denotes_check [minus_c] true (lit "82") [] []); auto.
Qed.
Lemma writes_f5 : writes_fposting [fpost5] (mkFP food None []).
Proof.
  eexists _, _, _, _. split; [reflexivity|]. split; [reflexivity|]. split; [exact (food_line [] (or_introl eq_refl))|]. split; [reflexivity|]. split; [reflexivity|constructor].
Qed.
Lemma fheader_written notes ns ps : Forall2 note_line notes ns ->
  writes_fheader (demo_header :: notes) (mkFX (mkDate 2023 4 5) (Some (mkDate 2023 4 6)) (lit "The; Shop") (lit "a note") ns ps).
Proof.
  intros H. eexists _, _, _, _. split; [reflexivity|]. split; [exact demo_header_line|]. split; [exact date_0405|]. split; [right; eexists; split; [exact date_0406|reflexivity]|exact H].
Qed.
Lemma last_written d : says (lit "/home") full_fs d [demo_header; fpost4; fpost5] [fb].
Proof.
  apply (says_last _ _ d [demo_header] [[fpost4]; [fpost5]]); [apply fheader_written; constructor|]. repeat constructor; [apply writes_f4|apply writes_f5].
Qed.
Lemma full_said : says (lit "/home") full_fs 1 full_lines [fb; fa; fc; fb].
Proof.
  apply says_inert; [eexists; split; [reflexivity|]; right; right; eexists _, _; split; [reflexivity|left; reflexivity]|].
  apply (says_include _ _ 0 fincl (lit "old.ledger") old_file old_text [demo_header; fpost4; fpost5] [fb] _ [fa; fc; fb]).
  - apply (plain_include_line (lit "old.ledger")). split; [discriminate|reflexivity].
  - reflexivity.
  - apply names_resolve. reflexivity.
  - exists (lit "/home"), (lit "old.ledger"). split; [reflexivity|]. split; [discriminate|]. split; [discriminate|]. apply no_slash. reflexivity.
  - vm_compute. reflexivity.
  - apply (lines_check [demo_header; fpost4] fpost5); reflexivity.
  - apply last_written.
  - apply (says_xact _ _ 1 [demo_header; note1] [[fpost1; note2; note1]; [fpost2]; [fpost3]] nl).
    + apply fheader_written. repeat constructor. exact note1_line.
    + repeat constructor; [apply writes_f1|apply writes_f2|apply writes_f3].
    + left. reflexivity.
    + apply (says_xact _ _ 1 [demo_header] [[fpost6]; [fpost7]] nl).
      * apply fheader_written. constructor.
      * repeat constructor; [apply writes_f6|apply writes_f7].
      * left. reflexivity.
      * apply last_written.
Qed.
Lemma full_lines_of : lines_of full_text full_lines.
Proof. apply (lines_check [wcomment; fincl; demo_header; note1; fpost1; note2; note1; fpost2; fpost3; nl; demo_header; fpost6; fpost7; nl; demo_header; fpost4] fpost5); reflexivity. Qed.
Lemma fa_ok : xact_ok fa.
Proof. apply (xact_check_ok (lit "EUR") 2). vm_compute. reflexivity. Qed.
Lemma fb_ok : xact_ok fb.
Proof. apply (xact_check_ok (lit "EUR") 2). vm_compute. reflexivity. Qed.
Lemma fc_ok : xact_ok fc.
Proof. apply (implied_check_ok (lit "VTI") (lit "EUR") (205 * (unit1 / 10)) 2 1). vm_compute. reflexivity. Qed.
Lemma full_ok : Forall xact_ok [fb; fa; fc; fb].
Proof. constructor; [apply fb_ok|]. constructor; [apply fa_ok|]. constructor; [apply fc_ok|]. constructor; [apply fb_ok|constructor]. Qed.
Lemma full_lots : lots_ok (j_pool j1) [fb; fa; fc; fb].
Proof. apply lots_check_ok. vm_compute. reflexivity. Qed.
Definition full_j : journal := from_ok journal_new (parse_text 1 (lit "/home") full_fs full_text j1).
Lemma full_j_ok : parse_text 1 (lit "/home") full_fs full_text j1 = Ok full_j.
Proof. vm_compute. reflexivity. Qed.
