(** Scanning gives back what was written. *)
From Coq Require Import String List NArith ZArith Bool Lia ZifyBool ZifyNat ZifyN.
From Verif Require Import Base Scanner SpecText SpecReading SpecScan BaseFacts ScanFacts.
Import ListNotations.
Open Scope nat_scope.

(** ** Finding substrings *)
Lemma starts_with_iff pat s : starts_with pat s = true <-> exists v, s = pat ++ v.
Proof.
  revert s; induction pat as [|x pat IH]; intros s; cbn [starts_with]; [split; [exists s; reflexivity|reflexivity]|].
  destruct s as [|y s]; [split; [discriminate|intros (v & E); discriminate]|]. rewrite andb_true_iff, N.eqb_eq, IH. split.
  - intros (-> & v & ->). exists v. reflexivity.
  - intros (v & E). injection E as -> ->. split; [reflexivity|]. exists v. reflexivity.
Qed.
Lemma find_sub_eq pat s : find_sub pat s = if starts_with pat s then Some 0 else match s with [] => None | _ :: s' => option_map S (find_sub pat s') end.
Proof. destruct s; reflexivity. Qed.
Lemma find_sub_none pat s : ~ contains pat s -> find_sub pat s = None.
Proof.
  induction s as [|c s IH]; intros N; rewrite find_sub_eq.
  - destruct (starts_with pat []) eqn:E; [|reflexivity]. apply starts_with_iff in E as (v & E). elim N. exists [], v. exact E.
  - destruct (starts_with pat (c :: s)) eqn:E.
    + apply starts_with_iff in E as (v & E). elim N. exists [], v. exact E.
    + rewrite IH; [reflexivity|]. intros (u & v & ->). apply N. exists (c :: u), v. reflexivity.
Qed.
Lemma find_sub_at pat a X : pat <> [] -> ~ contains pat (a ++ removelast pat) -> find_sub pat (a ++ pat ++ X) = Some (length a).
Proof.
  intros Np. induction a as [|c a IH]; intros N; rewrite find_sub_eq.
  - assert (starts_with pat ([] ++ pat ++ X) = true) as ->; [|reflexivity]. apply starts_with_iff. exists X. reflexivity.
  - destruct (starts_with pat ((c :: a) ++ pat ++ X)) eqn:E.
    + exfalso. apply starts_with_iff in E as (v & E). apply N.
      destruct (exists_last Np) as (p & l & Ep). set (n := length pat).
      assert (Fp : firstn n ((c :: a) ++ pat ++ X) = pat) by (rewrite E; apply firstn_app_exact).
      assert (R : removelast pat = p) by (rewrite Ep; apply removelast_last).
      assert (L : n <= length ((c :: a) ++ removelast pat)).
      { subst n. rewrite R, Ep, !app_length. cbn. lia. }
      exists [], (skipn n ((c :: a) ++ removelast pat)). cbn [app]. rewrite <- (firstn_skipn n (c :: a ++ removelast pat)) at 1.
      f_equal. rewrite <- Fp at 2. rewrite R in *. rewrite Ep.
      replace ((c :: a) ++ (p ++ [l]) ++ X) with (((c :: a) ++ p) ++ [l] ++ X) by (rewrite <- !app_assoc; reflexivity).
      rewrite (firstn_app n ((c :: a) ++ p)). replace (n - length ((c :: a) ++ p)) with 0 by lia. cbn [firstn]. rewrite app_nil_r. reflexivity.
    + cbn [app]. rewrite IH; [reflexivity|]. intros (u & v & H). apply N. exists (c :: u), v. cbn. f_equal. exact H.
Qed.
Lemma find_sub_not pat s : find_sub pat s = None -> ~ contains pat s.
Proof.
  intros H (u & v & ->). revert H. induction u as [|c u IH]; rewrite find_sub_eq.
  - assert (starts_with pat ([] ++ pat ++ v) = true) as -> by (apply starts_with_iff; exists v; reflexivity). discriminate.
  - destruct (starts_with pat ((c :: u) ++ pat ++ v)); [discriminate|]. cbn [app]. destruct (find_sub pat (u ++ pat ++ v)); [discriminate|]. intros _. apply IH. reflexivity.
Qed.
Lemma contains_snoc pat x c s : last pat 0%N <> c -> pat <> [] -> x = s ++ [c] -> contains pat x -> contains pat s.
Proof.
  intros L Np -> (u & v & E). destruct v as [|d v] using rev_ind.
  - exfalso. apply L. rewrite app_nil_r in E. destruct (exists_last Np) as (p & l & ->). rewrite last_last.
    rewrite app_assoc in E. apply app_inj_tail in E as [_ ->]. reflexivity.
  - exists u, v. rewrite !app_assoc in E. apply app_inj_tail in E as [-> _]. rewrite app_assoc. reflexivity.
Qed.

(** ** Annotations and cost *)
Lemma scan_until_app a sep r : ~ In sep a -> scan_until (a ++ sep :: r) sep = Ok (a, sep :: r).
Proof.
  intros N. unfold scan_until. rewrite (find_char_here (fun c => (c =? sep)%N) a sep r).
  - rewrite firstn_app_exact, skipn_app_exact. reflexivity.
  - apply forallb_forall. intros x Hx. apply negb_true_iff, N.eqb_neq. intros ->. auto.
  - apply N.eqb_refl.
Qed.
Lemma spaces_no c w : spaces w -> is_ws c = false -> ~ In c w.
Proof. intros S H I. unfold spaces in S. rewrite forallb_forall in S. rewrite (S c I) in H. discriminate. Qed.
Lemma trim_space_length ws s : space ws -> length (trim_start (ws ++ s)) <= length s.
Proof.
  intros [_ S]. rewrite trim_start_app by exact S. unfold trim_start. clear. induction s as [|c s IH]; cbn; [lia|]. destruct (is_ws c); cbn; lia.
Qed.
Lemma trim_length s : length (trim_start s) <= length s.
Proof. unfold trim_start. induction s as [|c s IH]; cbn; [lia|]. destruct (is_ws c); cbn; lia. Qed.
Lemma trim_char ws c s : spaces ws -> is_ws c = false -> trim_start (ws ++ c :: s) = c :: s.
Proof. intros S H. rewrite trim_start_app by exact S. apply trim_start_id. exact H. Qed.

Lemma scan_until_lot w1 t w2 rest : spaces w1 -> spaces w2 -> ~ In 125%N t ->
  scan_until (w1 ++ t ++ w2 ++ 125%N :: rest) 125 = Ok (w1 ++ t ++ w2, 125%N :: rest).
Proof.
  intros S1 S2 N. replace (w1 ++ t ++ w2 ++ 125%N :: rest) with ((w1 ++ t ++ w2) ++ 125%N :: rest) by (rewrite <- !app_assoc; reflexivity).
  apply scan_until_app. rewrite !in_app_iff. intros [H|[H|H]]; [|auto|]; revert H; apply spaces_no; auto.
Qed.
Lemma follows_spaces s w : spaces w -> follows s w.
Proof.
  intros S. split; [destruct w as [|c w]; cbn; [trivial|]; unfold spaces in S; cbn in S; apply andb_prop in S as [S _]; exact S|].
  intros _. rewrite trim_start_ws by exact S. exact I.
Qed.
Lemma loop_lot lot lq ls d rest : lot_price lot lq ls -> forall f, length (trim_start (lot ++ rest)) <= f ->
  annotation_loop f [] [] d (trim_start (lot ++ rest)) = (annotation_loop f [] [] d (trim_start rest)) /\ lot = []
  \/ exists f', length (trim_start rest) <= f' /\ annotation_loop f [] [] d (trim_start (lot ++ rest)) = annotation_loop f' lq ls d (trim_start rest).
Proof.
  intros H f L. destruct H as [|ws w1 t w2 q s Sp S1 S2 W N]; [left; auto|right].
  assert (E : trim_start ((ws ++ lit "{" ++ w1 ++ t ++ w2 ++ lit "}") ++ rest) = 123%N :: w1 ++ t ++ w2 ++ 125%N :: rest).
  { rewrite <- !app_assoc. change (lit "{") with [123%N]. change (lit "}") with [125%N]. cbn [app]. apply trim_char; [apply Sp|reflexivity]. }
  rewrite E in *. cbn [length] in L. destruct f as [|f]; [lia|]. exists f. split.
  { pose proof (trim_length rest). rewrite !app_length in L. cbn [length] in L. lia. }
  cbn [annotation_loop]. change ((123 =? 123)%N) with true. cbn [is_empty negb]. cbv iota.
  rewrite scan_until_lot by assumption. cbn [bind]. rewrite (scan_amount_written t q s W w1 w2 S1 (follows_spaces s w2 S2)). cbn [bind skipn].
  reflexivity.
Qed.
Lemma loop_date date dt q s rest : lot_date date dt -> forall f, length (trim_start (date ++ rest)) <= f ->
  exists f', length (trim_start rest) <= f' /\ annotation_loop f q s [] (trim_start (date ++ rest)) = annotation_loop f' q s dt (trim_start rest).
Proof.
  intros H f L. destruct H as [|ws d Sp Nd F]; [exists f; auto|].
  assert (E : trim_start ((ws ++ lit "[" ++ d ++ lit "]") ++ rest) = 91%N :: d ++ 93%N :: rest).
  { rewrite <- !app_assoc. change (lit "[") with [91%N]. change (lit "]") with [93%N]. cbn [app]. apply trim_char; [apply Sp|reflexivity]. }
  rewrite E in *. cbn [length] in L. destruct f as [|f]; [lia|]. exists f. split.
  { pose proof (trim_length rest). rewrite app_length in L. cbn [length] in L. lia. }
  cbn [annotation_loop]. change ((91 =? 123)%N) with false. change ((91 =? 91)%N) with true. cbn [is_empty negb]. cbv iota.
  rewrite scan_until_app.
  - cbn [bind]. unfold scan_date.
    assert (find_char (fun c => (c =? 61)%N || (c =? 32)%N) d = None) as ->; [|reflexivity].
    apply find_char_none. rewrite forallb_forall in *. intros x Hx. specialize (F x Hx). unfold one_of in F. cbn in F. lia.
  - intros I. rewrite forallb_forall in F. specialize (F _ I). discriminate.
Qed.
Lemma drop_bytes_0 s : drop_bytes 0 s = Ok s.
Proof. destruct s; reflexivity. Qed.
Lemma drop_bytes_2 a b s : utf8_len a = 1 -> utf8_len b = 1 -> drop_bytes 2 (a :: b :: s) = Ok s.
Proof. intros A B. cbn [drop_bytes]. rewrite A. cbn. rewrite B. cbn. apply drop_bytes_0. Qed.
Lemma drop_bytes_3 a b c s : utf8_len a = 1 -> utf8_len b = 1 -> utf8_len c = 1 -> drop_bytes 3 (a :: b :: c :: s) = Ok s.
Proof. intros A B C. cbn [drop_bytes]. rewrite A. cbn. rewrite B. cbn. rewrite C. cbn. apply drop_bytes_0. Qed.
Lemma scan_amount_trim x : scan_amount (trim_start x) = scan_amount x.
Proof. unfold scan_amount. rewrite trim_idem. reflexivity. Qed.
Definition cost_start (s : str) : Prop := match s with [] => True | c :: _ => c = 64%N end.
Lemma cost_trim c cq cs u w2 : cost c cq cs u -> spaces w2 -> cost_start (trim_start (c ++ w2)).
Proof.
  intros H S. destruct H as [|ws w1 t q s Sp S1 W|ws w1 t q s Sp S1 W].
  - cbn [app]. rewrite trim_start_ws by exact S. exact I.
  - rewrite <- !app_assoc. change (lit "@ ") with [64%N; 32%N]. cbn [app]. rewrite trim_char by (try apply Sp; reflexivity). reflexivity.
  - rewrite <- !app_assoc. change (lit "@@ ") with [64%N; 64%N; 32%N]. cbn [app]. rewrite trim_char by (try apply Sp; reflexivity). reflexivity.
Qed.
Lemma loop_end f q s d input : cost_start input -> annotation_loop f q s d input = Ok ((q, s, d), input).
Proof. destruct input as [|c r]; cbn; [destruct f; reflexivity|]. intros ->. destruct f; reflexivity. Qed.
Lemma scan_annotations_written lot lq ls date d rest : lot_price lot lq ls -> lot_date date d -> cost_start (trim_start rest) ->
  scan_annotations (trim_start (lot ++ date ++ rest)) = Ok ((lq, ls, d), trim_start rest).
Proof.
  intros Hl Hd Hc. unfold scan_annotations. rewrite trim_idem. set (f := length _).
  destruct (loop_lot lot lq ls [] (date ++ rest) Hl f (le_n _)) as [[E ->]|(f' & L & E)]; rewrite E.
  - inversion Hl; subst.
    + destruct (loop_date date d [] [] rest Hd f (le_n _)) as (f' & _ & ->). apply loop_end, Hc.
    + destruct ws; [destruct (proj1 H0 eq_refl)|discriminate].
  - destruct (loop_date date d lq ls rest Hd f' L) as (f2 & _ & ->). apply loop_end, Hc.
Qed.
Lemma scan_cost_written c cq cs u w2 : cost c cq cs u -> spaces w2 ->
  match trim_start (c ++ w2) with [] => Ok ([], [], false) | _ :: _ => scan_cost (trim_start (c ++ w2)) end = Ok (cq, cs, u).
Proof.
  intros H S. destruct H as [|ws w1 t q s Sp S1 W|ws w1 t q s Sp S1 W].
  - cbn [app]. rewrite trim_start_ws by exact S. reflexivity.
  - rewrite <- !app_assoc. change (lit "@ ") with [64%N; 32%N]. cbn [app]. rewrite trim_char by (try apply Sp; reflexivity).
    unfold scan_cost. rewrite drop_bytes_2 by reflexivity. cbn [bind].
    rewrite scan_amount_trim, (scan_amount_written t q s W w1 w2 S1 (follows_spaces s w2 S)). reflexivity.
  - rewrite <- !app_assoc. change (lit "@@ ") with [64%N; 64%N; 32%N]. cbn [app]. rewrite trim_char by (try apply Sp; reflexivity).
    unfold scan_cost. rewrite drop_bytes_3 by reflexivity. cbn [bind].
    rewrite scan_amount_trim, (scan_amount_written t q s W w1 w2 S1 (follows_spaces s w2 S)). reflexivity.
Qed.

(** ** Postings *)
Lemma scan_post_eq input : scan_post input =
  match trim_start input with
  | [] => Panic PExplicit
  | c :: r =>
      if (c =? 59)%N then Panic PExplicit
      else match find_sub [32%N; 32%N] (c :: r) with
           | None => Ok (mkPT (trim_end (c :: r)) [] [] [] [] [] [] [] false)
           | Some i =>
               let* (q, s, input) := scan_amount (skipn (i + 2) (c :: r)) in
               let* ((pq, ps, pd), input) := scan_annotations input in
               let* (cq, cs, pu) := match input with [] => Ok ([], [], false) | _ => scan_cost input end in
               Ok (mkPT (firstn i (c :: r)) q s pq ps pd cq cs pu)
           end
  end.
Proof.
  unfold scan_post. destruct (trim_start input) as [|c r]; [reflexivity|]. destruct c as [|p]; [reflexivity|].
  do 6 (destruct p as [p|p|]; try reflexivity).
Qed.
Lemma heads_pieces lot lq ls date d c cq cs u w2 : lot_price lot lq ls -> lot_date date d -> cost c cq cs u -> spaces w2 ->
  heads is_ws (lot ++ date ++ c ++ w2).
Proof.
  assert (K : forall ws r, space ws -> heads is_ws (ws ++ r)).
  { intros [|x ws] r [N S]; [congruence|]. cbn. unfold spaces in S. cbn in S. apply andb_prop in S as [S _]. exact S. }
  intros Hl Hd Hc S. destruct Hl; [|rewrite <- !app_assoc; apply K; assumption]. cbn [app].
  destruct Hd; [|rewrite <- !app_assoc; apply K; assumption]. cbn [app].
  destruct Hc; [|rewrite <- !app_assoc; apply K; assumption|rewrite <- !app_assoc; apply K; assumption]. cbn [app].
  destruct w2 as [|x w2]; [exact I|]. unfold spaces in S. cbn in *. apply andb_prop in S as [S _]. exact S.
Qed.
Lemma skipn_plus (a b : str) n : length b = n -> forall r, skipn (length a + n) (a ++ b ++ r) = r.
Proof. intros <- r. rewrite <- app_length, app_assoc. apply skipn_app_exact. Qed.
Lemma posting_scanned l tok : posting_line l tok -> scan_post l = Ok tok.
Proof.
  intros H. rewrite scan_post_eq. destruct H as [w0 a w1 S0 S1 [(c & r & -> & Hc & Nc) _] He Nd|
     w0 a w1 t q s lot lq ls date d c cq cs unit w2 S0 S1 S2 [(c0 & r & -> & Hc & Nc) Nd] W Hl Hd Hct Hb].
  - rewrite trim_start_app by exact S0. rewrite trim_start_id by exact Hc. cbn [app]. apply N.eqb_neq in Nc. rewrite Nc.
    rewrite find_sub_none by exact Nd. change (c :: r ++ w1) with ((c :: r) ++ w1). rewrite trim_end_app by exact S1.
    rewrite trim_end_id; [reflexivity|]. destruct (exists_last (l := c :: r) ltac:(discriminate)) as (p & x & E). rewrite E. rewrite ends_ws_app. eapply He, E.
  - rewrite trim_start_app by exact S0. set (R := lot ++ date ++ c ++ w2).
    rewrite trim_start_id by exact Hc. cbn [app]. apply N.eqb_neq in Nc. rewrite Nc.
    change (c0 :: r ++ lit "  " ++ w1 ++ t ++ R) with ((c0 :: r) ++ lit "  " ++ w1 ++ t ++ R).
    change [32%N; 32%N] with (lit "  "). rewrite find_sub_at; [|discriminate|exact Nd].
    rewrite firstn_app_exact.
    rewrite (skipn_plus (c0 :: r) (lit "  ") 2) by reflexivity.
    rewrite (scan_amount_written t q s W w1 R S1).
    + cbn [bind]. unfold R. rewrite (scan_annotations_written lot lq ls date d (c ++ w2) Hl Hd (cost_trim _ _ _ _ _ Hct S2)). cbn [bind].
      rewrite (scan_cost_written c cq cs unit w2 Hct S2). reflexivity.
    + split; [eapply heads_pieces; eassumption|]. intros Es. destruct (Hb Es) as [-> ->]. subst R. cbn [app].
      pose proof (cost_trim _ _ _ _ _ Hct S2) as K. destruct (trim_start (c ++ w2)); [exact I|]. cbn in K |- *. subst n. reflexivity.
Qed.

(** ** Headers *)
Lemma trimmed_pad w1 s w2 : spaces w1 -> spaces w2 -> trimmed s -> trim (w1 ++ s ++ w2) = s.
Proof.
  intros S1 S2 (c & r & d & q & E1 & E2 & Hc & Hd). apply trim_pad; [exact S1|exact S2| |].
  - rewrite E1. exact Hc.
  - unfold ends_ws. rewrite E2, rev_app_distr. exact Hd.
Qed.
Lemma scan_date_written date rest : date_text date -> heads (fun c => (c =? 61)%N || (c =? 32)%N) rest -> scan_date (date ++ rest) = (date, rest).
Proof.
  intros [_ F] H. unfold scan_date. apply span_find; [|exact H]. rewrite <- F. apply forallb_ext. intros c. unfold one_of. cbn. lia.
Qed.
Lemma tokenize_aux_written aux_t aux ws rest : aux_text aux_t aux -> tokenize_aux_date (aux_t ++ sp ++ ws ++ rest) = (aux, sp ++ ws ++ rest).
Proof.
  intros H. destruct H as [|d [Nd F]]; [reflexivity|]. change (lit "=") with [61%N]. cbn [app tokenize_aux_date].
  assert (E : drop_while (fun c => (c =? 61)%N) (61%N :: d ++ sp ++ ws ++ rest) = d ++ sp ++ ws ++ rest).
  { cbn [drop_while]. change ((61 =? 61)%N) with true. cbv iota. destruct d as [|c d]; [congruence|]. cbn in F |- *. unfold one_of in F. cbn in F.
    assert ((c =? 61)%N = false) as -> by lia. reflexivity. }
  rewrite E. apply (span_find (fun c => (c =? 32)%N)); [|reflexivity].
  apply forallb_forall. intros x Hx. rewrite forallb_forall in F. specialize (F x Hx). unfold one_of in F. cbn in F. lia.
Qed.
Lemma header_scanned l date aux payee note : header_line l date aux payee note -> tokenize_xact_header l = Ok (date, aux, payee, note).
Proof.
  intros H. destruct H as [date aux_t aux ws payee tail note Hd Ha Ws Tp Ht N1 N2]. unfold tokenize_xact_header.
  assert (E1 : scan_date (date ++ aux_t ++ sp ++ ws ++ payee ++ tail) = (date, aux_t ++ sp ++ ws ++ payee ++ tail)).
  { apply scan_date_written; [exact Hd|]. destruct Ha; reflexivity. }
  assert (Ne : date ++ aux_t ++ sp ++ ws ++ payee ++ tail <> []) by (destruct Hd as [Nd _]; destruct date; [congruence|discriminate]).
  destruct (date ++ aux_t ++ sp ++ ws ++ payee ++ tail) as [|x xs] eqn:E; [congruence|]. rewrite E1.
  rewrite (tokenize_aux_written aux_t aux ws (payee ++ tail) Ha). unfold tokenize_payee. change [32%N; 32%N; 59%N] with (lit "  ;").
  assert (Sw : spaces (sp ++ ws)) by exact Ws.
  destruct Ht as [w Sp|w1 n w2 S1 S2 Tn].
  - rewrite find_sub_none by (apply N2; reflexivity). 
    replace (sp ++ ws ++ payee ++ w) with ((sp ++ ws) ++ payee ++ w) by (rewrite <- !app_assoc; reflexivity).
    rewrite trimmed_pad by assumption. reflexivity.
  - replace (sp ++ ws ++ payee ++ lit "  ;" ++ w1 ++ n ++ w2) with ((sp ++ ws ++ payee) ++ lit "  ;" ++ w1 ++ n ++ w2) by (rewrite <- !app_assoc; reflexivity).
    rewrite find_sub_at; [|discriminate|].
    + rewrite firstn_app_exact, skipn_app_exact.
      replace (sp ++ ws ++ payee) with ((sp ++ ws) ++ payee ++ []) by (rewrite app_nil_r, <- !app_assoc; reflexivity).
      rewrite trimmed_pad by (try assumption; reflexivity). cbn [tokenize_note app].
      change (lit "  ;" ++ w1 ++ n ++ w2) with (32%N :: 32%N :: 59%N :: w1 ++ n ++ w2). cbn [tokenize_note].
      rewrite drop_bytes_3 by reflexivity. cbn [bind].
      rewrite trimmed_pad by assumption. reflexivity.
    + intros K. apply N1. change (removelast (lit "  ;")) with [32%N; 32%N] in K.
      apply (contains_snoc (lit "  ;") ((sp ++ ws ++ payee) ++ [32%N]) 32%N); [discriminate|discriminate|reflexivity|].
      apply (contains_snoc (lit "  ;") ((sp ++ ws ++ payee) ++ [32%N; 32%N]) 32%N); [discriminate|discriminate| |exact K].
      rewrite <- !app_assoc. reflexivity.
Qed.

(** ** Costs without a space *)
Lemma cost_first_character_lost c r : utf8_len c = 1 -> c <> 64%N -> scan_cost (lit "@" ++ c :: r) = scan_cost (lit "@ " ++ r).
Proof.
  intros U N. change (lit "@" ++ c :: r) with (64%N :: c :: r). change (lit "@ " ++ r) with (64%N :: 32%N :: r).
  unfold scan_cost. rewrite !drop_bytes_2 by (try exact U; reflexivity).
  assert (K : match c with 64%N => (3, false) | _ => (2, true) end = (2, true)).
  { destruct c as [|p]; [reflexivity|]. do 7 (destruct p as [p|p|]; try reflexivity). congruence. }
  destruct c as [|p]; [rewrite drop_bytes_2 by (try exact U; reflexivity); reflexivity|].
  do 7 (destruct p as [p|p|]; try (rewrite drop_bytes_2 by (try exact U; reflexivity); reflexivity)). congruence.
Qed.
Lemma total_first_character_lost c r : utf8_len c = 1 -> scan_cost (lit "@@" ++ c :: r) = scan_cost (lit "@@ " ++ r).
Proof.
  intros U. change (lit "@@" ++ c :: r) with (64%N :: 64%N :: c :: r). change (lit "@@ " ++ r) with (64%N :: 64%N :: 32%N :: r).
  unfold scan_cost. rewrite !drop_bytes_3 by (try exact U; reflexivity). reflexivity.
Qed.
Lemma cost_any_spaces t q s ws w2 : written_amount t q s -> spaces ws -> spaces w2 ->
  scan_cost (lit "@ " ++ ws ++ t ++ w2) = Ok (q, s, true) /\ scan_cost (lit "@@ " ++ ws ++ t ++ w2) = Ok (q, s, false).
Proof.
  intros W S1 S2. change (lit "@ " ++ ws ++ t ++ w2) with (64%N :: 32%N :: ws ++ t ++ w2).
  change (lit "@@ " ++ ws ++ t ++ w2) with (64%N :: 64%N :: 32%N :: ws ++ t ++ w2). unfold scan_cost.
  rewrite drop_bytes_2, drop_bytes_3 by reflexivity. cbn [bind].
  rewrite scan_amount_trim, (scan_amount_written t q s W ws w2 S1 (follows_spaces s w2 S2)). auto.
Qed.
