(** Reports with pointers and reports with names. *)
From Coq Require Import String List NArith ZArith Bool Lia.
From Verif Require Import Base BaseFacts Decimal Dates Amount Balance Scanner History Pool Account Journal Xact Parser Report Options Lib Memory Heap.
From Verif Require Import SpecHeap AccountFacts MemoryFacts ReportFacts HeapFacts HeapTree HeapRead SpecAccount SpecJournal JournalFacts.
Import ListNotations.
Open Scope nat_scope.
Notation v_bal := (map v_amount).

Lemma insert_forall2 {A B} (R : A -> B -> Prop) x y l l' : fst x = fst y -> R (snd x) (snd y) ->
  Forall2 (fun (u : str * A) (v : str * B) => fst u = fst v /\ R (snd u) (snd v)) l l' ->
  Forall2 (fun u v => fst u = fst v /\ R (snd u) (snd v)) (insert_key x l) (insert_key y l').
Proof.
  intros E HR F. induction F as [|u v l l' [Eu Ru] F IH]; cbn [insert_key]; [constructor; [auto|constructor]|].
  rewrite E, Eu. destruct (str_leb _ _); [constructor; [auto|constructor; auto]|constructor; [auto|exact IH]].
Qed.
Lemma sort_forall2 {A B} (R : A -> B -> Prop) l l' :
  Forall2 (fun (u : str * A) (v : str * B) => fst u = fst v /\ R (snd u) (snd v)) l l' ->
  Forall2 (fun u v => fst u = fst v /\ R (snd u) (snd v)) (sort_key l) (sort_key l').
Proof. intros F. induction F as [|u v l l' [Eu Ru] F IH]; cbn [sort_key]; [constructor|]. apply insert_forall2; assumption. Qed.
Lemma fold_agree2 {A B S T} (R : A -> B -> Prop) (fs : S -> T) (P : S -> Prop) step step' l l' : Forall2 R l l' -> forall s,
  (forall s a b, R a b -> P s -> agree fs P (step s a) (step' (fs s) b)) -> P s -> agree fs P (fold_outcome step l s) (fold_outcome step' l' (fs s)).
Proof.
  intros F. induction F as [|a b l l' HR F IH]; intros s H HP; cbn [fold_outcome]; [apply agree_ok; auto|].
  eapply agree_bind; [apply H; assumption|]. intros s' _ HP'. apply IH; assumption.
Qed.

(** ** The accounts report *)
Lemma kids_forall2 {A B} (R : A -> B -> Prop) (f : hacct -> A) (g : account -> B) cs : Forall (fun c => R (f c) (g (v_account c))) cs ->
  Forall2 (fun (u : str * A) (v : str * B) => fst u = fst v /\ R (snd u) (snd v))
    (sort_key (map (fun c => (hc_name c, f c)) cs)) (sort_key (map (fun c => (ac_name c, g c)) (map v_account cs))).
Proof.
  intros H. apply sort_forall2. induction H as [|c cs H F IH]; cbn [map]; constructor; [|exact IH]. cbn [fst snd]. rewrite v_name. auto.
Qed.
Lemma flatten_view a : flatten (v_account a) = map v_account (h_flatten a).
Proof.
  induction a as [n par al cs ps IH] using hacct_ind'. cbn [v_account flatten h_flatten hc_children ac_children map]. f_equal.
  assert (F := kids_forall2 (fun l l' => l' = map v_account l) h_flatten flatten cs IH).
  induction F as [|u v l l' [_ E] F IHF]; cbn [map concat]; [reflexivity|]. rewrite map_app, E, IHF. reflexivity.
Qed.
Lemma accounts_view h : h_report_accounts h = report_accounts (view h).
Proof.
  unfold h_report_accounts, report_accounts. cbn [view j_master]. rewrite flatten_view, map_map. apply map_ext. intros a. symmetry. apply v_name.
Qed.

(** ** The balance report *)
Lemma agree_or {A} (x y : outcome A) : agree (fun s => s) any x y -> x = Panic PNull \/ x = y.
Proof. destruct x as [a|e|]; cbn; [intros [-> _]; right; reflexivity|destruct e; intros; subst; auto|intros ->; auto]. Qed.
Lemma post_cases xs a : h_post xs a = Panic PNull \/ exists p, h_post xs a = Ok p /\ get_post (map v_xact xs) (ref_of a) = Some (v_post p).
Proof.
  destruct a as [| |xi g k| |]; cbn [h_post]; try (left; reflexivity). destruct (nth_error xs xi) as [x|] eqn:E; [|left; reflexivity].
  destruct (_ =? _); [|left; reflexivity]. destruct (nth_error (hx_posts x) k) as [p|] eqn:F; [|left; reflexivity]. right. exists p. split; [reflexivity|].
  unfold get_post. cbn [ref_of fst snd]. rewrite nth_error_map, E. cbn [option_map v_xact x_posts]. rewrite nth_error_map, F. reflexivity.
Qed.
Lemma amount_agree pool xs refs : keyed pool -> agree v_bal any (h_account_amount pool xs refs) (account_amount (map v_xact xs) (map ref_of refs)).
Proof.
  intros K. unfold h_account_amount, account_amount. change bal_new with (v_bal []). apply fold_agree; [|exact I].
  intros b r _ _. destruct (post_cases xs r) as [->|(p & -> & E)]; cbn [bind]; [exact I|]. rewrite E. cbn [v_post po_amount].
  destruct (ho_amount p) as [a|]; cbn [option_map]; [apply badd_agree, K|apply agree_ok; [reflexivity|exact I]].
Qed.
Lemma total_agree pool xs a : keyed pool -> agree v_bal any (h_total pool xs a) (account_total (map v_xact xs) (v_account a)).
Proof.
  intros K. induction a as [n par al cs ps IH] using hacct_ind'. cbn [h_total account_total v_account hc_children ac_children hc_posts ac_posts].
  eapply agree_bind.
  - change bal_new with (v_bal []). eapply (fold_agree2 (fun u v => fst u = fst v /\ agree v_bal any (snd u) (snd v)) v_bal any); [apply (kids_forall2 (agree v_bal any) (h_total pool xs) (account_total (map v_xact xs)) cs IH)| |exact I].
    intros t u v [_ R] _. eapply agree_bind; [exact R|]. intros b _ _. apply baddbal_agree, K.
  - intros t _ _. eapply agree_bind; [apply amount_agree, K|]. intros own _ _. apply baddbal_agree, K.
Qed.
Lemma text_agree pool b : keyed pool -> agree (fun s => s) any (h_balance_text pool b) (Ok (balance_text (v_bal b))).
Proof.
  intros K. unfold h_balance_text.
  assert (H : forall s, agree (fun s => s) any (fold_outcome (fun s a => let* t := h_amount_text pool a in Ok (s ++ t)) b s) (Ok (s ++ balance_text (v_bal b)))).
  { induction b as [|a b IH]; intros s; cbn [fold_outcome map]; [apply agree_ok; [unfold balance_text; cbn; rewrite app_nil_r; reflexivity|exact I]|].
    unfold h_amount_text at 1. destruct (get_cases pool (ha_c a)) as [E|(c & E)]; rewrite E; cbn [bind]; [exact I|].
    specialize (IH (s ++ d_to_string (ha_q a) ++ match c with Some c => 32%N :: c_symbol c | None => [] end)).
    replace (s ++ balance_text (v_amount a :: v_bal b)) with ((s ++ d_to_string (ha_q a) ++ match c with Some c => 32%N :: c_symbol c | None => [] end) ++ balance_text (v_bal b)); [exact IH|].
    rewrite <- app_assoc. f_equal. unfold balance_text at 2. cbn [flat_map]. f_equal. unfold amount_text. cbn [v_amount a_q a_c]. f_equal.
    pose proof (get_symbol _ _ _ K E) as G. destruct c as [c|], (ha_c a) as [x|]; try discriminate; cbn in *; [injection G as ->|]; reflexivity. }
  apply (H []).
Qed.
Lemma get_snoc t p n : get_hacct t (p ++ [n]) = match get_hacct t p with Some s => find_hchild n (hc_children s) | None => None end.
Proof.
  revert t. induction p as [|k p IH]; intros t; cbn [app get_hacct]; [destruct (find_hchild n (hc_children t)); reflexivity|].
  destruct (find_hchild k (hc_children t)) as [c|]; [apply IH|reflexivity].
Qed.
Lemma get_name t p n c : get_hacct t (p ++ [n]) = Some c -> hc_name c = n.
Proof. rewrite get_snoc. destruct (get_hacct t p); [|discriminate]. apply hfind_name. Qed.
Lemma account_found t a p : h_account t a = Ok p -> exists c, get_hacct t p = Some c.
Proof.
  destruct a as [| | |q g n|]; cbn [h_account]; try discriminate; [intros E; injection E as <-; exists t; reflexivity|].
  destruct (get_hacct t q) as [s|] eqn:E; [|discriminate]. destruct (_ =? _); [|discriminate]. destruct (find_hchild n (hc_children s)) as [c|] eqn:F; [|discriminate].
  intros X. injection X as <-. exists c. rewrite get_snoc, E. exact F.
Qed.
Definition above (full n : str) : str := match n with [] => full | _ => n ++ 58%N :: full end.
Lemma up_agree t : rooted t -> forall q fuel a full, acct_path a = Some q -> length q < fuel -> agree (fun s => s) any (h_up fuel t (Some a) full) (Ok (fold_left above (rev q) full)).
Proof.
  intros (R1 & R2 & R3) q. induction q as [|n q IH] using rev_ind; intros fuel a full AP L; (destruct fuel as [|f]; [lia|]); cbn [h_up].
  - destruct (account_cases t a) as [->|(p & EA & E)]; cbn [bind]; [exact I|]. rewrite EA. cbn [bind]. assert (p = []) by congruence. subst p. cbn [get_hacct]. rewrite R1, R2.
    destruct f; cbn [h_up]; apply agree_ok; try reflexivity; exact I.
  - destruct (account_cases t a) as [->|(p & EA & E)]; cbn [bind]; [exact I|]. rewrite EA. cbn [bind]. assert (p = q ++ [n]) by congruence. subst p.
    destruct (account_found _ _ _ EA) as (c & G). rewrite G. destruct (R3 q n c G) as (b & EB & AB). rewrite EB, (get_name _ _ _ _ G).
    rewrite rev_app_distr. cbn [rev app fold_left]. replace (match n with [] => full | n0 :: l => n0 :: l ++ 58%N :: full end) with (above full n) by (destruct n; reflexivity).
    apply IH; [exact AB|]. rewrite app_length in L. cbn in L. lia.
Qed.
Lemma fullname_agree t p a : rooted t -> get_hacct t p = Some a -> agree (fun s => s) any (h_fullname (length p) t a) (Ok (fullname p)).
Proof.
  intros R G. unfold h_fullname, fullname. destruct (path_snoc p) as [->|(q & n & ->)].
  - cbn in G. injection G as <-. destruct R as (_ & -> & _). apply agree_ok; [reflexivity|exact I].
  - pose proof R as (_ & _ & R3). destruct (R3 q n a G) as (b & -> & AB). rewrite (get_name _ _ _ _ G), rev_app_distr. cbn [rev app].
    apply up_agree; [exact R|exact AB|]. rewrite app_length. cbn. lia.
Qed.
Lemma hfind_in c cs : NoDup (map hc_name cs) -> In c cs -> find_hchild (hc_name c) cs = Some c.
Proof.
  induction cs as [|d cs IH]; [intros _ []|]. cbn [map]. intros N X. inversion N as [|? ? N1 N2]; subst. unfold find_hchild. cbn [find].
  destruct X as [->|X]; [rewrite str_eqb_refl; reflexivity|]. destruct (str_eqb (hc_name d) (hc_name c)) eqn:E; [|apply IH; assumption].
  apply str_eqb_eq in E. exfalso. apply N1. rewrite E. apply in_map, X.
Qed.
Lemma names_view cs : map ac_name (map v_account cs) = map hc_name cs.
Proof. rewrite map_map. apply map_ext, v_name. Qed.
Lemma lines_report h a : ainv h -> forall p, wf_tree (v_account a) -> get_hacct (h_master h) p = Some a ->
  agree (fun s => s) any (h_children_lines h (length p) a) (children_lines (map v_xact (h_xacts h)) p (v_account a)).
Proof.
  intros [K R]. induction a as [n par al cs ps IH] using hacct_ind'. intros p W G. cbn [h_children_lines children_lines hc_children v_account ac_children].
  change (Acct n (map v_account cs) (map ref_of ps)) with (v_account (HAcct n par al cs ps)) in *.
  assert (N : NoDup (map hc_name cs)) by (cbn [v_account] in W; inversion W as [? ? ? N _ _]; subst; rewrite names_view in N; exact N).
  assert (WC : forall c, In c cs -> wf_tree (v_account c)).
  { cbn [v_account] in W. inversion W as [? ? ? _ _ WC]; subst. intros c X. apply WC, in_map, X. }
  eapply agree_bind; [apply total_agree, K|]. intros b _ _.
  destruct (agree_or _ _ (text_agree (h_pool h) b K)) as [-> | ->]; [exact I|]. cbn [bind].
  destruct (agree_or _ _ (fullname_agree (h_master h) p _ R G)) as [-> | ->]; [exact I|]. cbn [bind].
  change (lit "Account " ++ fullname p ++ lit " has balance " ++ balance_text (v_bal b)) with (account_line (fullname p) (v_bal b)).
  eapply (fold_agree2 (fun u v => fst u = fst v /\ agree (fun s => s) any (snd u) (snd v)) (fun s => s) any); [| |exact I].
  - apply (kids_forall2 (agree (fun s => s) any) (fun c => h_children_lines h (S (length p)) c)
      (fun c => children_lines (map v_xact (h_xacts h)) (p ++ [ac_name c]) c) cs).
    rewrite Forall_forall in *. intros c X. rewrite v_name.
    replace (S (length p)) with (length (p ++ [hc_name c])) by (rewrite app_length; cbn; lia). apply IH; [exact X|apply WC, X|].
    rewrite get_snoc, G. cbn [hc_children]. apply hfind_in; assumption.
  - intros ls u v [_ E] _. eapply agree_bind; [exact E|]. intros l _ _. apply agree_ok; [reflexivity|exact I].
Qed.

(** ** The command *)
Lemma balance_agree h : ainv h -> wf_tree (v_account (h_master h)) -> agree (fun s => s) any (h_balance_report h) (balance_report (view h)).
Proof. intros A W. apply (lines_report h (h_master h) A []); [exact W|reflexivity]. Qed.
Lemma files_reachable depth cwd fs files j : read_journal_files depth cwd fs files = Ok j -> reachable_journal j.
Proof.
  intros H. unfold read_journal_files in H. assert (G : forall l j0, reachable_journal j0 ->
       fold_outcome (fun j f => parse_file depth cwd fs f j) l j0 = Ok j -> reachable_journal j).
  { clear. induction l as [|f l IH]; intros j0 R H; cbn in H; [injection H as <-; exact R|].
    inv_bind H. eapply IH; [|exact H]. unfold parse_file in EQ. destruct (fs _); [|discriminate]. eapply rj_read; eassumption. }
  eapply G; [constructor|exact H].
Qed.
Lemma execute_agree pol strict depth cwd fs commands files :
  agree (fun s => s) any (h_execute_command pol strict depth cwd fs commands files) (execute_command depth cwd fs commands files).
Proof.
  unfold h_execute_command, execute_command. destruct (nth_error commands 0) as [verb|]; cbn [unwrap bind]; [|reflexivity].
  pose proof (files_agree pol strict depth cwd fs files) as F. pose proof (files_reachable depth cwd fs files) as RJ.
  destruct (h_read_files pol strict depth cwd fs files) as [h|e|]; cbn [agree bind] in *.
  - destruct F as [E A]. rewrite E. cbn [bind]. apply RJ, reachable_inv in E. destruct E as [W _ _ _ _].
    destruct verb as [|c verb]; [reflexivity|]. destruct (N.eq_dec c 97) as [->|N1]; [rewrite accounts_view; apply agree_ok; [reflexivity|exact I]|].
    destruct (N.eq_dec c 98) as [->|N2].
    + destruct (_ || _); [apply balance_agree; [exact A|exact W]|reflexivity].
    + assert (E : forall (T : Type) (x y z : T), match c with 97%N => x | 98%N => y | _ => z end = z).
      { intros. destruct c as [|c]; [reflexivity|]. repeat (destruct c as [c|c|]; try reflexivity); congruence. }
      rewrite !E. reflexivity.
  - destruct e; try exact I; rewrite F; reflexivity.
  - rewrite F. reflexivity.
Qed.
Lemma run_agree pol strict depth cwd fs args : agree (fun s => s) any (h_run pol strict depth cwd fs args) (run depth cwd fs args).
Proof. unfold h_run, run. destruct (process_arguments args) as [[commands files]|e|]; cbn [bind]; [apply execute_agree|destruct e; reflexivity || exact I|reflexivity]. Qed.
