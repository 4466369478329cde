(** Reading with pointers and reading with names. *)
From Coq Require Import String List NArith ZArith Bool Lia.
From Verif Require Import Base BaseFacts Decimal Dates Amount Balance Scanner History Pool Account Journal Xact Parser Report Options Lib Memory Heap.
From Verif Require Import SpecHeap AccountFacts MemoryFacts ReportFacts HeapFacts HeapTree.
Import ListNotations.
Open Scope nat_scope.

Lemma map_update {A B} (g : A -> B) f f' l : (forall x, g (f x) = f' (g x)) -> forall i, map g (update_nth i f l) = update_nth i f' (map g l).
Proof. intros H. induction l as [|x l IH]; intros [|i]; cbn [update_nth map]; [reflexivity..|rewrite H; reflexivity|rewrite IH; reflexivity]. Qed.
Lemma update_ext {A} (f g : A -> A) l : (forall x, In x l -> f x = g x) -> forall i, update_nth i f l = update_nth i g l.
Proof.
  induction l as [|x l IH]; intros H [|i]; cbn [update_nth]; [reflexivity..|rewrite H by (left; reflexivity); reflexivity|].
  rewrite IH; [reflexivity|]. intros y I. apply H. right. exact I.
Qed.
Lemma update_at {A} (f g : A -> A) l i x : nth_error l i = Some x -> f x = g x -> update_nth i f l = update_nth i g l.
Proof.
  revert l. induction i as [|i IH]; intros [|y l]; cbn [nth_error update_nth]; intros N E; try discriminate; [injection N as ->; rewrite E; reflexivity|].
  rewrite (IH l N E). reflexivity.
Qed.

Section Program.
Variable pol : policy.
Variable strict : bool.
Notation v_bal := (map v_amount).

(** ** finalize *)
Lemma value_view p : post_value (v_post p) = option_map v_amount (hpost_value p).
Proof. unfold post_value, hpost_value. cbn [v_post po_cost po_amount]. destruct (ho_cost p); reflexivity. Qed.
Lemma sum_agree pool posts : keyed pool -> forall i b n,
  agree (fun r => (v_bal (fst r), snd r)) any (h_sum_posts pool posts i b n) (sum_posts (map v_post posts) i (v_bal b) n).
Proof.
  intros K. induction posts as [|p posts IH]; intros i b n; cbn [h_sum_posts sum_posts map]; [apply agree_ok; [reflexivity|exact I]|].
  rewrite value_view. destruct (hpost_value p) as [a|]; cbn [option_map].
  - eapply agree_bind; [apply badd_agree, K|]. intros b' _ _. apply IH.
  - destruct n; [reflexivity|]. apply IH.
Qed.
Lemma top_view posts : top_amount (map v_post posts) = option_map v_amount (h_top_amount posts).
Proof. induction posts as [|p posts IH]; cbn [map top_amount h_top_amount]; [reflexivity|]. cbn [v_post po_amount]. destruct (ho_amount p); [reflexivity|exact IH]. Qed.
Definition v_costs (r : list hpost * list hamount) : list post * balance := (map v_post (fst r), v_bal (snd r)).
Lemma loop_agree pool c o puc posts : keyed pool -> h_get_commodity pool o = Ok c -> forall b,
  agree v_costs any (h_cost_loop strict pool c puc posts b) (cost_loop (option_map symbol_of o) (v_amount puc) (map v_post posts) (v_bal b)).
Proof.
  intros K HC. induction posts as [|p posts IH]; intros b; cbn [h_cost_loop cost_loop map]; [apply agree_ok; [reflexivity|exact I]|].
  eapply (agree_bind v_amount any); [apply agree_unwrap; [reflexivity|intros; exact I]|]. intros amt _ _.
  apply agree_left; [apply get_cases|]. intros d HD. destruct (get_eqb _ _ _ _ _ K HD HC) as [E _]. rewrite E.
  eapply (agree_bind (fun r => (v_post (fst r), v_bal (snd r))) any).
  - change (a_c (v_amount amt)) with (option_map symbol_of (ha_c amt)). destruct (comm_eqb _ _); [|apply agree_ok; [reflexivity|exact I]].
    eapply agree_bind; [apply bsub_agree, K|]. intros b1 _ _. eapply agree_bind; [apply mul_agree|]. intros cost _ _.
    eapply agree_bind; [apply badd_agree, K|]. intros b2 _ _. apply agree_ok; [reflexivity|exact I].
  - intros [p' b'] _ _. cbn [fst snd]. eapply agree_bind; [apply IH|]. intros [ps b''] _ _. unfold v_costs. cbn [fst snd]. apply agree_ok; [reflexivity|exact I].
Qed.
Lemma infer_agree pool posts b : keyed pool -> agree v_costs any (h_infer_costs strict pool posts b) (infer_costs (map v_post posts) (v_bal b)).
Proof.
  intros K. unfold h_infer_costs, infer_costs. destruct b as [|x0 [|y0 [|z b]]]; cbn [map]; try (apply agree_ok; [reflexivity|exact I]).
  rewrite top_view. destruct (h_top_amount posts) as [top|]; cbn [option_map]; [|apply agree_ok; [reflexivity|exact I]].
  change (amt_is_zero (v_amount x0)) with (ha_is_zero x0). change (amt_is_zero (v_amount y0)) with (ha_is_zero y0).
  destruct (negb (ha_is_zero x0) && negb (ha_is_zero y0)); [|apply agree_ok; [reflexivity|exact I]].
  apply agree_left; [apply get_cases|]. intros cx HX. apply agree_left; [apply get_cases|]. intros ct HT.
  destruct (get_eqb _ _ _ _ _ K HX HT) as [E _]. rewrite E.
  change (a_c (v_amount x0)) with (option_map symbol_of (ha_c x0)). change (a_c (v_amount top)) with (option_map symbol_of (ha_c top)).
  destruct (comm_eqb _ _); cbn [negb]; (apply agree_left; [apply get_cases|]; intros c HC; eapply agree_bind; [apply div_agree|]; intros r _ _;
    change (amt_abs (v_amount r)) with (v_amount (ha_abs r)); refine (loop_agree pool c _ (ha_abs r) posts K HC [x0; y0])).
Qed.
Definition v_priced (r : hpool * list hpost) : pool * list post := (v_pool (fst r), map v_post (snd r)).
Lemma price_agree date posts : forall pool, keyed pool ->
  agree v_priced (fun r => keyed (fst r)) (h_price_loop strict date pool posts) (price_loop date (v_pool pool) (map v_post posts)).
Proof.
  induction posts as [|p posts IH]; intros pool K; cbn [h_price_loop price_loop map]; [apply agree_ok; [reflexivity|exact K]|].
  eapply (agree_bind (fun r => (v_pool (fst r), v_post (snd r))) (fun r => keyed (fst r))).
  - cbn [v_post po_cost po_amount]. destruct (ho_cost p) as [cost|] eqn:EC; cbn [option_map].
    2: { apply agree_ok; [cbn [fst snd]; unfold v_post; rewrite EC; reflexivity|exact K]. }
    destruct (ho_amount p) as [amt|]; cbn [option_map]; [|reflexivity].
    apply agree_left; [apply get_cases|]. intros c HC. apply agree_left; [apply get_cases|]. intros d HD.
    destruct (get_eqb _ _ _ _ _ K HC HD) as [E _]. rewrite E. change (a_c (v_amount amt)) with (option_map symbol_of (ha_c amt)). change (a_c (v_amount cost)) with (option_map symbol_of (ha_c cost)).
    destruct (comm_eqb _ _); [reflexivity|].
    eapply agree_bind; [apply (agree_same any); intros; exact I|]. intros day _ _.
    eapply agree_bind; [apply exchange_agree, K|]. intros [bd np] _ EB. cbn [fst snd] in *.
    eapply (agree_bind v_pool keyed).
    { destruct np as [pr|]; cbn [option_map]; [|apply agree_ok; [reflexivity|exact K]]. apply add_price_agree, K. }
    intros pool' _ K'. apply agree_ok; [|exact K']. cbn [fst snd]. unfold set_amount, hset_amount, v_post. cbn. rewrite EC. reflexivity.
  - intros [pool' p'] _ K'. cbn [fst snd] in *. eapply agree_bind; [apply IH, K'|]. intros [pool'' ps] _ K''. unfold v_priced. cbn [fst snd] in *. apply agree_ok; [reflexivity|exact K''].
Qed.
Lemma finalize_posts_agree date pool posts : keyed pool ->
  agree v_priced (fun r => keyed (fst r)) (h_finalize_posts strict date pool posts) (finalize_posts date (v_pool pool) (map v_post posts)).
Proof.
  intros K. unfold h_finalize_posts, finalize_posts. eapply agree_bind; [apply (sum_agree pool posts K 0 [] None)|]. intros [b n] _ _. cbn [fst snd].
  rewrite map_length. destruct (_ =? 1); [reflexivity|].
  eapply (agree_bind v_costs any). { destruct n; [apply agree_ok; [reflexivity|exact I]|apply infer_agree, K]. }
  intros [posts1 b1] _ _. unfold v_costs. cbn [fst snd]. eapply agree_bind; [apply price_agree, K|]. intros [pool' posts2] _ K'. unfold v_priced. cbn [fst snd] in *.
  destruct n as [i|]; [|apply agree_ok; [reflexivity|exact K']]. destruct b1 as [|b0 [|b2 b1]]; cbn [map]; try reflexivity.
  unfold ha_inverse. cbv zeta. cbn [bind].
  destruct (ref_cases strict pool' (ha_c b0)) as [->|(u & ->)]; cbn [bind]; [exact I|]. apply agree_ok; [|exact K']. cbn [fst snd]. f_equal.
  symmetry. apply map_update. reflexivity.
Qed.

(** ** The heap *)
Definition ainv (h : heap) : Prop := keyed (h_pool h) /\ rooted (h_master h).
Definition index_of (a : addr) : nat := match a with AXact _ i => i | _ => 0 end.
Lemma xact_cases h a : h_xact h a = Panic PNull \/ exists x, h_xact h a = Ok (index_of a, x) /\ nth_error (h_xacts h) (index_of a) = Some x.
Proof.
  destruct a as [|g i|? ? ?|? ? ?|? ?]; cbn [h_xact index_of]; try (left; reflexivity). destruct (_ =? _); [|left; reflexivity].
  destruct (nth_error (h_xacts h) i) as [x|]; [|left; reflexivity]. right. exists x. split; reflexivity.
Qed.
Lemma finalize_agree h a : ainv h -> agree view ainv (h_finalize strict h a) (finalize (view h) (index_of a)).
Proof.
  intros [K R]. unfold h_finalize, finalize. destruct (xact_cases h a) as [->|(x & -> & E)]; cbn [bind]; [exact I|].
  cbn [view j_xacts]. rewrite nth_error_map, E. cbn [option_map]. cbn [v_xact x_date x_posts j_pool].
  eapply agree_bind; [apply finalize_posts_agree, K|]. intros [pool posts] _ K'. unfold v_priced. cbn [fst snd] in *. apply agree_ok; [|split; assumption].
  unfold view. cbn [h_master h_pool h_xacts j_master]. f_equal. symmetry. apply map_update. reflexivity.
Qed.
Lemma note_agree h a line : ainv h -> agree view ainv (h_note h a line) (parse_trailing_note (view h) (index_of a) line).
Proof.
  intros [K R]. unfold h_note, parse_trailing_note. cbv zeta. destruct (is_empty _); [apply agree_ok; [reflexivity|split; assumption]|].
  apply agree_left; [destruct (xact_cases h a) as [->|(x & -> & _)]; eauto|]. intros [xi x] HX.
  destruct (xact_cases h a) as [E|(y & E & _)]; rewrite HX in E; [discriminate|]. injection E as -> ->.
  apply agree_ok; [|split; assumption]. unfold view, set_xacts. cbn [h_master h_pool h_xacts j_master j_pool j_xacts]. f_equal. symmetry. apply map_update.
  intros z. destruct z as [d au pa no al ps]. cbn [hx_posts]. destruct ps as [|p ps]; [reflexivity|]. set (note := trim (skipn 1 line)).
  set (f := fun p => mkHPost (ho_account p) (ho_xact p) (ho_amount p) (ho_cost p) (Some note)).
  transitivity (mkXact d au pa no (map v_post (update_nth (length (p :: ps) - 1) f (p :: ps)))); [reflexivity|].
  rewrite (map_update v_post f (fun p => post_add_note p note)) by reflexivity.
  transitivity (mkXact d au pa no (update_nth (length (map v_post (p :: ps)) - 1) (fun p => post_add_note p note) (map v_post (p :: ps)))); [rewrite map_length; reflexivity|reflexivity].
Qed.
Lemma create_agree h line : ainv h ->
  agree (fun r => view (fst r)) (fun r => ainv (fst r) /\ index_of (snd r) = length (h_xacts h)) (h_create_xact pol h line) (create_xact (view h) line).
Proof.
  intros A. unfold h_create_xact, create_xact. eapply agree_bind; [apply (agree_same any); intros; exact I|]. intros [[[d au] pa] no] _ _.
  eapply agree_bind; [apply (agree_same (fun x => x_posts x = [])); intros x|].
  - unfold xact_create. destruct (is_empty d), (is_empty au); cbn [bind]; try (destruct (parse_date d)); cbn [bind]; try (destruct (parse_date au)); cbn [bind]; intros X; try discriminate; injection X as <-; reflexivity.
  - intros x _ X. apply agree_ok; [|split; [exact A|reflexivity]]. cbn [fst]. unfold view, set_xacts. cbn [h_master h_pool h_xacts j_master j_pool j_xacts]. rewrite map_app. cbn [map v_xact].
    unfold v_xact. cbn [hx_date hx_aux hx_payee hx_note hx_posts map]. rewrite <- X. destruct x; reflexivity.
Qed.
Lemma parse_post_agree h a input : ainv h -> agree view ainv (h_parse_post pol h a input) (parse_post (view h) (index_of a) input).
Proof.
  intros [K R]. unfold h_parse_post, parse_post. eapply agree_bind; [apply (agree_same any); intros; exact I|]. intros t _ _.
  cbn [view j_master j_pool j_xacts]. eapply agree_bind; [apply register_agree, R|]. intros [m1 acct] _ R1. cbn [fst snd] in *.
  destruct (parts_agree pol (h_pool h) (t_quantity t) (t_symbol t) K) as [E K1]. rewrite E. destruct (h_amount_parts pol (h_pool h) (t_quantity t) (t_symbol t)) as [p1 amt]. cbn [fst snd] in *.
  eapply agree_bind; [apply annotation_agree, K1|]. intros [p2 ann] _ K2. cbn [fst snd] in *.
  destruct (foc_agree pol p2 (t_symbol t) (Some ann) K2) as [F K3]. cbn [option_map] in F. rewrite F. destruct (hp_find_or_create pol p2 (t_symbol t) (Some ann)) as [p3 c3]. cbn [fst snd] in *.
  eapply agree_bind; [apply cost_agree, K3|]. intros [p4 cost] _ K4. cbn [fst snd] in *.
  destruct (xact_cases h a) as [->|(x & -> & EX)]; cbn [bind]; [exact I|]. rewrite nth_error_map, EX. cbn [option_map v_xact x_posts]. cbv zeta. rewrite map_length.
  destruct (account_cases m1 acct) as [->|(w & -> & EW)]; cbn [bind]; [exact I|]. apply acct_path_of in EW. subst w.
  eapply agree_bind; [refine (push_agree (path_of acct) m1 (APost _ _ _))|]. intros m2 _ (N & PA & PP). apply agree_ok.
  - unfold view, add_post. cbn [h_master h_pool h_xacts]. f_equal. symmetry. apply map_update. intros z. unfold v_xact, set_posts. cbn. rewrite map_app. reflexivity.
  - split; [exact K4|]. destruct R1 as (R1 & R2 & R3). split; [cbn; congruence|]. split; [cbn; congruence|]. apply PP, R3.
Qed.

(** ** The loops *)
Definition v_mode (m : hmode) : mode := match m with HTop => Top | HIn a => InXact (index_of a) end.
Definition v_next (n : hnext) : next := match n with HContinue m h => Continue (v_mode m) (view h) | HStop h => Stop (view h) end.
Definition ninv (n : hnext) : Prop := match n with HContinue _ h | HStop h => ainv h end.
Lemma xact_line_agree h a line : ainv h -> agree v_next ninv (h_xact_line pol strict h a line) (xact_line (view h) (index_of a) line).
Proof.
  intros A.
  assert (F : agree v_next ninv (let* h' := h_finalize strict h a in Ok (HContinue HTop h')) (let* j' := finalize (view h) (index_of a) in Ok (Continue Top j'))).
  { eapply agree_bind; [apply finalize_agree, A|]. intros h' _ A'. apply agree_ok; [reflexivity|exact A']. }
  assert (P : forall s, agree v_next ninv (let* h' := h_parse_post pol h a s in Ok (HContinue (HIn a) h')) (let* j' := parse_post (view h) (index_of a) s in Ok (Continue (InXact (index_of a)) j'))).
  { intros s. eapply agree_bind; [apply parse_post_agree, A|]. intros h' _ A'. apply agree_ok; [reflexivity|exact A']. }
  assert (N : forall s, agree v_next ninv (let* h' := h_note h a s in Ok (HContinue (HIn a) h')) (let* j' := parse_trailing_note (view h) (index_of a) s in Ok (Continue (InXact (index_of a)) j'))).
  { intros s. eapply agree_bind; [apply note_agree, A|]. intros h' _ A'. apply agree_ok; [reflexivity|exact A']. }
  unfold h_xact_line, xact_line. repeat (match goal with |- agree _ _ (match ?x with _ => _ end) _ => destruct x end; auto; try reflexivity).
Qed.
Definition inc_agree (inc : str -> heap -> outcome heap) (vinc : str -> journal -> outcome journal) : Prop :=
  forall s h, ainv h -> agree view ainv (inc s h) (vinc s (view h)).
Lemma general_agree inc vinc h line : inc_agree inc vinc -> ainv h -> agree view ainv (h_general_directive pol inc h line) (general_directive vinc (view h) line).
Proof.
  intros HI A.
  assert (P : agree view ainv (let* p := h_price_directive pol (h_pool h) line in Ok (mkHeap (h_master h) p (h_xalloc h) (h_xacts h)))
                (let* p := parse_price_directive (j_pool (view h)) line in Ok (set_pool (view h) p))).
  { destruct A as [K R]. eapply agree_bind; [apply price_directive_agree, K|]. intros p _ K'. apply agree_ok; [reflexivity|split; assumption]. }
  unfold h_general_directive, general_directive. destruct (take_word line) as [d rest].
  assert (X : agree view ainv
    (if str_eqb d (lit "include") then match fst (take_word rest) with [] => Panic PUnwrap | argument => inc argument h end
     else if str_eqb d (lit "import") then Panic PTodo else let* p := h_price_directive pol (h_pool h) line in Ok (mkHeap (h_master h) p (h_xalloc h) (h_xacts h)))
    (if str_eqb d (lit "include") then match fst (take_word rest) with [] => Panic PUnwrap | argument => vinc argument (view h) end
     else if str_eqb d (lit "import") then Panic PTodo else let* p := parse_price_directive (j_pool (view h)) line in Ok (set_pool (view h) p))).
  { destruct (str_eqb d (lit "include")).
    - destruct (fst (take_word rest)) as [|c arg]; [reflexivity|]. apply HI, A.
    - destruct (str_eqb d (lit "import")); [reflexivity|exact P]. }
  repeat (match goal with |- agree _ _ (match ?x with _ => _ end) _ => destruct x end; auto; try reflexivity).
Qed.
Lemma top_line_agree inc vinc h line : inc_agree inc vinc -> ainv h -> agree v_next ninv (h_top_line pol inc h line) (top_line vinc (view h) line).
Proof.
  intros HI A. unfold h_top_line, top_line. destruct (_ || _); [apply agree_ok; [reflexivity|exact A]|]. destruct line as [|c r]; [reflexivity|].
  destruct (_ || _); [apply agree_ok; [reflexivity|exact A]|]. destruct (c =? 45)%N; [apply agree_ok; [reflexivity|exact A]|].
  destruct (is_digit c).
  - eapply agree_bind; [apply create_agree, A|]. intros [h' ptr] _ [A' E]. cbn [fst snd] in *. apply agree_ok; [|exact A']. cbn [v_next v_mode].
    rewrite E. cbn [view j_xacts]. rewrite map_length. reflexivity.
  - destruct (_ || _); [reflexivity|]. eapply agree_bind; [apply general_agree; [exact HI|exact A]|]. intros h' _ A'. apply agree_ok; [reflexivity|exact A'].
Qed.
Lemma lines_agree inc vinc lines : inc_agree inc vinc -> forall m h, ainv h ->
  agree view ainv (h_parse_lines pol strict inc m h lines) (parse_lines vinc (v_mode m) (view h) lines).
Proof.
  intros HI. induction lines as [|l lines IH]; intros m h A; cbn [h_parse_lines parse_lines].
  - destruct m as [|a]; cbn [v_mode]; [apply agree_ok; [reflexivity|exact A]|apply finalize_agree, A].
  - eapply (agree_bind v_next ninv).
    + destruct m as [|a], l as [l|]; cbn [h_step step v_mode].
      * apply top_line_agree; assumption.
      * apply agree_ok; [reflexivity|exact A].
      * apply xact_line_agree, A.
      * eapply agree_bind; [apply finalize_agree, A|]. intros h' _ A'. apply agree_ok; [reflexivity|exact A'].
    + intros [m' h'|h'] _ A'; cbn [v_next ninv] in *; [apply IH, A'|apply agree_ok; [reflexivity|exact A']].
Qed.
Lemma include_agree depth cwd fs : inc_agree (h_include_file pol strict depth cwd fs) (include_file depth cwd fs).
Proof.
  induction depth as [|d IH]; intros s h A; cbn [h_include_file include_file]; [reflexivity|].
  destruct (included cwd fs s) as [[src|]|p|]; cbn [bind]; [apply (lines_agree _ _ src IH HTop h A)|apply agree_ok; [reflexivity|exact A]|destruct p; reflexivity|reflexivity].
Qed.
Lemma read_agree depth cwd fs src h : ainv h -> agree view ainv (h_read pol strict depth cwd fs src h) (read_into_journal depth cwd fs src (view h)).
Proof. intros A. apply (lines_agree _ _ src (include_agree depth cwd fs) HTop h A). Qed.
Lemma ainv_new : ainv heap_new.
Proof. split; [intros s c H; discriminate H|]. split; [reflexivity|]. split; [reflexivity|]. intros p n c H. destruct p; discriminate H. Qed.
Lemma files_agree depth cwd fs files : agree view ainv (h_read_files pol strict depth cwd fs files) (read_journal_files depth cwd fs files).
Proof.
  unfold h_read_files, read_journal_files. change journal_new with (view heap_new). rewrite <- (map_id files) at 2. apply fold_agree; [|exact ainv_new].
  intros h f _ A. unfold h_parse_file, parse_file. destruct (fs f) as [src|]; [apply read_agree, A|reflexivity].
Qed.
End Program.
