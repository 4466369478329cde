(** Other names of the accounts: the same journal with the other names. *)
From Coq Require Import String List NArith ZArith Bool Lia.
From Verif Require Import Base Decimal Dates Amount Balance Scanner History Pool Account Journal Xact Parser Report Options Lib.
From Verif Require Import SpecText SpecAccount SpecReading SpecScan SpecOutline SpecLine SpecEnd SpecValue SpecSpelling SpecJournal SpecAccountNames.
From Verif Require Import BaseFacts ScanFacts AccountFacts ReportFacts ValueProofs SpellingProofs LineReadProofs AsideProofs RenameProofs.
From Verif Require ReadingFacts EndProofs JournalFacts ReportProofs.
Import ListNotations.
Open Scope nat_scope.

Section Moving.
Context (g : str -> str) (Hg : account_renaming g).
Notation rp := (post_moved g).
Notation racc := (account_moved g).
Notation rj := (journal_moved g).

Lemma str_mov s t : str_eqb (g s) (g t) = str_eqb s t.
Proof.
  destruct (str_eqb s t) eqn:E; [apply str_eqb_eq in E; subst; apply str_eqb_refl|].
  destruct (str_eqb (g s) (g t)) eqn:E'; [|reflexivity]. apply str_eqb_eq, Hg in E'. subst. rewrite str_eqb_refl in E. discriminate.
Qed.
Lemma name_mov a : ac_name (racc a) = g (ac_name a).
Proof. destruct a; reflexivity. Qed.
Lemma children_mov a : ac_children (racc a) = map racc (ac_children a).
Proof. destruct a; reflexivity. Qed.
Lemma posts_mov a : ac_posts (racc a) = ac_posts a.
Proof. destruct a; reflexivity. Qed.
Lemma find_mov n cs : find_child (g n) (map racc cs) = option_map racc (find_child n cs).
Proof. unfold find_child. induction cs as [|c cs IH]; [reflexivity|]. cbn [map find]. rewrite name_mov, str_mov. destruct (str_eqb _ _); [reflexivity|exact IH]. Qed.
Lemma set_mov n c cs : set_child (g n) (racc c) (map racc cs) = map racc (set_child n c cs).
Proof. induction cs as [|d cs IH]; [reflexivity|]. cbn [map set_child]. rewrite name_mov, str_mov. destruct (str_eqb _ _); cbn [map]; [reflexivity|]. rewrite IH. reflexivity. Qed.
Lemma split_mov s : split_first (g s) = (g (fst (split_first s)), g (snd (split_first s))).
Proof.
  destruct (split_first_spec s) as [[N E]|(a & b & E & N & S)].
  - rewrite E. cbn [fst snd]. destruct Hg as (_ & Z & _ & C). rewrite Z. destruct (split_first_spec (g s)) as [[_ E']|(a & b & E' & _)]; [exact E'|].
    exfalso. apply (C s N). rewrite E'. apply in_or_app. right. left. reflexivity.
  - rewrite S. cbn [fst snd]. subst s. destruct Hg as (_ & _ & H & C). rewrite H.
    destruct (split_first_spec (g a ++ colon :: g b)) as [[N' _]|(x & y & E' & N' & ->)]; [exfalso; apply N'; apply in_or_app; right; left; reflexivity|].
    specialize (C a N). clear - E' N' C. revert x N' E'. induction (g a) as [|c l IH]; intros [|d x] N' E'; cbn in E'.
    + injection E' as ->. reflexivity.
    + injection E' as <- _. exfalso. apply N'. left. reflexivity.
    + injection E' as -> _. exfalso. apply C. left. reflexivity.
    + injection E' as -> E'. assert (K : (x, y) = (l, g b)); [|injection K as -> ->; reflexivity]. apply IH.
      * intros H. apply C. right. exact H.
      * intros H. apply N'. right. exact H.
      * exact E'.
Qed.
Lemma g_empty s : g s = [] <-> s = [].
Proof. split; [intros E; apply (proj1 Hg); rewrite E; symmetry; apply Hg|intros ->; apply Hg]. Qed.
Definition rfound (x : account * path) : account * path := (racc (fst x), map g (snd x)).
Lemma foc_mov fuel : forall fuel' m name auto, length name < fuel -> length (g name) < fuel' ->
  same_outcome (fun x y => y = option_map rfound x) (find_or_create fuel m name auto) (find_or_create fuel' (racc m) (g name) auto).
Proof.
  induction fuel as [|k IH]; intros fuel' m name auto L L'; [lia|]. destruct fuel' as [|k']; [lia|]. destruct m as [n cs ps]. cbn [find_or_create account_moved].
  rewrite find_mov. destruct (find_child name cs) as [c|]; cbn [option_map]; [reflexivity|]. rewrite split_mov.
  assert (Sp := split_first_spec name). destruct (split_first name) as [a b]. cbn [fst snd].
  assert (Lb : b <> [] -> length b < k /\ length (g b) < k').
  { destruct Sp as [[_ E]|(x & y & E & _ & S)]; [injection E as _ ->; congruence|]. injection S as <- <-. intros _. subst name. destruct Hg as (_ & _ & H & _). rewrite H in L'.
    rewrite app_length in L, L'. cbn [length] in L, L'. lia. }
  clear Sp. rewrite find_mov. assert (Eb := g_empty b).
  assert (Sub : forall child (h : account -> account) (h' : account -> account) , (forall c, racc (h c) = h' (racc c)) -> b <> [] ->
     same_outcome (fun x y => y = option_map rfound x)
       (let* r := find_or_create k child b auto in let* (child', p) := unwrap r in Ok (Some (h child', a :: p)))
       (let* r := find_or_create k' (racc child) (g b) auto in let* (child', p) := unwrap r in Ok (Some (h' child', g a :: p)))).
  { intros child h h' E Nb. eapply same_outcome_bind; [apply IH; apply Lb, Nb|]. intros r _ ->. destruct r as [[c p]|]; [|reflexivity]. cbn. rewrite <- E. reflexivity. }
  destruct (find_child a cs) as [child|]; cbn [option_map].
  - destruct b as [|c0 b0]; [rewrite (proj2 Eb eq_refl); reflexivity|]. destruct (g (c0 :: b0)) as [|c1 b1] eqn:Eg; [apply (proj1 (g_empty _)) in Eg; discriminate|].
    apply (Sub child (fun c => Acct n (set_child a c cs) ps)); [|discriminate]. intros c. cbn. rewrite set_mov. reflexivity.
  - destruct auto; [|reflexivity].
    destruct b as [|c0 b0].
    + rewrite (proj2 Eb eq_refl). cbn. unfold rfound. cbn. rewrite map_app. reflexivity.
    + destruct (g (c0 :: b0)) as [|c1 b1] eqn:Eg; [apply (proj1 (g_empty _)) in Eg; discriminate|].
      apply (Sub (Acct a [] []) (fun c => Acct n (cs ++ [c]) ps)); [|discriminate]. intros c. cbn. rewrite map_app. reflexivity.
Qed.
Lemma register_mov m name : same_outcome (img rfound) (register_account m name) (register_account (racc m) (g name)).
Proof.
  unfold register_account. destruct name as [|c n]; [rewrite (proj2 (g_empty []) eq_refl); reflexivity|].
  destruct (g (c :: n)) as [|c' n'] eqn:E; [apply (proj1 (g_empty _)) in E; discriminate|].
  eapply (same_outcome_bind (fun x y => y = option_map rfound x)).
  - rewrite <- E. apply foc_mov; lia.
  - intros r _ ->. destruct r; reflexivity.
Qed.
Lemma push_mov r : forall p m, same_outcome (img racc) (push_post m p r) (push_post (racc m) (map g p) r).
Proof.
  induction p as [|k p IH]; intros [n cs ps]; cbn [push_post account_moved map]; [reflexivity|]. rewrite find_mov. destruct (find_child k cs) as [c|]; cbn [option_map]; [|reflexivity].
  img_step racc; [apply IH|]. intros c' _ ->. unfold img. cbn. rewrite set_mov. reflexivity.
Qed.

(** ** Transactions *)
Lemma sum_mov ps : forall i b n, sum_posts (map rp ps) i b n = sum_posts ps i b n.
Proof.
  induction ps as [|p ps IH]; intros i b n; cbn [sum_posts map]; [reflexivity|]. change (post_value (rp p)) with (post_value p). destruct (post_value p) as [a|].
  - destruct (bal_add b a); cbn [bind]; auto.
  - destruct n; auto.
Qed.
Lemma top_mov ps : top_amount (map rp ps) = top_amount ps.
Proof. induction ps as [|p ps IH]; [reflexivity|]. cbn. destruct (po_amount p); [reflexivity|exact IH]. Qed.
Definition rpb (x : list post * balance) := (map rp (fst x), snd x).
Lemma cost_loop_mov c u ps : forall b, same_outcome (img rpb) (cost_loop c u ps b) (cost_loop c u (map rp ps) b).
Proof.
  induction ps as [|p ps IH]; intros b; cbn [cost_loop map]; [reflexivity|]. eq_step. intros a _ <-. img_step (fun x : post * balance => (rp (fst x), snd x)).
  - destruct (comm_eqb _ _); [|reflexivity]. eq_step. intros b1 _ <-. eq_step. intros k _ <-. eq_step. intros b2 _ <-. reflexivity.
  - intros [q b1] _ ->. img_step rpb; [apply IH|]. intros [r b2] _ ->. reflexivity.
Qed.
Lemma infer_mov ps b : same_outcome (img rpb) (infer_costs ps b) (infer_costs (map rp ps) b).
Proof.
  unfold infer_costs. destruct b as [|x [|y [|z b]]]; try reflexivity. rewrite top_mov. destruct (top_amount ps) as [t|]; [|reflexivity].
  destruct (_ && _); [|reflexivity]. destruct (negb _); eq_step; intros r _ <-; apply cost_loop_mov.
Qed.
Definition rpp (x : pool * list post) := (fst x, map rp (snd x)).
Lemma price_loop_mov d ps : forall p, same_outcome (img rpp) (price_loop d p ps) (price_loop d p (map rp ps)).
Proof.
  induction ps as [|q ps IH]; intros p; cbn [price_loop map]; [reflexivity|]. img_step (fun x : pool * post => (fst x, rp (snd x))).
  - cbn [po_cost po_amount post_moved]. destruct (po_cost q) as [c|] eqn:Ec; [|reflexivity].
    destruct (po_amount q) as [a|] eqn:Ea; [|reflexivity]. destruct (comm_eqb _ _); [reflexivity|].
    eq_step. intros dd _ <-. eq_step. intros [bd np] _ <-. eq_step. intros p1 _ <-. reflexivity.
  - intros [p1 r] _ ->. img_step rpp; [apply IH|]. intros [p2 s] _ ->. reflexivity.
Qed.
Lemma finalize_posts_mov d p ps : same_outcome (img rpp) (finalize_posts d p ps) (finalize_posts d p (map rp ps)).
Proof.
  unfold finalize_posts. rewrite sum_mov, map_length. eq_step. intros [b n] _ <-.
  destruct (length ps =? 1); [reflexivity|]. img_step rpb.
  { destruct n; [reflexivity|]. apply infer_mov. }
  intros [ps1 b1] _ ->. img_step rpp; [apply price_loop_mov|]. intros [p2 ps2] _ ->. cbn [fst snd]. destruct n as [i|]; [|reflexivity].
  unfold rpb, rpp. cbn [fst snd]. destruct b1 as [|x [|? ?]]; try reflexivity. unfold img. cbn [same_outcome fst snd]. f_equal. apply update_map. intros q. reflexivity.
Qed.
Lemma finalize_mov j xi : same_outcome (img rj) (finalize j xi) (finalize (rj j) xi).
Proof.
  unfold finalize. cbn [j_xacts journal_moved]. rewrite nth_error_map. destruct (nth_error (j_xacts j) xi) as [x|]; [|reflexivity]. cbn [option_map].
  img_step rpp; [apply finalize_posts_mov|]. intros [p ps] _ ->. unfold img, journal_moved. cbn. f_equal. apply update_map. intros y. reflexivity.
Qed.

(** ** The parser *)
Lemma parse_post_mov j xi l l' t : scan_post l = Ok t -> scan_post l' = Ok (parts_moved g t) -> same_outcome (img rj) (parse_post j xi l) (parse_post (rj j) xi l').
Proof.
  intros S S'. unfold parse_post. rewrite S, S'. cbn [bind]. cbn [t_account t_quantity t_symbol t_price_quantity t_price_commodity t_price_date parts_moved j_master j_pool j_xacts journal_moved].
  img_step rfound; [apply register_mov|]. intros [m1 acct] _ ->. cbn [rfound fst snd]. destruct (parse_amount_parts (j_pool j) _ _) as [p1 a].
  eq_step. intros [p2 an] _ <-. destruct (pool_find_or_create p2 _ _) as [p3 c].
  change (parse_cost p3 (parts_moved g t) a) with (parse_cost p3 t a). eq_step. intros [p4 co] _ <-. rewrite nth_error_map. destruct (nth_error (j_xacts j) xi) as [x|]; cbn [option_map]; [|reflexivity].
  cbn [x_posts xact_moved]. rewrite map_length. img_step racc; [apply push_mov|]. intros m2 _ ->. unfold img, journal_moved, add_post. cbn [same_outcome j_master j_pool j_xacts]. f_equal.
  apply update_map. intros y. unfold set_posts, xact_moved. cbn. rewrite map_app. reflexivity.
Qed.
Lemma note_mov j xi l : same_outcome (img rj) (parse_trailing_note j xi l) (parse_trailing_note (rj j) xi l).
Proof.
  unfold parse_trailing_note. destruct (is_empty _); [reflexivity|]. unfold img, journal_moved, set_xacts. cbn [same_outcome j_master j_pool j_xacts]. f_equal.
  apply update_map. intros x. destruct x as [d a pa no ps]. unfold xact_moved, set_posts, xact_add_note. cbn. destruct ps as [|p ps]; [reflexivity|]. cbn [map]. cbv iota.
  change (rp p :: map rp ps) with (map rp (p :: ps)). rewrite map_length. rewrite (update_map rp (fun p => post_add_note p (trim (skipn 1 l)))); [reflexivity|]. intros q. reflexivity.
Qed.
Definition rnext (n : next) : next := match n with Continue m j => Continue m (rj j) | Stop j => Stop (rj j) end.
Lemma continue_mov m o o' : same_outcome (img rj) o o' -> same_outcome (img rnext) (let* j := o in Ok (Continue m j)) (let* j := o' in Ok (Continue m j)).
Proof. intros H. img_step rj; [exact H|]. intros j _ ->. reflexivity. Qed.
Definition inc_mov (inc inc' : str -> journal -> outcome journal) : Prop := forall arg j, same_outcome (img rj) (inc arg j) (inc' arg (rj j)).
Lemma general_mov inc inc' j l : inc_mov inc inc' -> same_outcome (img rj) (general_directive inc j l) (general_directive inc' (rj j) l).
Proof.
  intros I. rewrite !ReadingFacts.general_eq. destruct (take_word l) as [x i] eqn:W. cbn [fst snd]. destruct x as [|c d]; [reflexivity|].
  destruct (c =? 97)%N; [reflexivity|]. destruct (N.eqb_spec c 105) as [->|]; [|reflexivity].
  destruct (str_eqb (105%N :: d) (lit "include")) eqn:S1; [destruct (fst (take_word i)); [reflexivity|apply I]|].
  destruct (str_eqb (105%N :: d) (lit "import")) eqn:S2; [reflexivity|]. unfold ReadingFacts.price_line_on. cbn [j_pool journal_moved]. eq_step. intros p _ <-. reflexivity.
Qed.
Lemma step_mov inc inc' m j l l' : inc_mov inc inc' -> line_moved g l l' -> same_outcome (img rnext) (step inc m j l) (step inc' m (rj j) l').
Proof.
  intros HI L. assert (Ln : length (j_xacts (rj j)) = length (j_xacts j)) by apply map_length.
  assert (Top : forall l, same_outcome (img rnext) (top_line inc j l) (top_line inc' (rj j) l)).
  { clear l l' L. intros l. unfold top_line. destruct (_ || _); [reflexivity|]. destruct l as [|c l]; [reflexivity|].
    destruct (_ || _); [reflexivity|]. destruct (c =? 45)%N; [reflexivity|]. destruct (is_digit c).
    { rewrite Ln. apply continue_mov. unfold create_xact. eq_step. intros [[[d aux] payee] note] _ <-.
      eapply (same_outcome_bind (fun x y => x = y /\ x_posts x = [])).
      - unfold xact_create. eq_step. intros dd _ <-. eq_step. intros aa _ <-. split; reflexivity.
      - intros x _ [<- E]. unfold img, journal_moved, set_xacts. cbn. f_equal. rewrite map_app. f_equal. cbn. f_equal. destruct x; cbn in *. subst. reflexivity. }
    destruct (_ || _); [reflexivity|]. apply continue_mov, general_mov; assumption. }
  assert (Fi : forall xi, same_outcome (img rnext) (let* j0 := finalize j xi in Ok (Continue Parser.Top j0)) (let* j0 := finalize (rj j) xi in Ok (Continue Parser.Top j0))).
  { intros xi. apply continue_mov, finalize_mov. }
  assert (Bl : forall l xi, spaces l -> same_outcome (img rnext) (xact_line j xi l) (xact_line (rj j) xi l)).
  { clear l l' L. intros l xi S. unfold xact_line. destruct l as [|c l]; [reflexivity|]. rewrite (blank_trim _ S). specialize (Fi xi).
    destruct c as [|c]; [reflexivity|]. do 6 (destruct c as [c|c|]; try reflexivity; try exact Fi). }
  destruct L as [|l H|l S|r K|r r' t P P'].
  - destruct m as [|xi]; cbn [step]; [reflexivity|apply Fi].
  - destruct m as [|xi]; cbn [step]; [apply Top|]. unfold xact_line. destruct l as [|c l]; [reflexivity|]. cbn in H. specialize (Fi xi).
    destruct c as [|c]; [reflexivity|]. do 6 (destruct c as [c|c|]; try reflexivity; try exact Fi; try (exfalso; congruence)).
  - destruct m as [|xi]; cbn [step]; [apply Top|apply Bl, S].
  - destruct m as [|xi]; cbn [step]; [reflexivity|]. unfold xact_line. destruct (note_marked _ K) as [x ->]. apply continue_mov, note_mov.
  - destruct m as [|xi]; cbn [step]; [reflexivity|]. destruct (xact_posting j xi _ _ P) as (l & S & ->). destruct (xact_posting (rj j) xi _ _ P') as (l' & S' & ->).
    apply continue_mov, (parse_post_mov _ _ _ _ t); assumption.
Qed.
Lemma parse_lines_mov inc inc' l l' : inc_mov inc inc' -> source_moved g l l' -> forall m j,
  same_outcome (img rj) (parse_lines inc m j l) (parse_lines inc' m (rj j) l').
Proof.
  intros In F. induction F as [|a b l l' H F IH]; intros m j; cbn [parse_lines].
  - destruct m; [reflexivity|apply finalize_mov].
  - img_step rnext; [apply step_mov; [exact In|exact H]|]. intros [m1 j1|j1] _ ->; [apply IH|reflexivity].
Qed.
Lemma include_mov fs fs' cwd : files_moved g fs fs' -> forall depth, inc_mov (include_file depth cwd fs) (include_file depth cwd fs').
Proof.
  intros F. induction depth as [|d IH]; intros arg j; cbn [include_file]; [exact I|].
  eapply (same_outcome_bind (opt_rel (source_moved g))).
  - unfold included. assert (G : same_outcome (opt_rel (source_moved g)) (Ok (fs (resolve cwd arg))) (Ok (fs' (resolve cwd arg)))) by apply F.
    destruct (path_components (resolve cwd arg)) as [|a [|b l]]; [reflexivity| |exact G].
    destruct (resolve cwd arg) as [|c x]; [exact I|]. destruct c as [|c]; [exact I|]. do 6 (destruct c as [c|c|]; try exact I; try exact G).
  - intros o o' O. destruct o as [s|], o' as [s'|]; cbn in O; try contradiction; [|reflexivity]. apply parse_lines_mov; assumption.
Qed.
Theorem reading_mov depth cwd fs fs' src src' j : files_moved g fs fs' -> source_moved g src src' ->
  same_outcome (fun j1 j2 => j2 = rj j1) (read_into_journal depth cwd fs src j) (read_into_journal depth cwd fs' src' (rj j)).
Proof. intros F S. apply parse_lines_mov; [apply include_mov, F|exact S]. Qed.
Lemma files_mov depth cwd fs fs' files : files_moved g fs fs' -> same_outcome (img rj) (read_journal_files depth cwd fs files) (read_journal_files depth cwd fs' files).
Proof.
  intros F. unfold read_journal_files. eapply (fold_congr eq (img rj)); [apply eq_rel| |].
  - intros j _ x _ -> <-. unfold parse_file. assert (S := F x).
    destruct (fs x), (fs' x); cbn in S; try contradiction; [|reflexivity]. apply reading_mov; assumption.
  - unfold img, journal_moved. cbn. rewrite (proj2 (g_empty []) eq_refl). reflexivity.
Qed.

(** ** The reports *)
Context (Ho : keeps_order g).
Definition plain_key {A} (x : str * A) : Prop := ~ In colon (fst x).
Definition moved_key {A B} (R : A -> B -> Prop) (x : str * A) (y : str * B) : Prop := fst y = g (fst x) /\ R (snd x) (snd y).
Lemma insert_key_mov {A B} (R : A -> B -> Prop) x y l l' : plain_key x -> Forall plain_key l -> moved_key R x y -> Forall2 (moved_key R) l l' ->
  Forall2 (moved_key R) (insert_key x l) (insert_key y l').
Proof.
  intros X P M F. induction F as [|a b l l' H F IH]; cbn [insert_key]; [constructor; [exact M|constructor]|]. inversion P; subst.
  rewrite (proj1 M), (proj1 H), Ho by assumption. destruct (str_leb (fst x) (fst a)); constructor; auto.
Qed.
Lemma insert_key_plain {A} (x : str * A) l : plain_key x -> Forall plain_key l -> Forall plain_key (insert_key x l).
Proof. intros X F. induction F as [|a l H F IH]; cbn; [repeat constructor; exact X|]. destruct (str_leb _ _); repeat constructor; auto. Qed.
Lemma sort_key_plain {A} (l : list (str * A)) : Forall plain_key l -> Forall plain_key (sort_key l).
Proof. induction 1; cbn; [constructor|]. apply insert_key_plain; assumption. Qed.
Lemma sort_key_mov {A B} (R : A -> B -> Prop) l l' : Forall plain_key l -> Forall2 (moved_key R) l l' -> Forall2 (moved_key R) (sort_key l) (sort_key l').
Proof. intros P F. induction F; cbn; [constructor|]. inversion P; subst. apply insert_key_mov; auto. apply sort_key_plain. assumption. Qed.
Lemma kids_mov {A B} (R : A -> B -> Prop) (h : account -> A) (h' : account -> B) cs : (forall c, In c cs -> ~ In colon (ac_name c)) -> (forall c, In c cs -> R (h c) (h' (racc c))) ->
  Forall2 (moved_key R) (sort_key (map (fun c => (ac_name c, h c)) cs)) (sort_key (map (fun c => (ac_name c, h' c)) (map racc cs))).
Proof.
  intros P H. apply sort_key_mov.
  - apply Forall_forall. intros x Hx. apply in_map_iff in Hx as (c & <- & Hc). exact (P c Hc).
  - clear P. induction cs as [|c cs IH]; cbn; constructor; [|apply IH; intros; apply H; right; assumption]. split; [apply name_mov|apply H; left; reflexivity].
Qed.
Lemma account_amount_mov xs refs : account_amount (map (xact_moved g) xs) refs = account_amount xs refs.
Proof.
  unfold account_amount. generalize bal_new. induction refs as [|r refs IH]; intros b; cbn [fold_outcome]; [reflexivity|].
  assert (E : get_post (map (xact_moved g) xs) r = option_map rp (get_post xs r)).
  { unfold get_post. rewrite nth_error_map. destruct (nth_error xs (fst r)); cbn; [apply nth_error_map|reflexivity]. }
  rewrite E. destruct (get_post xs r) as [p|]; cbn [option_map]; [|reflexivity]. cbn [po_amount post_moved]. destruct (po_amount p); [destruct (bal_add b a); cbn [bind]; auto|]. cbn [bind]. apply IH.
Qed.
Lemma total_mov xs : forall a, wf_tree a -> same_outcome eq (account_total xs a) (account_total (map (xact_moved g) xs) (racc a)).
Proof.
  apply (account_ind' (fun a => wf_tree a -> same_outcome eq (account_total xs a) (account_total (map (xact_moved g) xs) (racc a)))).
  intros n cs ps IH W. inversion W as [? ? ? _ W2 W3]; subst. cbn [account_total ac_children ac_posts account_moved]. rewrite account_amount_mov.
  eapply (same_outcome_bind eq).
  - eapply (fold_congr (moved_key (same_outcome eq)) eq); [apply kids_mov| |reflexivity].
    + exact W2.
    + intros c Hc. apply IH; [exact Hc|]. apply W3, Hc.
    + intros t _ s s' <- [_ S]. eapply (same_outcome_bind eq); [exact S|]. intros b _ <-. apply same_outcome_refl. reflexivity.
  - intros t _ <-. apply same_outcome_refl. reflexivity.
Qed.
Lemma removelast_map (p : path) : removelast (map g p) = map g (removelast p).
Proof. induction p as [|a [|b p] IH]; try reflexivity. cbn [map removelast] in *. rewrite <- IH. reflexivity. Qed.
Lemma join_mov l : join (map g l) = g (join l).
Proof. induction l as [|a [|b l] IH]; [symmetry; apply Hg|reflexivity|]. cbn [map join] in *. rewrite IH. symmetry. apply Hg. Qed.
Lemma shown_mov p : fullname (map g p) = g (fullname p).
Proof.
  rewrite !EndProofs.shown_fullname. unfold shown_name. destruct p as [|n p]; [symmetry; apply Hg|]. set (q := n :: p). change (map g q) with (g n :: map g p) at 1. cbv iota.
  rewrite removelast_map.
  assert (L : last (map g q) [] = g (last q [])).
  { clearbody q. clear - Hg. induction q as [|a [|b q] IH]; [symmetry; apply Hg|reflexivity|exact IH]. }
  rewrite L. assert (F : filter (fun n => negb (is_empty n)) (map g (removelast q)) = map g (filter (fun n => negb (is_empty n)) (removelast q))).
  { induction (removelast q) as [|a l IH]; [reflexivity|]. cbn [map filter]. assert (E := g_empty a). destruct a as [|c a].
    - rewrite (proj2 E eq_refl). exact IH.
    - destruct (g (c :: a)) eqn:Eg; [apply (proj1 (g_empty _)) in Eg; discriminate|]. cbn [is_empty negb map]. rewrite IH, Eg. reflexivity. }
  rewrite F. change [g (last q [])] with (map g [last q []]). rewrite <- map_app. apply join_mov.
Qed.
Lemma lines_mov xs : forall a, wf_tree a -> forall p, same_outcome (Forall2 (shown_moved g)) (children_lines xs p a) (children_lines (map (xact_moved g) xs) (map g p) (racc a)).
Proof.
  apply (account_ind' (fun a => wf_tree a -> forall p, same_outcome (Forall2 (shown_moved g)) (children_lines xs p a) (children_lines (map (xact_moved g) xs) (map g p) (racc a)))).
  intros n cs ps IH W p. assert (T := total_mov xs _ W). inversion W as [? ? ? _ W2 W3]; subst. cbn [children_lines ac_children account_moved].
  eapply (same_outcome_bind eq); [exact T|]. intros b _ <-.
  eapply (fold_congr (moved_key (same_outcome (Forall2 (shown_moved g))))).
  - apply (kids_mov (same_outcome (Forall2 (shown_moved g))) (fun c => children_lines xs (p ++ [ac_name c]) c) (fun c => children_lines (map (xact_moved g) xs) (map g p ++ [ac_name c]) c)); [exact W2|].
    intros c Hc. rewrite name_mov. change [g (ac_name c)] with (map g [ac_name c]). rewrite <- map_app. apply IH; [exact Hc|]. apply W3, Hc.
  - intros t t' s s' Tt [_ S]. eapply same_outcome_bind; [exact S|]. intros l l' L. apply app_rel; assumption.
  - constructor; [|constructor]. exists (fullname p), b. unfold account_line. rewrite !text_shown, shown_mov. auto.
Qed.
Lemma flatten_mov : forall a, wf_tree a -> map ac_name (flatten (racc a)) = map g (map ac_name (flatten a)).
Proof.
  apply (account_ind' (fun a => wf_tree a -> map ac_name (flatten (racc a)) = map g (map ac_name (flatten a)))).
  intros n cs ps IH W. inversion W as [? ? ? _ W2 W3]; subst. cbn [flatten ac_children account_moved map ac_name]. f_equal.
  assert (F := kids_mov (fun x y => map ac_name y = map g (map ac_name x)) flatten flatten cs W2 (fun c Hc => IH c Hc (W3 c Hc))).
  cbv beta in F. induction F as [|x y l l' [_ H] F IH']; [reflexivity|]. cbn [map concat]. rewrite !map_app, H. f_equal. exact IH'.
Qed.
Theorem report_mov j : wf_tree (j_master j) -> same_outcome (Forall2 (shown_moved g)) (balance_report j) (balance_report (rj j)) /\ report_accounts (rj j) = map g (report_accounts j).
Proof. intros W. split; [exact (lines_mov (j_xacts j) _ W [])|exact (flatten_mov _ W)]. Qed.
Lemma names_plain : forall a, wf_tree a -> ~ In colon (ac_name a) -> Forall (fun s => ~ In colon s) (map ac_name (flatten a)).
Proof.
  apply (account_ind' (fun a => wf_tree a -> ~ In colon (ac_name a) -> Forall (fun s => ~ In colon s) (map ac_name (flatten a)))).
  intros n cs ps IH W N. inversion W as [? ? ? _ W2 W3]; subst. cbn [flatten ac_children map ac_name]. constructor; [exact N|].
  assert (K : Forall (fun x : str * list account => Forall (fun s => ~ In colon s) (map ac_name (snd x))) (sort_key (map (fun c => (ac_name c, flatten c)) cs))).
  { apply Forall_forall. intros x Hx. assert (P := BaseFacts.sort_key_perm (map (fun c => (ac_name c, flatten c)) cs)).
    apply (Permutation.Permutation_in _ (Permutation.Permutation_sym P)) in Hx. apply in_map_iff in Hx as (c & <- & Hc). cbn [snd]. apply IH; auto. }
  induction K as [|x l H K IH']; [constructor|]. cbn [map concat]. rewrite map_app. apply Forall_app. split; assumption.
Qed.
Lemma sort_strings_mov l : Forall (fun s => ~ In colon s) l -> sort_strings (map g l) = map g (sort_strings l).
Proof.
  intros P. unfold sort_strings. assert (F : Forall2 (moved_key eq) (sort_key (map (fun s => (s, tt)) l)) (sort_key (map (fun s => (s, tt)) (map g l)))).
  { apply sort_key_mov.
    - apply Forall_forall. intros x Hx. apply in_map_iff in Hx as (c & <- & Hc). rewrite Forall_forall in P. exact (P c Hc).
    - clear P. induction l; cbn; constructor; [split; reflexivity|assumption]. }
  assert (G : forall a b : list (str * unit), Forall2 (moved_key eq) a b -> map fst b = map g (map fst a)).
  { induction 1 as [|x y a b [H _] K IH]; [reflexivity|]. cbn [map]. rewrite H, IH. reflexivity. }
  exact (G _ _ F).
Qed.
(** A run shows the other names. *)
Theorem run_mov depth cwd fs fs' args : files_moved g fs fs' ->
  same_outcome (fun out out' => out' = map g out \/ Forall2 (shown_moved g) out out') (run depth cwd fs args) (run depth cwd fs' args).
Proof.
  intros F. unfold run. eq_step. intros [commands files] _ <-. unfold execute_command. eq_step. intros verb _ <-.
  assert (Fi := files_mov depth cwd fs fs' files F). destruct (read_journal_files depth cwd fs files) as [j|p|] eqn:E, (read_journal_files depth cwd fs' files) as [j'|p'|]; cbn in Fi; try contradiction; [|exact Fi|exact I].
  unfold img in Fi. subst j'. cbn [bind].
  assert (R : reachable_journal j).
  { revert E. unfold read_journal_files. generalize journal_new rj_new. induction files as [|x l IH]; intros j0 R E; cbn in E; [injection E as <-; exact R|].
    inv_bind E. eapply IH; [|exact E]. unfold parse_file in EQ. destruct (fs _); [|discriminate]. eapply rj_read; eassumption. }
  assert (W := JournalFacts.i_tree _ _ (JournalFacts.reachable_inv _ R)). destruct (report_mov j W) as [B A].
  assert (N : ac_name (j_master j) = []) by (apply ReportProofs.master_name, R).
  assert (BB : same_outcome (fun out out' => out' = map g out \/ Forall2 (shown_moved g) out out') (balance_report j) (balance_report (rj j))).
  { destruct (balance_report j), (balance_report (rj j)); cbn in *; auto; contradiction. }
  assert (AA : sort_strings (report_accounts (rj j)) = map g (sort_strings (report_accounts j))).
  { rewrite A. apply sort_strings_mov, names_plain; [exact W|]. rewrite N. intros []. }
  destruct verb as [|c v]; [reflexivity|].
  destruct (N.eq_dec c 97) as [->|N97]; [left; exact AA|]. destruct (N.eq_dec c 98) as [->|N98]; [destruct (_ || _); [exact BB|reflexivity]|].
  destruct c as [|c]; [reflexivity|]. do 7 (destruct c as [c|c|]; try reflexivity; try (exfalso; congruence)).
Qed.
End Moving.
