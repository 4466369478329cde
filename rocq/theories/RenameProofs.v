(** Other names of the commodities: the same journal with the other names. *)
From Coq Require Import String List NArith ZArith Bool Lia.
From Verif Require Import Base Decimal Dates Amount Balance Scanner History Pool Account Journal Xact Parser Report Options Lib.
From Verif Require Import SpecText SpecReading SpecScan SpecOutline SpecLine SpecEnd SpecValue SpecSpelling SpecRename.
From Verif Require Import BaseFacts ScanFacts ReportFacts ValueProofs SpellingProofs LineReadProofs AsideProofs.
From Verif Require ReadingFacts LinesProofs OutlineProofs.
Import ListNotations.
Open Scope nat_scope.

Definition img {A B} (g : A -> B) (x : A) (y : B) : Prop := y = g x.
Tactic Notation "img_step" constr(g) := eapply (same_outcome_bind (img g)).

Section Renaming.
Context (f : str -> str) (Hf : renaming f).
Notation rc := (option_map f).
Notation ra := (amount_renamed f).
Notation rp := (post_renamed f).
Notation rpool := (pool_renamed f).
Notation rj := (journal_renamed f).

Lemma str_ren s t : str_eqb (f s) (f t) = str_eqb s t.
Proof.
  destruct (str_eqb s t) eqn:E; [apply str_eqb_eq in E; subst; apply str_eqb_refl|].
  destruct (str_eqb (f s) (f t)) eqn:E'; [|reflexivity]. apply str_eqb_eq, Hf in E'. subst. rewrite str_eqb_refl in E. discriminate.
Qed.
Lemma comm_ren a b : comm_eqb (rc a) (rc b) = comm_eqb a b.
Proof. destruct a, b; cbn; try reflexivity. apply str_ren. Qed.
Lemma comm_or_ren a b : comm_or (rc a) (rc b) = rc (comm_or a b).
Proof. destruct a; reflexivity. Qed.

(** ** Amounts and balances *)
Lemma add_ren a b : same_outcome (img ra) (amt_add a b) (amt_add (ra a) (ra b)).
Proof.
  unfold amt_add. cbn [a_q a_c amount_renamed]. rewrite comm_ren. destruct (comm_eqb _ _); [|reflexivity]. destruct (d_is_zero _); [reflexivity|]. eq_step. intros q _ <-. reflexivity.
Qed.
Lemma minus_ren a b : same_outcome (img ra) (amt_minus a b) (amt_minus (ra a) (ra b)).
Proof. unfold amt_minus. cbn [a_q a_c amount_renamed]. rewrite comm_ren. destruct (comm_eqb _ _); [|reflexivity]. eq_step. intros q _ <-. reflexivity. Qed.
Lemma mul_ren a b : same_outcome (img ra) (amt_mul a b) (amt_mul (ra a) (ra b)).
Proof. unfold amt_mul. cbn [a_q a_c amount_renamed]. eq_step. intros q _ <-. rewrite comm_or_ren. reflexivity. Qed.
Lemma div_ren a b : same_outcome (img ra) (amt_div a b) (amt_div (ra a) (ra b)).
Proof. unfold amt_div. cbn [a_q a_c amount_renamed]. eq_step. intros q _ <-. rewrite comm_or_ren. reflexivity. Qed.
Lemma bal_add_ren a b : same_outcome (img (map ra)) (bal_add b a) (bal_add (map ra b) (ra a)).
Proof.
  induction b as [|x b IH]; [reflexivity|]. cbn [bal_add map]. cbn [a_c amount_renamed]. rewrite comm_ren. destruct (comm_eqb _ _).
  - img_step ra; [apply add_ren|]. intros y _ ->. reflexivity.
  - img_step (map ra); [apply IH|]. intros y _ ->. reflexivity.
Qed.
Lemma bal_sub_ren a b : same_outcome (img (map ra)) (bal_sub b a) (bal_sub (map ra b) (ra a)).
Proof.
  induction b as [|x b IH]; [reflexivity|]. cbn [bal_sub map]. cbn [a_c amount_renamed]. rewrite comm_ren. destruct (comm_eqb _ _).
  - img_step ra; [apply minus_ren|]. intros y _ ->. reflexivity.
  - img_step (map ra); [apply IH|]. intros y _ ->. reflexivity.
Qed.
Lemma bal_add_bal_ren o : forall b, same_outcome (img (map ra)) (bal_add_bal b o) (bal_add_bal (map ra b) (map ra o)).
Proof.
  unfold bal_add_bal. induction o as [|x o IH]; intros b; cbn [fold_outcome map]; [reflexivity|].
  img_step (map ra); [apply bal_add_ren|]. intros y _ ->. apply IH.
Qed.

(** ** The pool *)
Lemma lookup_ren {A} (g : A -> A) k m : lookup (f k) (map (entry_renamed f g) m) = option_map g (lookup k m).
Proof. induction m as [|[k' a] m IH]; [reflexivity|]. cbn. rewrite str_ren. destruct (str_eqb k k'); [reflexivity|exact IH]. Qed.
Lemma insert_ren {A} (g : A -> A) k a m : insert (f k) (g a) (map (entry_renamed f g) m) = map (entry_renamed f g) (insert k a m).
Proof. induction m as [|[k' a'] m IH]; [reflexivity|]. cbn. rewrite str_ren. destruct (str_eqb k k'); cbn; [reflexivity|]. rewrite IH. reflexivity. Qed.
Lemma create_ren p s an : pool_create (rpool p) (f s) (option_map (annotation_renamed f) an) = rpool (pool_create p s an).
Proof.
  unfold pool_create, add_commodity, pool_renamed. cbn. rewrite map_app, map_length, <- insert_ren. f_equal.
  - f_equal. unfold commodity_renamed. cbn. destruct an; reflexivity.
  - destruct an; cbn; [apply insert_ren|reflexivity].
Qed.
Lemma found_eq p s an : s <> [] -> pool_find_or_create p s an =
  match pool_find p s with
  | Some _ => match an with
      | Some a => match lookup s (p_ann p) with Some _ => (p, Some s) | None => (mkPool (p_comms p) (insert s a (p_ann p)) (p_hist p), Some s) end
      | None => (p, Some s) end
  | None => (pool_create p s an, Some s) end.
Proof. intros N. destruct s; [contradiction|]. unfold pool_find_or_create. destruct (pool_find p _), an; reflexivity. Qed.
Lemma found_ren p s an : pool_find_or_create (rpool p) (f s) (option_map (annotation_renamed f) an) = (rpool (fst (pool_find_or_create p s an)), rc (snd (pool_find_or_create p s an))).
Proof.
  destruct s as [|c0 s0]; [rewrite (proj2 Hf); reflexivity|]. set (s := c0 :: s0).
  assert (Ne : f s <> []). { intros E. rewrite <- (proj2 Hf) in E. apply Hf in E. discriminate. }
  rewrite (found_eq _ _ _ Ne), (found_eq p s an) by discriminate.
  rewrite create_ren. unfold pool_find. cbn [p_comms p_ann p_hist pool_renamed]. rewrite !lookup_ren.
  destruct (lookup s (p_comms p)); cbn [option_map]; [|reflexivity]. destruct an as [a|]; cbn [option_map]; [|reflexivity].
  destruct (lookup s (p_ann p)); cbn [option_map]; [reflexivity|]. cbn [fst snd]. rewrite insert_ren. reflexivity.
Qed.
Lemma deref_ren p c : same_outcome (img (commodity_renamed f)) (deref p c) (deref (rpool p) (rc c)).
Proof.
  unfold deref. destruct c as [s|]; [|reflexivity]. cbn [option_map]. unfold pool_find. cbn [p_comms pool_renamed]. rewrite lookup_ren. destruct (lookup s (p_comms p)); reflexivity.
Qed.
Lemma add_price_ren p c w a : same_outcome (img rpool) (pool_add_price p c w a) (pool_add_price (rpool p) (rc c) w (ra a)).
Proof.
  unfold pool_add_price. img_step (commodity_renamed f); [apply deref_ren|]. intros x _ ->.
  change (Some (c_symbol (commodity_renamed f x))) with (rc (Some (c_symbol x))). cbn [a_c a_q amount_renamed]. rewrite comm_ren.
  destruct (comm_eqb _ _); [reflexivity|]. destruct (a_c a) as [t|]; [|reflexivity]. cbn [option_map]. img_step (commodity_renamed f); [apply (deref_ren p (Some t))|].
  intros y _ ->. reflexivity.
Qed.
Definition price_renamed (r : price) : price := mkPrice (rc (pr_commodity r)) (pr_when r) (ra (pr_price r)).
Definition rbd (x : breakdown * option price) : breakdown * option price :=
  (mkBd (ra (bd_amount (fst x))) (ra (bd_final_cost (fst x))) (ra (bd_basis_cost (fst x))), option_map price_renamed (snd x)).
Lemma index_ren p i : same_outcome (img (commodity_renamed f)) (pool_get_by_index p i) (pool_get_by_index (rpool p) i).
Proof.
  unfold pool_get_by_index, get_commodity. img_step f.
  - cbn. rewrite nth_error_map. destruct (nth_error _ i); reflexivity.
  - intros s _ ->. apply (deref_ren p (Some s)).
Qed.
Lemma exchange_ren p a c u w : same_outcome (img rbd) (exchange p a c u w) (exchange (rpool p) (ra a) (ra c) u w).
Proof.
  unfold exchange. img_step f.
  { cbn. destruct (a_c a); reflexivity. }
  intros s _ ->. img_step (commodity_renamed f); [apply (deref_ren p (Some s))|]. intros x _ ->.
  img_step (commodity_renamed f); [apply index_ren|]. intros y _ ->. cbn [c_symbol commodity_renamed p_ann pool_renamed]. rewrite lookup_ren.
  img_step ra.
  { change (amt_is_zero (ra a)) with (amt_is_zero a). destruct (u || amt_is_zero a); [reflexivity|]. img_step ra; [apply div_ren|]. intros q _ ->. reflexivity. }
  intros k _ ->. img_step ra.
  { destruct u; [|reflexivity]. change (amt_abs (ra a)) with (ra (amt_abs a)). apply mul_ren. }
  intros fc _ ->. img_step ra.
  { destruct (lookup _ (p_ann p)) as [n|]; cbn [option_map]; [|reflexivity]. cbn [an_price annotation_renamed]. destruct (an_price n) as [ap|]; cbn [option_map]; [apply mul_ren|reflexivity]. }
  intros b _ ->. unfold img, rbd. cbn [same_outcome fst snd bd_amount bd_final_cost bd_basis_cost]. f_equal.
  assert (K : match a_c (ra c) with Some _ => ra k | None => amt_remove_commodity (ra k) end = ra (match a_c c with Some _ => k | None => amt_remove_commodity k end)).
  { cbn. destruct (a_c c); reflexivity. }
  rewrite K. set (z := match a_c c with Some _ => k | None => amt_remove_commodity k end). change (amt_is_zero (ra z)) with (amt_is_zero z). cbn [a_c amount_renamed]. rewrite comm_ren.
  destruct (_ && _); reflexivity.
Qed.

(** ** Transactions *)
Lemma value_ren p : post_value (rp p) = option_map ra (post_value p).
Proof. unfold post_value. cbn. destruct (po_cost p); reflexivity. Qed.
Lemma sum_ren ps : forall i b n, same_outcome (img (fun x => (map ra (fst x), snd x))) (sum_posts ps i b n) (sum_posts (map rp ps) i (map ra b) n).
Proof.
  induction ps as [|p ps IH]; intros i b n; cbn [sum_posts map]; [reflexivity|]. rewrite value_ren. destruct (post_value p) as [a|]; cbn [option_map].
  - img_step (map ra); [apply bal_add_ren|]. intros b' _ ->. apply IH.
  - destruct n; [reflexivity|apply IH].
Qed.
Lemma top_ren ps : top_amount (map rp ps) = option_map ra (top_amount ps).
Proof. induction ps as [|p ps IH]; [reflexivity|]. cbn. destruct (po_amount p); [reflexivity|exact IH]. Qed.
Definition rpb (x : list post * balance) := (map rp (fst x), map ra (snd x)).
Lemma cost_loop_ren c u ps : forall b, same_outcome (img rpb) (cost_loop c u ps b) (cost_loop (rc c) (ra u) (map rp ps) (map ra b)).
Proof.
  induction ps as [|p ps IH]; intros b; cbn [cost_loop map]; [reflexivity|]. img_step ra.
  { cbn. destruct (po_amount p); reflexivity. }
  intros a _ ->. cbn [a_c amount_renamed]. rewrite comm_ren. img_step (fun x : post * balance => (rp (fst x), map ra (snd x))).
  - destruct (comm_eqb _ _); [|reflexivity]. img_step (map ra); [apply bal_sub_ren|]. intros b1 _ ->. img_step ra; [apply mul_ren|]. intros k _ ->.
    img_step (map ra); [apply bal_add_ren|]. intros b2 _ ->. reflexivity.
  - intros [q b1] _ ->. img_step rpb; [apply IH|]. intros [r b2] _ ->. reflexivity.
Qed.
Lemma infer_ren ps b : same_outcome (img rpb) (infer_costs ps b) (infer_costs (map rp ps) (map ra b)).
Proof.
  unfold infer_costs. destruct b as [|x [|y [|z b]]]; try reflexivity. cbn [map]. rewrite top_ren. destruct (top_amount ps) as [t|]; [|reflexivity]. cbn [option_map].
  change (amt_is_zero (ra x)) with (amt_is_zero x). change (amt_is_zero (ra y)) with (amt_is_zero y). cbn [a_c amount_renamed]. rewrite comm_ren.
  destruct (_ && _); [|reflexivity].
  destruct (negb (comm_eqb (a_c x) (a_c t))); (img_step ra; [apply div_ren|]); intros r _ ->; change (amt_abs (ra r)) with (ra (amt_abs r)); apply (cost_loop_ren _ _ ps [x; y]).
Qed.
Definition rpp (x : pool * list post) := (rpool (fst x), map rp (snd x)).
Lemma price_loop_ren d ps : forall p, same_outcome (img rpp) (price_loop d p ps) (price_loop d (rpool p) (map rp ps)).
Proof.
  induction ps as [|q ps IH]; intros p; cbn [price_loop map]; [reflexivity|]. img_step (fun x : pool * post => (rpool (fst x), rp (snd x))).
  - cbn [po_cost po_amount post_renamed]. destruct (po_cost q) as [c|] eqn:Ec; cbn [option_map]; [|reflexivity].
    destruct (po_amount q) as [a|] eqn:Ea; cbn [option_map]; [|reflexivity]. cbn [a_c amount_renamed]. rewrite comm_ren. destruct (comm_eqb _ _); [reflexivity|].
    eq_step. intros dd _ <-. img_step rbd; [apply exchange_ren|]. intros [bd np] _ ->. img_step rpool.
    + destruct np as [r|]; [|reflexivity]. cbn. apply add_price_ren.
    + intros p1 _ ->. unfold img. cbn. unfold post_renamed, set_amount. cbn. rewrite Ec. reflexivity.
  - intros [p1 r] _ ->. img_step rpp; [apply IH|]. intros [p2 s] _ ->. reflexivity.
Qed.
Lemma update_map {A B} (g : A -> B) h h' n l : (forall x, h' (g x) = g (h x)) -> update_nth n h' (map g l) = map g (update_nth n h l).
Proof. intros E. revert n. induction l as [|x l IH]; intros [|n]; cbn; try reflexivity; [rewrite E|rewrite IH]; reflexivity. Qed.
Lemma finalize_posts_ren d p ps : same_outcome (img rpp) (finalize_posts d p ps) (finalize_posts d (rpool p) (map rp ps)).
Proof.
  unfold finalize_posts. img_step (fun x : balance * option nat => (map ra (fst x), snd x)); [apply (sum_ren ps 0 bal_new None)|]. intros [b n] _ ->. rewrite map_length.
  destruct (length ps =? 1); [reflexivity|]. img_step rpb.
  { destruct n; [reflexivity|]. apply infer_ren. }
  intros [ps1 b1] _ ->. img_step rpp; [apply price_loop_ren|]. intros [p2 ps2] _ ->. cbn [fst snd]. destruct n as [i|]; [|reflexivity].
  unfold rpb, rpp. cbn [fst snd]. destruct b1 as [|x [|? ?]]; try reflexivity. cbn [map]. unfold img. cbn [same_outcome fst snd]. f_equal. apply update_map. intros q. reflexivity.
Qed.
Lemma finalize_ren j xi : same_outcome (img rj) (finalize j xi) (finalize (rj j) xi).
Proof.
  unfold finalize. cbn [j_xacts journal_renamed]. rewrite nth_error_map. destruct (nth_error (j_xacts j) xi) as [x|]; [|reflexivity]. cbn [option_map].
  img_step rpp; [apply finalize_posts_ren|]. intros [p ps] _ ->. unfold img, journal_renamed. cbn. f_equal. apply update_map. intros y. reflexivity.
Qed.

(** ** The parser *)
Lemma parts_ren p q s : parse_amount_parts (rpool p) q (f s) = (rpool (fst (parse_amount_parts p q s)), option_map ra (snd (parse_amount_parts p q s))).
Proof.
  unfold parse_amount_parts. assert (F := found_ren p s None). cbn [option_map] in F. rewrite F. destruct (pool_find_or_create p s None) as [p1 c]. cbn [fst snd].
  f_equal. destruct (d_from_str q); reflexivity.
Qed.
Definition rpa (x : pool * option amount) := (rpool (fst x), option_map ra (snd x)).
Lemma cost_ren p t a : same_outcome (img rpa) (parse_cost p t a) (parse_cost (rpool p) (parts_renamed f t) (option_map ra a)).
Proof.
  unfold parse_cost. destruct a as [a|]; [|reflexivity]. cbn [option_map t_cost_quantity t_cost_symbol t_is_per_unit parts_renamed]. destruct (is_empty _); [reflexivity|].
  rewrite parts_ren. destruct (parse_amount_parts p _ _) as [p1 c]. cbn [fst snd]. destruct c as [c|]; cbn [option_map]; [|reflexivity].
  destruct (t_is_per_unit t); [|reflexivity]. img_step ra; [apply mul_ren|]. intros x _ ->. reflexivity.
Qed.
Lemma annotation_ren p d q s : same_outcome (img (fun x => (rpool (fst x), annotation_renamed f (snd x)))) (annotation_parse p d q s) (annotation_parse (rpool p) d q (f s)).
Proof.
  unfold annotation_parse. assert (F := found_ren p s None). cbn [option_map] in F. rewrite F. destruct (pool_find_or_create p s None) as [p1 c]. cbn [fst snd].
  eq_step. intros x _ <-. unfold img, annotation_renamed. cbn. f_equal. f_equal. destruct (d_from_str q); reflexivity.
Qed.
Lemma parse_post_ren j xi l l' t : scan_post l = Ok t -> scan_post l' = Ok (parts_renamed f t) -> same_outcome (img rj) (parse_post j xi l) (parse_post (rj j) xi l').
Proof.
  intros S S'. unfold parse_post. rewrite S, S'. cbn [bind]. cbn [t_account t_quantity t_symbol t_price_quantity t_price_commodity t_price_date parts_renamed j_master j_pool j_xacts journal_renamed].
  eq_step. intros [m1 acct] _ <-. rewrite parts_ren. destruct (parse_amount_parts (j_pool j) _ _) as [p1 a]. cbn [fst snd].
  img_step (fun x : pool * annotation => (rpool (fst x), annotation_renamed f (snd x))); [apply annotation_ren|]. intros [p2 an] _ ->. cbn [fst snd].
  assert (F := found_ren p2 (t_symbol t) (Some an)). cbn [option_map] in F. rewrite F. destruct (pool_find_or_create p2 _ _) as [p3 c]. cbn [fst snd].
  img_step rpa; [apply cost_ren|]. intros [p4 co] _ ->. cbn [fst snd rpa]. rewrite nth_error_map. destruct (nth_error (j_xacts j) xi) as [x|]; cbn [option_map]; [|reflexivity].
  cbn [x_posts xact_renamed]. rewrite map_length. eq_step. intros m2 _ <-. unfold img, journal_renamed, add_post. cbn [same_outcome j_master j_pool j_xacts]. f_equal.
  apply update_map. intros y. unfold set_posts, xact_renamed. cbn. rewrite map_app. reflexivity.
Qed.
Lemma note_ren j xi l : same_outcome (img rj) (parse_trailing_note j xi l) (parse_trailing_note (rj j) xi l).
Proof.
  unfold parse_trailing_note. destruct (is_empty _); [reflexivity|]. unfold img, journal_renamed, set_xacts. cbn [same_outcome j_master j_pool j_xacts]. f_equal.
  apply update_map. intros x. destruct x as [d a pa no ps]. unfold xact_renamed, set_posts, xact_add_note. cbn. destruct ps as [|p ps]; [reflexivity|]. cbn [map]. cbv iota.
  change (rp p :: map rp ps) with (map rp (p :: ps)). rewrite map_length. rewrite (update_map rp (fun p => post_add_note p (trim (skipn 1 l)))); [reflexivity|]. intros q. reflexivity.
Qed.
Definition rnext (n : next) : next := match n with Continue m j => Continue m (rj j) | Stop j => Stop (rj j) end.
Lemma continue_ren m o o' : same_outcome (img rj) o o' -> same_outcome (img rnext) (let* j := o in Ok (Continue m j)) (let* j := o' in Ok (Continue m j)).
Proof. intros H. img_step rj; [exact H|]. intros j _ ->. reflexivity. Qed.
Definition inc_ren (inc inc' : str -> journal -> outcome journal) : Prop := forall arg j, same_outcome (img rj) (inc arg j) (inc' arg (rj j)).
Lemma price_directive_ren p l l' d tm s q t : price_read l d tm s q t -> price_read l' d tm (f s) q (f t) ->
  same_outcome (img rpool) (parse_price_directive p l) (parse_price_directive (rpool p) l').
Proof.
  intros R R'. apply price_iff in R, R'. unfold parse_price_directive. rewrite R, R'. cbn [bind]. eq_step. intros dd _ <-. eq_step. intros tt _ <-.
  assert (F := found_ren p s None). cbn [option_map] in F. rewrite F. destruct (pool_find_or_create p s None) as [p1 c]. cbn [fst snd]. eq_step. intros v _ <-.
  assert (F2 := found_ren p1 t None). cbn [option_map] in F2. rewrite F2. destruct (pool_find_or_create p1 t None) as [p2 c2]. cbn [fst snd].
  apply (add_price_ren p2 c _ (mkAmt v c2)).
Qed.
Lemma general_ren inc inc' j l : inc_ren inc inc' -> ~ read_as_price l -> same_outcome (img rj) (general_directive inc j l) (general_directive inc' (rj j) l).
Proof.
  intros I N. rewrite !ReadingFacts.general_eq. destruct (take_word l) as [x i] eqn:W. cbn [fst snd]. destruct x as [|c d]; [reflexivity|].
  destruct (c =? 97)%N; [reflexivity|]. destruct (N.eqb_spec c 105) as [->|]; [|reflexivity].
  apply ReadingFacts.take_word_inv in W as (v & W & V & F & G).
  destruct (str_eqb (105%N :: d) (lit "include")) eqn:S1; [destruct (fst (take_word i)); [reflexivity|apply I]|].
  destruct (str_eqb (105%N :: d) (lit "import")) eqn:S2; [reflexivity|]. exfalso. apply N.
  exists v, (105%N :: d), i. split; [exact W|]. split; [exact V|]. split; [split; [discriminate|exact F]|]. split; [exact G|]. split; [reflexivity|].
  split; intros E; rewrite E in *; rewrite str_eqb_refl in *; discriminate.
Qed.
Lemma blank_trim l : spaces l -> trim_start l = [].
Proof. intros S. rewrite <- (app_nil_r l), trim_start_app by exact S. reflexivity. Qed.
Lemma blank_price l : spaces l -> ~ read_as_price l.
Proof.
  intros S (w & x & r & -> & _ & [Nx Wx] & _ & H & _). destruct x as [|c x]; [discriminate|]. cbn in H. subst c. unfold spaces in S. rewrite forallb_app in S.
  apply andb_prop in S as [_ S]. discriminate.
Qed.
Lemma step_ren inc inc' m j l l' : inc_ren inc inc' -> line_renamed f l l' -> same_outcome (img rnext) (step inc m j l) (step inc' m (rj j) l').
Proof.
  intros HI L. assert (Ln : length (j_xacts (rj j)) = length (j_xacts j)) by apply map_length.
  assert (Top : forall l, ~ read_as_price l -> same_outcome (img rnext) (top_line inc j l) (top_line inc' (rj j) l)).
  { clear l l' L. intros l N. unfold top_line. destruct (_ || _); [reflexivity|]. destruct l as [|c l]; [reflexivity|].
    destruct (_ || _); [reflexivity|]. destruct (c =? 45)%N; [reflexivity|]. destruct (is_digit c).
    { rewrite Ln. apply continue_ren. unfold create_xact. eq_step. intros [[[d aux] payee] note] _ <-.
      eapply (same_outcome_bind (fun x y => x = y /\ x_posts x = [])).
      - unfold xact_create. eq_step. intros dd _ <-. eq_step. intros aa _ <-. split; reflexivity.
      - intros x _ [<- E]. unfold img, journal_renamed, set_xacts. cbn. f_equal. rewrite map_app. f_equal. cbn. f_equal. destruct x; cbn in *. subst. reflexivity. }
    destruct (_ || _); [reflexivity|]. apply continue_ren, general_ren; assumption. }
  assert (Fi : forall xi, same_outcome (img rnext) (let* j0 := finalize j xi in Ok (Continue Parser.Top j0)) (let* j0 := finalize (rj j) xi in Ok (Continue Parser.Top j0))).
  { intros xi. apply continue_ren, finalize_ren. }
  assert (Bl : forall l xi, spaces l -> same_outcome (img rnext) (xact_line j xi l) (xact_line (rj j) xi l)).
  { clear l l' L. intros l xi S. unfold xact_line. destruct l as [|c l]; [reflexivity|]. rewrite (blank_trim _ S). specialize (Fi xi).
    destruct c as [|c]; [reflexivity|]. do 6 (destruct c as [c|c|]; try reflexivity; try exact Fi). }
  destruct L as [|l H N|l S|r K|r r' t P P'|l l' d tm s q t H H' R R' P P'].
  - destruct m as [|xi]; cbn [step]; [reflexivity|apply Fi].
  - destruct m as [|xi]; cbn [step]; [apply Top, N|]. unfold xact_line. destruct l as [|c l]; [reflexivity|]. cbn in H. specialize (Fi xi).
    destruct c as [|c]; [reflexivity|]. do 6 (destruct c as [c|c|]; try reflexivity; try exact Fi; try (exfalso; congruence)).
  - destruct m as [|xi]; cbn [step]; [apply Top, blank_price, S|apply Bl, S].
  - destruct m as [|xi]; cbn [step]; [reflexivity|]. unfold xact_line. destruct (note_marked _ K) as [x ->]. apply continue_ren, note_ren.
  - destruct m as [|xi]; cbn [step]; [reflexivity|]. destruct (xact_posting j xi _ _ P) as (l & S & ->). destruct (xact_posting (rj j) xi _ _ P') as (l' & S' & ->).
    apply continue_ren, (parse_post_ren _ _ _ _ t); assumption.
  - destruct m as [|xi]; cbn [step].
    + rewrite !top_price_line by assumption. apply continue_ren. img_step rpool; [apply (price_directive_ren _ _ _ _ _ _ _ _ P P')|]. intros p _ ->. reflexivity.
    + destruct l as [|c l]; [discriminate|]. destruct l' as [|c' l']; [discriminate|]. cbn in H, H'. subst. reflexivity.
Qed.
Lemma parse_lines_ren inc inc' l l' : inc_ren inc inc' -> source_renamed f l l' -> forall m j,
  same_outcome (img rj) (parse_lines inc m j l) (parse_lines inc' m (rj j) l').
Proof.
  intros In F. induction F as [|a b l l' H F IH]; intros m j; cbn [parse_lines].
  - destruct m; [reflexivity|apply finalize_ren].
  - img_step rnext; [apply step_ren; [exact In|exact H]|]. intros [m1 j1|j1] _ ->; [apply IH|reflexivity].
Qed.
Lemma include_ren fs fs' cwd : files_renamed f fs fs' -> forall depth, inc_ren (include_file depth cwd fs) (include_file depth cwd fs').
Proof.
  intros F. induction depth as [|d IH]; intros arg j; cbn [include_file]; [exact I|].
  eapply (same_outcome_bind (opt_rel (source_renamed f))).
  - unfold included. assert (G : same_outcome (opt_rel (source_renamed f)) (Ok (fs (resolve cwd arg))) (Ok (fs' (resolve cwd arg)))) by apply F.
    destruct (path_components (resolve cwd arg)) as [|a [|b l]]; [reflexivity| |exact G].
    destruct (resolve cwd arg) as [|c x]; [exact I|]. destruct c as [|c]; [exact I|]. do 6 (destruct c as [c|c|]; try exact I; try exact G).
  - intros o o' O. destruct o as [s|], o' as [s'|]; cbn in O; try contradiction; [|reflexivity]. apply parse_lines_ren; assumption.
Qed.
Theorem reading_ren depth cwd fs fs' src src' j : files_renamed f fs fs' -> source_renamed f src src' ->
  same_outcome (fun j1 j2 => j2 = rj j1) (read_into_journal depth cwd fs src j) (read_into_journal depth cwd fs' src' (rj j)).
Proof. intros F S. apply parse_lines_ren; [apply include_ren, F|exact S]. Qed.

(** ** The reports *)
Lemma post_at_ren xs r : get_post (map (xact_renamed f) xs) r = option_map rp (get_post xs r).
Proof. unfold get_post. rewrite nth_error_map. destruct (nth_error xs (fst r)); cbn; [apply nth_error_map|reflexivity]. Qed.
Lemma account_amount_ren xs refs : same_outcome (img (map ra)) (account_amount xs refs) (account_amount (map (xact_renamed f) xs) refs).
Proof.
  unfold account_amount. eapply (fold_congr eq (img (map ra))); [apply eq_rel| |reflexivity]. intros b _ r _ -> <-. rewrite post_at_ren.
  destruct (get_post xs r) as [p|]; cbn [option_map]; [|reflexivity]. cbn [po_amount post_renamed]. destruct (po_amount p); cbn [option_map]; [apply bal_add_ren|reflexivity].
Qed.
Lemma total_ren xs : forall a, same_outcome (img (map ra)) (account_total xs a) (account_total (map (xact_renamed f) xs) a).
Proof.
  apply account_ind'. intros n cs ps IH. cbn [account_total ac_children ac_posts].
  img_step (map ra).
  - eapply (fold_congr (same_keyed (same_outcome (img (map ra)))) (img (map ra))); [apply sort_key_rel, map_rel| |reflexivity].
    + intros c Hc. split; [reflexivity|exact (IH c Hc)].
    + intros t _ s s' -> [_ S]. img_step (map ra); [exact S|]. intros b _ ->. apply bal_add_bal_ren.
  - intros t _ ->. img_step (map ra); [apply account_amount_ren|]. intros b _ ->. apply bal_add_bal_ren.
Qed.
Lemma lines_ren xs : forall a p, same_outcome (Forall2 (shown_renamed f)) (children_lines xs p a) (children_lines (map (xact_renamed f) xs) p a).
Proof.
  apply (account_ind' (fun a => forall p, same_outcome (Forall2 (shown_renamed f)) (children_lines xs p a) (children_lines (map (xact_renamed f) xs) p a))).
  intros n cs ps IH p. cbn [children_lines ac_children].
  img_step (map ra); [apply total_ren|]. intros b _ ->.
  eapply (fold_congr (same_keyed (same_outcome (Forall2 (shown_renamed f))))); [apply sort_key_rel, map_rel| |].
  - intros c Hc. split; [reflexivity|exact (IH c Hc _)].
  - intros t t' s s' T [_ S]. eapply same_outcome_bind; [exact S|]. intros l l' L. apply app_rel; assumption.
  - constructor; [|constructor]. exists (fullname p), b. unfold account_line. rewrite !text_shown. auto.
Qed.
Theorem report_ren j : same_outcome (Forall2 (shown_renamed f)) (balance_report j) (balance_report (rj j)) /\ report_accounts (rj j) = report_accounts j.
Proof. split; [apply lines_ren|reflexivity]. Qed.
Lemma files_ren depth cwd fs fs' files : files_renamed f fs fs' -> same_outcome (img rj) (read_journal_files depth cwd fs files) (read_journal_files depth cwd fs' files).
Proof.
  intros F. unfold read_journal_files. eapply (fold_congr eq (img rj)); [apply eq_rel| |reflexivity]. intros j _ x _ -> <-. unfold parse_file. assert (S := F x).
  destruct (fs x), (fs' x); cbn in S; try contradiction; [|reflexivity]. apply reading_ren; assumption.
Qed.
Theorem run_ren depth cwd fs fs' args : files_renamed f fs fs' ->
  same_outcome (fun out out' => out = out' \/ Forall2 (shown_renamed f) out out') (run depth cwd fs args) (run depth cwd fs' args).
Proof.
  intros F. unfold run. eq_step. intros [commands files] _ <-. unfold execute_command. eq_step. intros verb _ <-.
  img_step rj; [apply files_ren, F|]. intros j _ ->. destruct (report_ren j) as [R A].
  assert (RR : same_outcome (fun out out' => out = out' \/ Forall2 (shown_renamed f) out out') (balance_report j) (balance_report (rj j))).
  { destruct (balance_report j), (balance_report (rj j)); cbn in *; auto; contradiction. }
  rewrite A. destruct verb as [|c v]; [reflexivity|].
  destruct (N.eq_dec c 97) as [->|N97]; [left; reflexivity|]. destruct (N.eq_dec c 98) as [->|N98]; [destruct (_ || _); [exact RR|reflexivity]|].
  destruct c as [|c]; [reflexivity|]. do 7 (destruct c as [c|c|]; try reflexivity; try (exfalso; congruence)).
Qed.

(** ** Prices *)
Theorem price_ren astar p s t now moment oldest : blind_to_names astar ->
  same_outcome (fun x y => y = option_map (fun v => (fst v, ra (snd v))) x)
    (pool_find_price astar p s t now moment oldest) (pool_find_price astar (rpool p) (rc s) (rc t) now moment oldest).
Proof.
  intros K. unfold pool_find_price. rewrite comm_ren. destruct (comm_eqb s t); [reflexivity|].
  img_step (commodity_renamed f); [apply deref_ren|]. intros cs _ ->. img_step (commodity_renamed f); [apply deref_ren|]. intros ct _ ->.
  unfold find_price. cbn [p_hist pool_renamed c_index c_symbol commodity_renamed].
  rewrite <- (K (p_hist p) (mkGraph (map f (g_nodes (p_hist p))) (g_edges (p_hist p)))) by (cbn; rewrite ?map_length; reflexivity).
  destruct (astar (p_hist p) (c_index cs) (c_index ct)) as [[n path]|]; [|reflexivity].
  set (g := p_hist p). set (g' := mkGraph (map f (g_nodes g)) (g_edges g)).
  assert (R : forall path s least r, rate_loop g' s path least r = rate_loop g s path least r).
  { induction path0 as [|x path0 IH]; intros; cbn [rate_loop]; [reflexivity|]. change (get_direct_price g' s0 x) with (get_direct_price g s0 x). destruct (x =? s0); [apply IH|].
    destruct (get_direct_price g s0 x) as [[a b]|]; [|reflexivity]. cbn [bind unwrap]. destruct (d_mul r b); [cbn [bind]; apply IH|reflexivity|reflexivity]. }
  unfold calculate_rate. rewrite R. change (get_direct_price g' (c_index cs) (c_index ct)) with (get_direct_price g (c_index cs) (c_index ct)).
  eq_step. intros [d q] _ <-. reflexivity.
Qed.
End Renaming.
Lemma bfs_blind : blind_to_names bfs.
Proof.
  intros g g' _ E a b.
  assert (X : bfs (mkGraph [] (g_edges g)) a b = bfs (mkGraph [] (g_edges g')) a b) by (rewrite E; reflexivity).
  assert (S : forall g, bfs g a b = bfs (mkGraph [] (g_edges g)) a b).
  { clear. intros g. unfold bfs. cbn [g_edges].
    assert (X : forall fr seen, bfs_expand g fr seen = bfs_expand (mkGraph [] (g_edges g)) fr seen).
    { induction fr as [|p fr IH]; intros seen; cbn [bfs_expand]; [reflexivity|]. destruct p; rewrite IH; reflexivity. }
    assert (Y : forall n fr seen, bfs_loop n g b fr seen = bfs_loop n (mkGraph [] (g_edges g)) b fr seen).
    { induction n as [|n IH]; intros fr seen; cbn [bfs_loop]; [reflexivity|]. rewrite X. destruct (bfs_expand _ _ _). rewrite IH. reflexivity. }
    apply Y. }
  rewrite (S g), (S g'). exact X.
Qed.
