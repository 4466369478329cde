(** The program with pointers agrees with the one with names, as long as its behaviour is defined. *)
From Coq Require Import String List NArith ZArith Bool Lia.
From Verif Require Import Base BaseFacts Decimal Dates Amount Balance Scanner History Pool Account Journal Xact Parser Report Options Lib Memory Heap.
From Verif Require Import SpecHeap MemoryFacts ReportFacts.
Import ListNotations.
Open Scope nat_scope.

(** ** Agreement of outcomes *)
Definition agree {A B} (f : A -> B) (P : A -> Prop) (x : outcome A) (y : outcome B) : Prop :=
  match x with
  | Panic PNull => True
  | Ok a => y = Ok (f a) /\ P a
  | Panic p => y = Panic p
  | Diverge => y = Diverge
  end.
Lemma agree_bind {A B C D} (f : A -> B) (P : A -> Prop) (g : C -> D) Q x y k k' :
  agree f P x y -> (forall a, x = Ok a -> P a -> agree g Q (k a) (k' (f a))) -> agree g Q (bind x k) (bind y k').
Proof.
  intros H K. destruct x as [a|p|]; cbn [agree bind] in *.
  - destruct H as [-> H]. cbn [bind]. apply K; auto.
  - destruct p; try (rewrite H; reflexivity). exact I.
  - rewrite H. reflexivity.
Qed.
Lemma agree_weaken {A B} (f : A -> B) (P Q : A -> Prop) x y : (forall a, P a -> Q a) -> agree f P x y -> agree f Q x y.
Proof. intros W H. destruct x as [a|p|]; cbn [agree] in *; [|exact H|exact H]. destruct H; auto. Qed.
Lemma agree_same {A} (P : A -> Prop) (x : outcome A) : (forall a, x = Ok a -> P a) -> agree (fun a => a) P x x.
Proof. intros H. destruct x as [a|p|]; cbn [agree]; [auto|destruct p; auto|reflexivity]. Qed.
Lemma agree_ok {A B} (f : A -> B) (P : A -> Prop) a b : b = f a -> P a -> agree f P (Ok a) (Ok b).
Proof. intros -> H. split; auto. Qed.
Lemma agree_panic {A B} (f : A -> B) (P : A -> Prop) p : agree f P (Panic p) (Panic p).
Proof. destruct p; reflexivity || exact I. Qed.
(** A step that is only in the program with pointers. *)
Lemma agree_left {A C D} (g : C -> D) Q (x : outcome A) k y :
  x = Panic PNull \/ (exists a, x = Ok a) -> (forall a, x = Ok a -> agree g Q (k a) y) -> agree g Q (bind x k) y.
Proof. intros [->|(a & ->)] K; [exact I|]. cbn [bind]. apply K. reflexivity. Qed.
Lemma agree_unwrap {A B} (f : A -> B) (P : A -> Prop) o o' : o' = option_map f o -> (forall a, o = Some a -> P a) -> agree f P (unwrap o) (unwrap o').
Proof. intros -> H. destruct o as [a|]; cbn; [split; auto|reflexivity]. Qed.

Section Program.
Variable pol : policy.
Variable strict : bool.

(** ** Commodities *)
Definition keyed (p : hpool) : Prop := forall s c, lookup s (hp_comms p) = Some c -> c_symbol c = s.
Lemma commodity_cases p a : h_commodity p a = Panic PNull \/ exists c, h_commodity p a = Ok c.
Proof. destruct a; cbn [h_commodity]; try (left; reflexivity). destruct (_ =? _); [|left; reflexivity]. destruct (lookup _ _); eauto. Qed.
Lemma get_cases p o : h_get_commodity p o = Panic PNull \/ exists c, h_get_commodity p o = Ok c.
Proof. destruct o as [a|]; cbn [h_get_commodity]; [|eauto]. destruct (commodity_cases p a) as [->|(c & ->)]; cbn [bind]; eauto. Qed.
Lemma ref_cases p o : h_ref strict p o = Panic PNull \/ exists u, h_ref strict p o = Ok u.
Proof. destruct o as [a|]; cbn [h_ref]; [|destruct strict; eauto]. destruct (commodity_cases p a) as [->|(c & ->)]; cbn [bind]; eauto. Qed.
Lemma commodity_inv p a c : h_commodity p a = Ok c -> a = AComm (al_gen (hp_alloc p)) (symbol_of a) /\ lookup (symbol_of a) (hp_comms p) = Some c.
Proof.
  destruct a as [| | | |g s]; cbn [h_commodity]; try discriminate. destruct (Nat.eqb_spec g (al_gen (hp_alloc p))) as [->|]; [|discriminate].
  cbn [symbol_of]. destruct (lookup s (hp_comms p)) as [c'|] eqn:E; [|discriminate]. intros H. injection H as ->. split; [reflexivity|reflexivity].
Qed.
Lemma get_inv p o c : h_get_commodity p o = Ok c ->
  match o, c with
  | None, None => True
  | Some a, Some c => h_commodity p a = Ok c
  | _, _ => False
  end.
Proof.
  destruct o as [a|]; cbn [h_get_commodity]; [|intros H; injection H as <-; exact I].
  destruct (commodity_cases p a) as [->|(d & ->)]; cbn [bind]; [discriminate|]. intros H. injection H as <-. reflexivity.
Qed.
Lemma get_symbol p o c : keyed p -> h_get_commodity p o = Ok c -> option_map c_symbol c = option_map symbol_of o.
Proof.
  intros K H. apply get_inv in H. destruct o as [a|], c as [c|]; try contradiction; [|reflexivity].
  apply commodity_inv in H as [_ H]. cbn. f_equal. apply K, H.
Qed.
Lemma commodity_eqb_refl c : commodity_eqb c c = true.
Proof. unfold commodity_eqb. rewrite str_eqb_refl, Nat.eqb_refl, eqb_reflx. reflexivity. Qed.
(** Comparing the commodities is comparing the symbols, and equal commodities are at equal addresses. *)
Lemma get_eqb p a b x y : keyed p -> h_get_commodity p a = Ok x -> h_get_commodity p b = Ok y ->
  ocomm_eqb x y = comm_eqb (option_map symbol_of a) (option_map symbol_of b) /\ (ocomm_eqb x y = true -> ptr_eqb a b = true).
Proof.
  intros K HA HB. apply get_inv in HA. apply get_inv in HB.
  destruct a as [a|], x as [x|]; try contradiction; destruct b as [b|], y as [y|]; try contradiction; cbn; try (split; [reflexivity|auto; discriminate]).
  apply commodity_inv in HA as [EA LA]. apply commodity_inv in HB as [EB LB].
  destruct (str_eqb (symbol_of a) (symbol_of b)) eqn:E.
  - apply str_eqb_eq in E. rewrite E in LA. assert (x = y) by congruence. subst y. rewrite commodity_eqb_refl. split; [reflexivity|]. intros _.
    rewrite EA, EB, E. cbn. rewrite Nat.eqb_refl, str_eqb_refl. reflexivity.
  - assert (X : commodity_eqb x y = false); [|rewrite X; split; [reflexivity|discriminate]].
    unfold commodity_eqb. rewrite (K _ _ LA), (K _ _ LB), E. reflexivity.
Qed.
Lemma addr_eqb_eq a b : addr_eqb a b = true -> a = b.
Proof.
  destruct a, b; cbn; try discriminate; rewrite ?andb_true_iff, ?Nat.eqb_eq, ?str_eqb_eq, ?path_eqb_eq; intuition congruence.
Qed.
Lemma ptr_eqb_eq a b : ptr_eqb a b = true -> a = b.
Proof. destruct a, b; cbn; try discriminate; [|reflexivity]. intros H. f_equal. apply addr_eqb_eq, H. Qed.
Lemma comm_eqb_same c : comm_eqb c c = true.
Proof. destruct c; cbn; [apply str_eqb_refl|reflexivity]. Qed.

(** ** Amounts *)
Definition any {A} (_ : A) : Prop := True.
Lemma or_symbol a b : option_map symbol_of (ptr_or a b) = comm_or (option_map symbol_of a) (option_map symbol_of b).
Proof. destruct a; reflexivity. Qed.
Lemma add_agree a b : ptr_eqb (ha_c a) (ha_c b) = true -> agree v_amount any (ha_add a b) (amt_add (v_amount a) (v_amount b)).
Proof.
  intros E. unfold ha_add, amt_add. rewrite E. apply ptr_eqb_eq in E. cbn [v_amount a_c a_q]. rewrite E, comm_eqb_same.
  destruct (d_is_zero _); [apply agree_ok; [unfold v_amount; rewrite ?E; reflexivity|exact I]|].
  eapply agree_bind; [apply (agree_same any); intros; exact I|]. intros q _ _. apply agree_ok; [unfold v_amount; cbn; rewrite ?E; reflexivity|exact I].
Qed.
Lemma minus_agree a b : ptr_eqb (ha_c a) (ha_c b) = true -> agree v_amount any (ha_minus a b) (amt_minus (v_amount a) (v_amount b)).
Proof.
  intros E. unfold ha_minus, amt_minus. rewrite E. apply ptr_eqb_eq in E. cbn [v_amount a_c a_q]. rewrite E, comm_eqb_same.
  eapply agree_bind; [apply (agree_same any); intros; exact I|]. intros q _ _. apply agree_ok; [unfold v_amount; cbn; rewrite ?E; reflexivity|exact I].
Qed.
Lemma inverse_agree p a : agree v_amount any (ha_inverse strict p a) (Ok (amt_inverse (v_amount a))).
Proof. unfold ha_inverse. cbv zeta. apply agree_left; [apply ref_cases|]. intros u _. apply agree_ok; [reflexivity|exact I]. Qed.
Lemma div_agree a b : agree v_amount any (ha_div a b) (amt_div (v_amount a) (v_amount b)).
Proof.
  unfold ha_div, amt_div. eapply agree_bind; [apply (agree_same any); intros; exact I|]. intros q _ _. apply agree_ok; [|exact I].
  unfold v_amount. cbn [ha_q ha_c a_c]. rewrite or_symbol. reflexivity.
Qed.
Lemma mul_agree p a b : agree v_amount any (ha_mul strict p a b) (amt_mul (v_amount a) (v_amount b)).
Proof.
  unfold ha_mul, amt_mul. eapply agree_bind; [apply (agree_same any); intros; exact I|]. intros q _ _. cbv zeta.
  apply agree_left; [apply ref_cases|]. intros u _. apply agree_ok; [|exact I]. unfold v_amount. cbn [ha_q ha_c a_c]. rewrite or_symbol. reflexivity.
Qed.
Lemma mul_assign_agree a b : agree v_amount any (ha_mul_assign a b) (amt_mul (v_amount a) (v_amount b)).
Proof.
  unfold ha_mul_assign, amt_mul. eapply agree_bind; [apply (agree_same any); intros; exact I|]. intros q _ _. apply agree_ok; [|exact I].
  unfold v_amount. cbn [ha_q ha_c a_c]. rewrite or_symbol. reflexivity.
Qed.

(** ** Balances *)
Notation v_bal := (map v_amount).
Lemma badd_agree p b : keyed p -> forall a, agree v_bal any (hb_add p b a) (bal_add (v_bal b) (v_amount a)).
Proof.
  intros K a. induction b as [|x b IH]; cbn [hb_add bal_add map]; [apply agree_ok; [reflexivity|exact I]|].
  apply agree_left; [apply get_cases|]. intros c HC. apply agree_left; [apply get_cases|]. intros d HD.
  destruct (get_eqb p (ha_c x) (ha_c a) c d K HC HD) as [E F]. rewrite E in F |- *. cbn [v_amount a_c]. destruct (comm_eqb _ _).
  - eapply agree_bind; [apply add_agree; apply F; reflexivity|]. intros x' _ _. apply agree_ok; [reflexivity|exact I].
  - eapply agree_bind; [apply IH|]. intros b' _ _. apply agree_ok; [reflexivity|exact I].
Qed.
Lemma bsub_agree p b : keyed p -> forall a, agree v_bal any (hb_sub strict p b a) (bal_sub (v_bal b) (v_amount a)).
Proof.
  intros K a. induction b as [|x b IH]; cbn [hb_sub bal_sub map].
  - pose proof (inverse_agree p a) as H. destruct (ha_inverse strict p a) as [i|q|]; cbn [agree bind] in *.
    + destruct H as [H _]. split; [|exact I]. cbn [map]. congruence.
    + destruct q; auto; discriminate.
    + discriminate.
  - apply agree_left; [apply get_cases|]. intros c HC. apply agree_left; [apply get_cases|]. intros d HD.
    destruct (get_eqb p (ha_c x) (ha_c a) c d K HC HD) as [E F]. rewrite E in F |- *. cbn [v_amount a_c]. destruct (comm_eqb _ _).
    + eapply agree_bind; [apply minus_agree; apply F; reflexivity|]. intros x' _ _. apply agree_ok; [reflexivity|exact I].
    + eapply agree_bind; [apply IH|]. intros b' _ _. apply agree_ok; [reflexivity|exact I].
Qed.
Lemma fold_agree {A B S T} (fa : A -> B) (fs : S -> T) (P : S -> Prop) step step' l : forall s,
  (forall s a, In a l -> P s -> agree fs P (step s a) (step' (fs s) (fa a))) -> P s ->
  agree fs P (fold_outcome step l s) (fold_outcome step' (map fa l) (fs s)).
Proof.
  induction l as [|a l IH]; intros s H HP; cbn [fold_outcome map]; [apply agree_ok; auto|].
  eapply agree_bind; [apply H; [left; reflexivity|exact HP]|]. intros s' _ HP'. apply IH; [|exact HP']. intros; apply H; [right; assumption|assumption].
Qed.
Lemma baddbal_agree p b o : keyed p -> agree v_bal any (hb_add_bal p b o) (bal_add_bal (v_bal b) (v_bal o)).
Proof. intros K. unfold hb_add_bal, bal_add_bal. apply fold_agree; [|exact I]. intros s a _ _. apply badd_agree, K. Qed.

(** ** The pool *)
Lemma lookup_map {A B} (f : A -> B) k (m : list (str * A)) : lookup k (map (fun e => (fst e, f (snd e))) m) = option_map f (lookup k m).
Proof. induction m as [|[k' a] m IH]; cbn; [reflexivity|]. destruct (str_eqb k k'); [reflexivity|exact IH]. Qed.
Lemma insert_map {A B} (f : A -> B) k a (m : list (str * A)) :
  map (fun e => (fst e, f (snd e))) (insert k a m) = insert k (f a) (map (fun e => (fst e, f (snd e))) m).
Proof. induction m as [|[k' b] m IH]; cbn; [reflexivity|]. destruct (str_eqb k k'); cbn; [reflexivity|]. f_equal. exact IH. Qed.
Lemma create_view p s ann : v_pool (fst (hp_create pol p s ann)) = pool_create (v_pool p) s (option_map v_annotation ann).
Proof.
  unfold hp_create, pool_create, v_pool, add_commodity. cbn [fst hp_comms hp_ann hp_nodes hp_edges p_comms p_ann p_hist g_nodes g_edges].
  rewrite map_length, map_app. destruct ann as [a|]; cbn [option_map map symbol_of]; rewrite ?insert_map; reflexivity.
Qed.
Lemma foc_agree p s ann : keyed p ->
  pool_find_or_create (v_pool p) s (option_map v_annotation ann)
    = (v_pool (fst (hp_find_or_create pol p s ann)), option_map symbol_of (snd (hp_find_or_create pol p s ann)))
  /\ keyed (fst (hp_find_or_create pol p s ann)).
Proof.
  intros K. unfold pool_find_or_create, hp_find_or_create. destruct s as [|c s]; [split; [reflexivity|exact K]|]. set (k := c :: s) in *.
  unfold pool_find. cbn [v_pool p_comms p_ann p_hist]. destruct (lookup k (hp_comms p)) as [d|] eqn:E.
  - rewrite lookup_map. destruct ann as [a|]; cbn [option_map]; [|split; [reflexivity|exact K]].
    destruct (lookup k (hp_ann p)) as [b|] eqn:F; cbn [option_map]; [split; [reflexivity|exact K]|].
    cbn [fst snd option_map symbol_of]. split; [|exact K]. unfold v_pool. cbn [hp_comms hp_ann hp_nodes hp_edges]. rewrite insert_map. reflexivity.
  - pose proof (create_view p k ann) as V. change (v_pool p) with (v_pool p) in V.
    destruct (hp_create pol p k ann) as [p' ptr] eqn:C. cbn [fst snd] in *. unfold hp_create in C. injection C as C1 C2. subst ptr. cbn [option_map symbol_of].
    split.
    + rewrite V. reflexivity.
    + intros k' d' H. rewrite <- C1 in H. cbn [hp_comms] in H. rewrite lookup_insert in H. destruct (str_eqb k' k) eqn:G.
      * injection H as <-. cbn. symmetry. apply str_eqb_eq, G.
      * apply K, H.
Qed.
Lemma deref_agree p a : agree (fun c => c) (fun c => h_commodity p a = Ok c) (h_commodity p a) (deref (v_pool p) (Some (symbol_of a))).
Proof.
  destruct (commodity_cases p a) as [E|(c & E)]; rewrite E; [exact I|]. split; [|reflexivity].
  apply commodity_inv in E as [_ E]. unfold deref, pool_find. cbn [v_pool p_comms]. rewrite E. reflexivity.
Qed.
Lemma by_index_agree p i : agree (fun c => c) any (hp_get_by_index p i) (pool_get_by_index (v_pool p) i).
Proof.
  unfold hp_get_by_index, pool_get_by_index, get_commodity. cbn [v_pool p_hist g_nodes].
  eapply (agree_bind symbol_of any); [apply agree_unwrap; [apply nth_error_map|intros; exact I]|]. intros a _ _.
  eapply agree_weaken; [|apply deref_agree]. intros; exact I.
Qed.
Lemma add_price_agree p c w x : keyed p -> agree v_pool keyed (hp_add_price p c w x) (pool_add_price (v_pool p) (option_map symbol_of c) w (v_amount x)).
Proof.
  intros K. unfold hp_add_price, pool_add_price. destruct c as [a|]; cbn [option_map]; [|exact I].
  eapply agree_bind; [apply deref_agree|]. intros src _ HS. apply agree_left; [apply get_cases|]. intros dst HD. cbn [v_amount a_c a_q].
  assert (HS' : h_get_commodity p (Some a) = Ok (Some src)) by (cbn; rewrite HS; reflexivity).
  destruct (get_eqb _ _ _ _ _ K HS' HD) as [E _]. rewrite E. pose proof (get_symbol _ _ _ K HS') as ES. cbn in ES. injection ES as ES. cbn [option_map]. rewrite ES.
  destruct (comm_eqb _ _); [reflexivity|]. pose proof (get_inv _ _ _ HD) as GI. destruct (ha_c x) as [b|], dst as [dst|]; try contradiction; cbn [option_map unwrap bind]; [|reflexivity].
  pose proof (deref_agree p b) as DB. rewrite GI in DB. cbn [agree] in DB. destruct DB as [-> _]. cbn [bind].
  apply agree_ok; [reflexivity|exact K].
Qed.
Definition v_price (p : hprice) : price := mkPrice (option_map symbol_of (hr_commodity p)) (hr_when p) (v_amount (hr_price p)).
Definition v_breakdown (b : hbreakdown) : breakdown := mkBd (v_amount (hd_amount b)) (v_amount (hd_final_cost b)) (v_amount (hd_basis_cost b)).
Lemma abs_view a : v_amount (ha_abs a) = amt_abs (v_amount a).
Proof. reflexivity. Qed.
Lemma exchange_agree p amt cost pu w : keyed p ->
  agree (fun r => (v_breakdown (fst r), option_map v_price (snd r))) (fun r => hd_amount (fst r) = amt) (h_exchange strict p amt cost pu w)
        (exchange (v_pool p) (v_amount amt) (v_amount cost) pu w).
Proof.
  intros K. unfold h_exchange, exchange. apply agree_left; [apply get_cases|]. intros o HO. pose proof (get_inv _ _ _ HO) as GI. change (a_c (v_amount amt)) with (option_map symbol_of (ha_c amt)).
  destruct (ha_c amt) as [a|] eqn:EA, o as [c|]; try contradiction; cbn [option_map unwrap bind]; [|reflexivity].
  pose proof (deref_agree p a) as DA. rewrite GI in DA. cbn [agree] in DA. destruct DA as [-> _]. cbn [bind].
  eapply agree_bind; [apply by_index_agree|]. intros c' _ _. cbv zeta.
  eapply (agree_bind v_amount any).
  { unfold amt_is_zero, ha_is_zero. cbn [v_amount a_q]. destruct (pu || _); [apply agree_ok; [reflexivity|exact I]|].
    eapply agree_bind; [apply div_agree|]. intros q _ _. apply agree_ok; [reflexivity|exact I]. }
  intros puc _ _. apply agree_left; [apply get_cases|]. intros cc HC. pose proof (get_inv _ _ _ HC) as GC.
  set (puc' := match cc with None => mkHA (ha_q puc) None | Some _ => puc end).
  assert (EP : match a_c (v_amount cost) with None => amt_remove_commodity (v_amount puc) | Some _ => v_amount puc end = v_amount puc').
  { subst puc'. cbn [v_amount a_c]. destruct (ha_c cost), cc; try contradiction; reflexivity. }
  rewrite EP. clearbody puc'.
  assert (N : agree (option_map v_price) any
    (if ha_is_zero puc' then Ok None
     else let* x := h_get_commodity p (Some a) in let* y := h_get_commodity p (ha_c puc') in
          Ok (if ocomm_eqb x y then None else Some (mkHPrice (Some a) w puc')))
    (Ok (if negb (amt_is_zero (v_amount puc')) && negb (comm_eqb (Some (symbol_of a)) (a_c (v_amount puc'))) then Some (mkPrice (Some (symbol_of a)) w (v_amount puc')) else None))).
  { unfold amt_is_zero, ha_is_zero. cbn [v_amount a_q a_c]. destruct (d_is_zero (ha_q puc')); cbn [negb andb]; [apply agree_ok; [reflexivity|exact I]|].
    apply agree_left; [apply get_cases|]. intros x HX. apply agree_left; [apply get_cases|]. intros y HY.
    destruct (get_eqb _ _ _ _ _ K HX HY) as [E _]. rewrite E. cbn [option_map]. destruct (comm_eqb _ _); cbn [negb]; apply agree_ok; try reflexivity; exact I. }
  set (new := (if ha_is_zero puc' then Ok None else _)) in *. 
  match type of N with agree _ _ _ (Ok ?v) => set (vnew := v) in * end.
  destruct new as [np|q|]; cbn [agree bind] in N |- *; [|destruct q; try discriminate; exact I|discriminate]. destruct N as [N _]. injection N as N. rewrite N.
  eapply (agree_bind v_amount any).
  { destruct pu; [|apply agree_ok; [reflexivity|exact I]]. apply mul_agree. }
  intros fc _ _. eapply (agree_bind v_amount any).
  { cbn [v_pool p_ann]. rewrite lookup_map. destruct (lookup _ _) as [an|]; cbn [option_map]; [|apply agree_ok; [reflexivity|exact I]].
    cbn [v_annotation an_price]. destruct (hn_price an) as [ap|]; cbn [option_map]; [|apply agree_ok; [reflexivity|exact I]].
    apply mul_agree. }
  intros bc _ _. apply agree_ok; [|reflexivity]. cbn [fst snd v_breakdown hd_amount hd_final_cost hd_basis_cost]. unfold v_breakdown. cbn [hd_amount hd_final_cost hd_basis_cost]. reflexivity.
Qed.
Lemma parts_agree p q s : keyed p ->
  parse_amount_parts (v_pool p) q s = (v_pool (fst (h_amount_parts pol p q s)), option_map v_amount (snd (h_amount_parts pol p q s)))
  /\ keyed (fst (h_amount_parts pol p q s)).
Proof.
  intros K. unfold parse_amount_parts, h_amount_parts. destruct (foc_agree p s None K) as [E K']. cbn [option_map] in E. rewrite E.
  destruct (hp_find_or_create pol p s None) as [p1 c]. cbn [fst snd] in *. split; [|exact K']. destruct (d_from_str q); reflexivity.
Qed.
Lemma price_directive_agree p line : keyed p -> agree v_pool keyed (h_price_directive pol p line) (parse_price_directive (v_pool p) line).
Proof.
  intros K. unfold h_price_directive, parse_price_directive.
  eapply agree_bind; [apply (agree_same any); intros; exact I|]. intros [[[[td tt] tc] tq] tp] _ _.
  eapply agree_bind; [apply (agree_same any); intros; exact I|]. intros d _ _.
  eapply agree_bind; [apply (agree_same any); intros; exact I|]. intros t _ _.
  destruct (foc_agree p tc None K) as [E K']. cbn [option_map] in E. rewrite E. destruct (hp_find_or_create pol p tc None) as [p1 c]. cbn [fst snd] in *.
  eapply agree_bind; [apply (agree_same any); intros; exact I|]. intros q _ _.
  destruct (foc_agree p1 tp None K') as [F K2]. cbn [option_map] in F. rewrite F. destruct (hp_find_or_create pol p1 tp None) as [p2 cc]. cbn [fst snd] in *.
  apply (add_price_agree p2 c (mkDT d t) (mkHA q cc) K2).
Qed.
Lemma annotation_agree p d q s : keyed p ->
  agree (fun r => (v_pool (fst r), v_annotation (snd r))) (fun r => keyed (fst r)) (h_annotation_parse pol p d q s) (annotation_parse (v_pool p) d q s).
Proof.
  intros K. unfold h_annotation_parse, annotation_parse. destruct (foc_agree p s None K) as [E K']. cbn [option_map] in E. rewrite E.
  destruct (hp_find_or_create pol p s None) as [p1 c]. cbn [fst snd] in *.
  eapply agree_bind; [apply (agree_same any); intros; exact I|]. intros d' _ _. apply agree_ok; [|exact K'].
  cbn [fst snd]. unfold v_annotation. cbn [hn_price hn_date]. destruct (d_from_str q); reflexivity.
Qed.
Lemma cost_agree p t amt : keyed p ->
  agree (fun r => (v_pool (fst r), option_map v_amount (snd r))) (fun r => keyed (fst r)) (h_parse_cost pol p t amt) (parse_cost (v_pool p) t (option_map v_amount amt)).
Proof.
  intros K. unfold h_parse_cost, parse_cost. destruct amt as [a|]; cbn [option_map]; [|apply agree_ok; [reflexivity|exact K]].
  destruct (is_empty _); [apply agree_ok; [reflexivity|exact K]|].
  destruct (parts_agree p (t_cost_quantity t) (t_cost_symbol t) K) as [E K']. rewrite E.
  destruct (h_amount_parts pol p (t_cost_quantity t) (t_cost_symbol t)) as [p1 c]. cbn [fst snd] in *.
  destruct c as [c|]; cbn [option_map]; [|apply agree_ok; [reflexivity|exact K']]. destruct (t_is_per_unit t); [|apply agree_ok; [reflexivity|exact K']].
  eapply agree_bind; [apply mul_assign_agree|]. intros c' _ _. apply agree_ok; [reflexivity|exact K'].
Qed.
End Program.
