(** When the program with pointers has defined behaviour: amounts, the pool, and finalizing. *)
From Coq Require Import String List NArith ZArith Bool Lia.
From Verif Require Import Base BaseFacts Decimal Dates Amount Balance Scanner History Pool Account Journal Xact Parser Report Options Lib Memory Heap.
From Verif Require Import SpecHeap SpecMemory MemoryFacts HeapFacts HeapTree HeapRead.
Import ListNotations.
Open Scope nat_scope.

(** No undefined behaviour, and a good result if there is one. *)
Definition fine {A} (P : A -> Prop) (x : outcome A) : Prop :=
  match x with Ok a => P a | Panic PNull => False | _ => True end.
Lemma fine_bind {A B} (P : A -> Prop) (Q : B -> Prop) x k : fine P x -> (forall a, x = Ok a -> P a -> fine Q (k a)) -> fine Q (bind x k).
Proof. intros H K. destruct x as [a|p|]; cbn [fine bind] in *; [apply K; auto|exact H|exact I]. Qed.
Lemma fine_weaken {A} (P Q : A -> Prop) x : (forall a, x = Ok a -> P a -> Q a) -> fine P x -> fine Q x.
Proof. intros W H. destruct x as [a|p|]; cbn [fine] in *; [auto|exact H|exact I]. Qed.
Lemma fine_unwrap {A} (P : A -> Prop) o : (forall a, o = Some a -> P a) -> fine P (unwrap o).
Proof. intros H. destruct o; cbn; auto. Qed.
Lemma fine_not {A} (P : A -> Prop) x : fine P x -> x <> Panic PNull.
Proof. intros H E. rewrite E in H. exact H. Qed.
Lemma fine_ok {A B} (f : A -> B) (P Q : A -> Prop) x y b : fine P x -> agree f Q x y -> y = Ok b -> exists a, x = Ok a /\ f a = b /\ P a /\ Q a.
Proof.
  intros H A0 E. destruct x as [a|p|]; cbn in *.
  - destruct A0 as [E' q]. exists a. repeat split; auto. congruence.
  - destruct p; try congruence. contradiction.
  - congruence.
Qed.
Definition nonull {A} (x : outcome A) : Prop := x <> Panic PNull.
Lemma nonull_fine {A} (x : outcome A) : nonull x -> fine any x.
Proof. intros N. destruct x as [a|p|]; cbn; [exact I|destruct p; auto; apply N; reflexivity|exact I]. Qed.


Lemma reduced_nonull z s : nonull (d_reduced z s).
Proof. unfold nonull, d_reduced. destruct (reduce _ _) as [[m s']|]; discriminate. Qed.
Lemma d_add_nonull a b : nonull (d_add a b).
Proof. unfold d_add. destruct (d_is_zero a); [discriminate|]. destruct (d_is_zero b); [discriminate|]. apply reduced_nonull. Qed.
Lemma d_sub_nonull a b : nonull (d_sub a b).
Proof. unfold d_sub. destruct (d_is_zero a); [discriminate|]. destruct (d_is_zero b); [discriminate|]. apply reduced_nonull. Qed.
Lemma d_mul_nonull a b : nonull (d_mul a b).
Proof. unfold d_mul. destruct (d_is_zero a || _); [discriminate|]. destruct (_ && _); [discriminate|]. apply reduced_nonull. Qed.
Lemma d_div_nonull a b : nonull (d_div a b).
Proof.
  unfold d_div. destruct (d_is_zero b); [discriminate|]. destruct (d_is_zero a); [discriminate|]. cbv zeta. destruct (_ =? 0)%Z.
  - destruct (_ <? MAXM)%Z; discriminate.
  - match goal with |- context [div_scale ?a ?b] => destruct (div_scale a b) as [s|]; [destruct (strip s _)|] end; discriminate.
Qed.

Section Program.
Variable pol : policy.
Variable strict : bool.

(** ** Pointers to commodities *)
Definition vptr (p : hpool) (o : option addr) : Prop :=
  match o with None => True | Some a => exists c, h_commodity p a = Ok c end.
Lemma vptr_get p o : vptr p o -> exists c, h_get_commodity p o = Ok c.
Proof. destruct o as [a|]; cbn; [intros (c & ->); cbn; eauto|eauto]. Qed.
Lemma vptr_or p a b : vptr p a -> vptr p b -> vptr p (ptr_or a b).
Proof. destruct a; cbn; auto. Qed.
Lemma vptr_ref p o : vptr p o -> (strict = true -> o <> None) -> fine any (h_ref strict p o).
Proof.
  intros V S. destruct o as [a|]; cbn in *; [destruct V as (c & ->); exact I|]. destruct strict; [exfalso; apply S; reflexivity|exact I].
Qed.
Definition vamt (p : hpool) (a : hamount) : Prop := vptr p (ha_c a).

Lemma add_fine a b : fine (fun r => ha_c r = ha_c a) (ha_add a b).
Proof.
  unfold ha_add. destruct (ptr_eqb _ _); [|exact I]. destruct (d_is_zero _); [reflexivity|].
  eapply fine_bind; [apply nonull_fine, d_add_nonull|]. intros q _ _. reflexivity.
Qed.
Lemma minus_fine a b : fine (fun r => ha_c r = ha_c a) (ha_minus a b).
Proof. unfold ha_minus. destruct (ptr_eqb _ _); [|exact I]. eapply fine_bind; [apply nonull_fine, d_sub_nonull|]. intros q _ _. reflexivity. Qed.
Lemma div_fine a b : fine (fun r => ha_c r = ptr_or (ha_c a) (ha_c b)) (ha_div a b).
Proof. unfold ha_div. eapply fine_bind; [apply nonull_fine, d_div_nonull|]. intros q _ _. reflexivity. Qed.
Lemma mul_fine p a b : vamt p a -> vamt p b -> (strict = true -> ptr_or (ha_c a) (ha_c b) <> None) ->
  fine (fun r => ha_c r = ptr_or (ha_c a) (ha_c b)) (ha_mul strict p a b).
Proof.
  intros A B S. unfold ha_mul. eapply fine_bind; [apply nonull_fine, d_mul_nonull|]. intros q _ _. cbv zeta.
  eapply fine_bind; [apply vptr_ref; [apply vptr_or; assumption|exact S]|]. intros u _ _. reflexivity.
Qed.
Lemma mul_assign_fine a b : fine (fun r => ha_c r = ptr_or (ha_c a) (ha_c b)) (ha_mul_assign a b).
Proof. unfold ha_mul_assign. eapply fine_bind; [apply nonull_fine, d_mul_nonull|]. intros q _ _. reflexivity. Qed.
Lemma inverse_fine p a : vamt p a -> (strict = true -> ha_c a <> None) -> fine (fun r => ha_c r = ha_c a) (ha_inverse strict p a).
Proof. intros A S. unfold ha_inverse. cbv zeta. eapply fine_bind; [apply vptr_ref; assumption|]. intros u _ _. reflexivity. Qed.

(** ** Balances.  There is never more than one entry without commodity. *)
Definition isnull (a : hamount) : bool := match ha_c a with None => true | Some _ => false end.
Definition nulls (b : list hamount) : nat := length (filter isnull b).
Definition vbal (p : hpool) (b : list hamount) : Prop := Forall (vamt p) b.
Lemma nulls_cons a b : nulls (a :: b) = (if isnull a then 1 else 0) + nulls b.
Proof. unfold nulls. cbn. destruct (isnull a); reflexivity. Qed.
Lemma isnull_eq a b : ha_c a = ha_c b -> isnull a = isnull b.
Proof. unfold isnull. intros ->. reflexivity. Qed.
Lemma badd_fine p b a : vbal p b -> vamt p a ->
  fine (fun b' => vbal p b' /\ nulls b' = if isnull a then Nat.max 1 (nulls b) else nulls b) (hb_add p b a).
Proof.
  intros B A. induction B as [|x b X B IH]; cbn [hb_add].
  - split; [constructor; [exact A|constructor]|]. rewrite nulls_cons. destruct (isnull a); reflexivity.
  - destruct (vptr_get _ _ X) as (c & EC). destruct (vptr_get _ _ A) as (d & ED). rewrite EC, ED. cbn [bind]. destruct (ocomm_eqb c d) eqn:E.
    + eapply fine_bind; [apply add_fine|]. intros x' _ EX. split; [constructor; [unfold vamt; rewrite EX; exact X|exact B]|].
      rewrite !nulls_cons, (isnull_eq _ _ EX). destruct (isnull a) eqn:NA; [|reflexivity].
      assert (NX : isnull x = true); [|rewrite NX; lia]. unfold isnull in *. destruct (ha_c a); [discriminate|]. injection ED as <-.
      destruct (ha_c x); [|reflexivity]. apply get_inv in EC. destruct c; [discriminate|contradiction].
    + eapply fine_bind; [exact IH|]. intros b' _ (B' & N). split; [constructor; assumption|]. rewrite !nulls_cons, N. destruct (isnull a) eqn:NA; [|reflexivity].
      destruct (isnull x) eqn:NX; [|lia]. unfold isnull in *. destruct (ha_c a); [discriminate|]. destruct (ha_c x); [discriminate|].
      injection EC as <-. injection ED as <-. discriminate.
Qed.
Lemma bsub_fine p b a : vbal p b -> vamt p a -> (strict = true -> isnull a = true -> 1 <= nulls b) ->
  fine (fun b' => vbal p b' /\ nulls b <= nulls b') (hb_sub strict p b a).
Proof.
  intros B A S. induction B as [|x b X B IH]; cbn [hb_sub].
  - eapply fine_bind; [apply inverse_fine; [exact A|]|].
    + intros T N. assert (1 <= 0); [|lia]. apply S; [exact T|]. unfold isnull. rewrite N. reflexivity.
    + intros i _ EI. split; [constructor; [unfold vamt; rewrite EI; exact A|constructor]|unfold nulls; cbn; lia].
  - destruct (vptr_get _ _ X) as (c & EC). destruct (vptr_get _ _ A) as (d & ED). rewrite EC, ED. cbn [bind]. destruct (ocomm_eqb c d) eqn:E.
    + eapply fine_bind; [apply minus_fine|]. intros x' _ EX. split; [constructor; [unfold vamt; rewrite EX; exact X|exact B]|].
      rewrite !nulls_cons, (isnull_eq _ _ EX). lia.
    + assert (IH' : fine (fun b' => vbal p b' /\ nulls b <= nulls b') (hb_sub strict p b a)).
      { apply IH. intros T N. specialize (S T N). rewrite nulls_cons in S. destruct (isnull x) eqn:NX; [|exact S].
        unfold isnull in *. destruct (ha_c a); [discriminate|]. destruct (ha_c x); [discriminate|]. injection EC as <-. injection ED as <-. discriminate. }
      eapply fine_bind; [exact IH'|]. intros b' _ (B' & N). split; [constructor; assumption|]. rewrite !nulls_cons. lia.
Qed.
Lemma baddbal_fine p b o : vbal p b -> vbal p o -> fine (vbal p) (hb_add_bal p b o).
Proof.
  intros B O. unfold hb_add_bal. revert b B. induction O as [|a o A O IH]; intros b B; cbn [fold_outcome]; [exact B|].
  eapply fine_bind; [apply badd_fine; assumption|]. intros b' _ (B' & _). apply IH, B'.
Qed.

(** ** Finalizing *)
Definition oamt (p : hpool) (o : option hamount) : Prop := match o with None => True | Some a => vamt p a end.
Definition vpost (p : hpool) (x : hpost) : Prop := oamt p (ho_amount x) /\ oamt p (ho_cost x).
Lemma value_fine p x a : vpost p x -> hpost_value x = Some a -> vamt p a.
Proof. intros (A & C). unfold hpost_value. destruct (ho_cost x); cbn in *; [congruence|]. intros E. rewrite E in A. exact A. Qed.
Lemma sum_fine p posts : Forall (vpost p) posts -> forall i b n, vbal p b -> nulls b <= 1 ->
  fine (fun r => vbal p (fst r) /\ nulls (fst r) <= 1 /\ forall k, snd r = Some k -> n = Some k \/ i <= k < i + length posts) (h_sum_posts p posts i b n).
Proof.
  induction 1 as [|x posts X F IH]; intros i b n B N; cbn [h_sum_posts]; [repeat split; auto|].
  destruct (hpost_value x) as [a|] eqn:E.
  - eapply fine_bind; [apply badd_fine; [exact B|eapply value_fine; eassumption]|]. intros b' _ (B' & N').
    eapply fine_weaken; [|apply (IH (S i) b' n B'); rewrite N'; destruct (isnull a); lia].
    intros r _ (R1 & R2 & R3). split; [exact R1|]. split; [exact R2|]. intros k Ek. destruct (R3 k Ek); [left; assumption|right; cbn; lia].
  - destruct n as [n|]; [exact I|]. eapply fine_weaken; [|apply (IH (S i) b (Some i) B N)].
    intros r _ (R1 & R2 & R3). split; [exact R1|]. split; [exact R2|]. intros k Ek. destruct (R3 k Ek) as [Q|Q]; [injection Q as ->|]; right; cbn; lia.
Qed.
Lemma top_fine p posts t : Forall (vpost p) posts -> h_top_amount posts = Some t -> vamt p t.
Proof.
  induction 1 as [|x posts [A _] F IH]; cbn [h_top_amount]; [discriminate|]. destruct (ho_amount x) as [a|]; [|exact IH]. intros E. injection E as <-. exact A.
Qed.
Lemma loop_fine p c puc posts : Forall (vpost p) posts -> vamt p puc -> forall b, vbal p b ->
  (strict = true -> c = None -> 1 <= nulls b /\ ha_c puc <> None) ->
  fine (fun r => Forall (vpost p) (fst r)) (h_cost_loop strict p c puc posts b).
Proof.
  intros F U. induction F as [|x posts X F IH]; intros b B S; cbn [h_cost_loop]; [constructor|].
  pose proof X as [XA XC]. destruct (ho_amount x) as [amt|] eqn:EA; cbn [unwrap bind]; [|exact I]. cbn in XA.
  destruct (vptr_get _ _ XA) as (d & ED). rewrite ED. cbn [bind].
  eapply (fine_bind (fun r => vpost p (fst r) /\ vbal p (snd r) /\ (strict = true -> c = None -> 1 <= nulls (snd r) /\ ha_c puc <> None))).
  - destruct (ocomm_eqb d c) eqn:E; [|split; [exact X|split; [exact B|exact S]]].
    assert (CN : isnull amt = true -> c = None).
    { unfold isnull. destruct (ha_c amt); [discriminate|]. intros _. injection ED as <-. destruct c; [discriminate|reflexivity]. }
    assert (NC : c = None -> isnull amt = true).
    { intros ->. unfold isnull. apply get_inv in ED. destruct (ha_c amt); [|reflexivity]. destruct d; [discriminate|contradiction]. }
    eapply fine_bind; [apply bsub_fine; [exact B|exact XA|]|].
    { intros T N. apply S; [exact T|apply CN, N]. }
    intros b1 _ (B1 & N1). eapply fine_bind; [apply mul_fine; [exact U|exact XA|]|].
    { intros T. unfold isnull in *. destruct (ha_c puc) eqn:EP; [discriminate|]. cbn [ptr_or]. intros N. rewrite N in CN. destruct (S T (CN eq_refl)) as [_ Q]. contradiction. }
    intros cost _ EC. assert (VC : vamt p cost) by (unfold vamt; rewrite EC; apply vptr_or; [exact U|exact XA]).
    eapply fine_bind; [apply badd_fine; [exact B1|exact VC]|]. intros b2 _ (B2 & N2). cbn [fine fst snd]. split; [split; [cbn; rewrite EA; exact XA|exact VC]|].
    split; [exact B2|]. intros T N. destruct (S T N) as [S1 S2]. split; [|exact S2]. rewrite N2. destruct (isnull cost); lia.
  - intros [x' b'] _ (X' & B' & S'). cbn [fst snd] in *. eapply fine_bind; [apply IH; [exact B'|exact S']|]. intros [ps b''] _ P. cbn [fst] in *. constructor; assumption.
Qed.
Lemma infer_fine p posts b : Forall (vpost p) posts -> vbal p b -> nulls b <= 1 -> fine (fun r => Forall (vpost p) (fst r)) (h_infer_costs strict p posts b).
Proof.
  intros F B N. unfold h_infer_costs. destruct b as [|x0 [|y0 [|z b]]]; try exact F. destruct (h_top_amount posts) as [top|] eqn:ET; [|exact F].
  destruct (_ && _); [|exact F]. inversion B as [|? ? X0 B1]; subst. inversion B1 as [|? ? Y0 _]; subst.
  destruct (vptr_get _ _ X0) as (cx & ->). destruct (vptr_get _ _ (top_fine _ _ _ F ET)) as (ct & ->). cbn [bind].
  assert (G : forall x y, vamt p x -> vamt p y -> (isnull x = true -> 1 <= nulls [x0; y0] /\ isnull y = false) ->
    fine (fun r => Forall (vpost p) (fst r)) (let* comm := h_get_commodity p (ha_c x) in let* r := ha_div y x in h_cost_loop strict p comm (ha_abs r) posts [x0; y0])).
  { intros x y X Y Q. destruct (vptr_get _ _ X) as (c & EC). rewrite EC. cbn [bind]. eapply fine_bind; [apply div_fine|]. intros r _ ER.
    apply loop_fine; [exact F|unfold vamt; cbn; rewrite ER; apply vptr_or; assumption|exact B|]. intros _ ->. apply get_inv in EC. cbn [ha_abs ha_c]. rewrite ER.
    unfold isnull in Q. destruct (ha_c x); [contradiction|]. destruct (Q eq_refl) as [Q1 Q2]. split; [exact Q1|]. destruct (ha_c y); [discriminate|discriminate]. }
  rewrite !nulls_cons in *. unfold nulls in *. cbn [filter length] in *. destruct (negb _); apply G; try assumption; intros Q; rewrite Q in *.
  - destruct (isnull x0); [cbn in N; lia|]. split; [lia|reflexivity].
  - destruct (isnull y0); [cbn in N; lia|]. split; [lia|reflexivity].
Qed.
(** The pool: its nodes and the prices of lots. *)
Definition pgood (p : hpool) : Prop :=
  hp_alloc p = after (map_next pol) (length (hp_comms p)) /\ Forall (fun a => vptr p (Some a)) (hp_nodes p)
  /\ forall s an, lookup s (hp_ann p) = Some an -> oamt p (hn_price an).
Definition pext (p p' : hpool) : Prop := forall o, vptr p o -> vptr p' o.
Lemma pext_refl p : pext p p.
Proof. intros o H. exact H. Qed.
Lemma pext_trans p q r : pext p q -> pext q r -> pext p r.
Proof. intros A B o H. apply B, A, H. Qed.
Lemma pext_amt p p' a : pext p p' -> vamt p a -> vamt p' a.
Proof. intros E. apply E. Qed.
Lemma pext_oamt p p' o : pext p p' -> oamt p o -> oamt p' o.
Proof. intros E. destruct o; cbn; [apply pext_amt, E|auto]. Qed.
Lemma pext_post p p' x : pext p p' -> vpost p x -> vpost p' x.
Proof. intros E [A B]. split; eapply pext_oamt; eassumption. Qed.
Definition samep (p p' : hpool) : Prop := hp_alloc p' = hp_alloc p /\ hp_comms p' = hp_comms p /\ hp_ann p' = hp_ann p /\ hp_nodes p' = hp_nodes p.
Lemma samep_refl p : samep p p.
Proof. repeat split. Qed.
Lemma samep_trans p q r : samep p q -> samep q r -> samep p r.
Proof. intros (A & B & C & D) (A' & B' & C' & D'). repeat split; congruence. Qed.
Lemma samep_ext p p' : samep p p' -> pext p p'.
Proof.
  intros (A & B & _ & _) [a|]; cbn; [|auto]. destruct a; cbn [h_commodity]; try (intros (c & E); discriminate). rewrite A, B. auto.
Qed.
Lemma samep_good p p' : samep p p' -> pgood p -> pgood p'.
Proof.
  intros S (G1 & G2 & G3). pose proof (samep_ext _ _ S) as E. destruct S as (A & B & C & D). split; [congruence|]. rewrite D. split.
  - eapply Forall_impl; [|exact G2]. intros a. apply E.
  - intros s an L. rewrite C in L. eapply pext_oamt; [exact E|]. eapply G3, L.
Qed.
Lemma add_price_fine p a w x : vptr p (Some a) -> vamt p x -> fine (samep p) (hp_add_price p (Some a) w x).
Proof.
  intros (c & EA) X. unfold hp_add_price. rewrite EA. cbn [bind]. destruct (vptr_get _ _ X) as (d & ->). cbn [bind].
  destruct (ocomm_eqb _ _); [exact I|]. destruct d as [d|]; cbn [unwrap bind]; [|exact I]. repeat split.
Qed.
Lemma exchange_fine p amt cost pu w : pgood p -> vamt p amt -> vamt p cost ->
  fine (fun r => hd_amount (fst r) = amt /\ match snd r with
                 | None => True | Some pr => hr_commodity pr = ha_c amt /\ ha_c amt <> None /\ vamt p (hr_price pr) end)
       (h_exchange strict p amt cost pu w).
Proof.
  intros (G1 & G2 & G3) A C. unfold h_exchange. destruct (vptr_get _ _ A) as (o & EO). rewrite EO. cbn [bind].
  destruct o as [c|]; cbn [unwrap bind]; [|exact I]. pose proof (get_inv _ _ _ EO) as GI. destruct (ha_c amt) as [pa|] eqn:EP; [|contradiction].
  eapply (fine_bind any).
  { unfold hp_get_by_index. destruct (nth_error (hp_nodes p) (c_index c)) as [a|] eqn:EN; cbn [unwrap bind]; [|exact I].
    apply nth_error_In in EN. rewrite Forall_forall in G2. destruct (G2 a EN) as (d & ->). exact I. }
  intros c' _ _. cbv zeta. eapply (fine_bind (vamt p)).
  { destruct (_ || _); [exact C|]. eapply fine_bind; [apply div_fine|]. intros q _ EQ. unfold vamt. cbn. rewrite EQ, EP. apply vptr_or; [exact C|]. unfold vamt in A. rewrite EP in A. exact A. }
  intros puc _ PU. destruct (vptr_get _ _ C) as (cc & EC). rewrite EC. cbn [bind].
  set (puc' := match cc with None => mkHA (ha_q puc) None | Some _ => puc end). assert (PU' : vamt p puc') by (subst puc'; destruct cc; [exact PU|exact I]). clearbody puc'.
  eapply (fine_bind (fun np => match np with None => True | Some pr => hr_commodity pr = Some pa /\ vamt p (hr_price pr) end)).
  { destruct (ha_is_zero puc'); [exact I|]. cbn [bind]. destruct (vptr_get _ _ PU') as (y & ->). cbn [bind]. cbn [fine]. destruct (ocomm_eqb _ _); [exact I|].
    split; [reflexivity|exact PU']. }
  assert (M : forall a, vamt p a -> fine any (ha_mul strict p a amt)).
  { intros a VA. eapply fine_weaken; [|apply mul_fine; [exact VA|exact A|]]; [intros; exact I|]. intros _. rewrite EP. destruct (ha_c a); discriminate. }
  intros np _ NP. eapply (fine_bind any).
  { destruct pu; [|exact I]. eapply fine_weaken; [|apply mul_fine; [exact C|unfold vamt; cbn; exact A|]]; [intros; exact I|]. intros _. cbn. rewrite EP. destruct (ha_c cost); discriminate. }
  intros fc _ _. eapply (fine_bind any).
  { destruct (lookup (c_symbol c') (hp_ann p)) as [an|] eqn:EL; [|exact I]. specialize (G3 _ _ EL). destruct (hn_price an) as [ap|]; [|exact I]. apply M, G3. }
  intros bc _ _. cbn [fst snd fine]. split; [reflexivity|]. destruct np as [pr|]; [|exact I]. destruct NP. repeat split; auto. discriminate.
Qed.
Lemma price_fine date posts : forall p, pgood p -> Forall (vpost p) posts ->
  fine (fun r => samep p (fst r) /\ Forall (vpost p) (snd r) /\ length (snd r) = length posts) (h_price_loop strict date p posts).
Proof.
  induction posts as [|x posts IH]; intros p G F; cbn [h_price_loop]; [split; [apply samep_refl|split; [constructor|reflexivity]]|]. inversion F as [|? ? X F']; subst.
  pose proof X as [XA XC].
  eapply (fine_bind (fun r => samep p (fst r) /\ vpost p (snd r))).
  - destruct (ho_cost x) as [cost|] eqn:EC; [|split; [apply samep_refl|exact X]]. destruct (ho_amount x) as [amt|] eqn:EA; [|exact I]. cbn in XA, XC.
    destruct (vptr_get _ _ XA) as (c & ->). destruct (vptr_get _ _ XC) as (d & ->). cbn [bind]. destruct (ocomm_eqb c d); [exact I|].
    destruct date as [day|]; cbn [unwrap bind]; [|exact I]. eapply fine_bind; [apply exchange_fine; assumption|]. intros [bd np] _ (B1 & B2). cbn [fst snd] in *.
    eapply (fine_bind (samep p)).
    { destruct np as [pr|]; [|apply samep_refl]. destruct B2 as (E1 & E2 & E3). rewrite E1. destruct (ha_c amt) as [a|] eqn:E; [|contradiction].
      apply add_price_fine; [unfold vamt in XA; rewrite E in XA; exact XA|exact E3]. }
    intros p' _ S. split; [exact S|]. split; cbn; [rewrite B1; exact XA|rewrite EC; exact XC].
  - intros [p' x'] _ (S & X'). cbn [fst snd] in *. eapply fine_bind; [apply (IH p'); [eapply samep_good; eassumption|]|].
    + eapply Forall_impl; [|exact F']. intros y. apply pext_post, samep_ext, S.
    + intros [p'' ps] _ (S' & F'' & L). cbn [fst snd fine] in *. split; [eapply samep_trans; eassumption|]. split; [|cbn; lia]. constructor; [exact X'|].
      eapply Forall_impl; [|exact F'']. intros y. apply pext_post, samep_ext. destruct S as (A & B & C & D). repeat split; congruence.
Qed.
Lemma agree_get {A B} (f : A -> B) (P : A -> Prop) x y a : agree f P x y -> x = Ok a -> y = Ok (f a).
Proof. intros H ->. apply H. Qed.
Lemma finalize_posts_fine date p posts : pgood p -> keyed p -> Forall (vpost p) posts ->
  (strict = true -> forall r, finalize_posts date (v_pool p) (map v_post posts) = Ok r -> forall x a, In x (snd r) -> po_amount x = Some a -> a_c a <> None) ->
  fine (fun r => samep p (fst r) /\ Forall (vpost p) (snd r)) (h_finalize_posts strict date p posts).
Proof.
  intros G K F S. unfold h_finalize_posts. unfold finalize_posts in S.
  eapply fine_bind; [apply (sum_fine p posts F 0 [] None); [constructor|cbn; lia]|]. intros [b n] ES (B & N & RI). cbn [fst snd] in *.
  pose proof (agree_get _ _ _ _ _ (sum_agree p posts K 0 [] None) ES) as VS. cbn [map fst snd] in VS. change bal_new with ([] : balance) in S. rewrite VS in S. cbn [bind] in S. rewrite map_length in S.
  destruct (length posts =? 1); [exact I|].
  eapply (fine_bind (fun r => Forall (vpost p) (fst r) /\ (n <> None -> r = (posts, b)))).
  { destruct n; [split; [exact F|reflexivity]|]. eapply fine_weaken; [|apply infer_fine; assumption]. intros r _ Q. split; [exact Q|contradiction]. }
  intros [posts1 b1] _ (F1 & E1). cbn [fst] in *.
  eapply fine_bind; [apply price_fine; [exact G|exact F1]|]. intros [p' posts2] EP (SP & F2 & L2). cbn [fst snd] in *.
  destruct n as [i|]; [|split; assumption]. assert (X1 := E1 ltac:(discriminate)). injection X1 as -> ->.
  pose proof (agree_get _ _ _ _ _ (price_agree strict date posts p K) EP) as VP. unfold v_priced in VP. cbn [fst snd] in VP.
  destruct b as [|b0 [|b2 b1]]; try exact I. cbn [map bind] in S. rewrite VP in S. cbn [bind] in S.
  assert (B0 : vamt p b0) by (inversion B; assumption).
  eapply fine_bind; [apply inverse_fine|].
  - apply (samep_ext _ _ SP). exact B0.
  - intros T NB. specialize (S T _ eq_refl). cbn [snd] in S.
    destruct (RI i eq_refl) as [Q|Q]; [discriminate|]. rewrite <- L2 in Q. destruct (nth_error posts2 i) as [x|] eqn:EX; [|apply nth_error_None in EX; lia].
    apply (S (set_amount (v_post x) (amt_inverse (v_amount b0))) (amt_inverse (v_amount b0))).
    + apply nth_error_In with i. rewrite nth_error_update_nth, Nat.eqb_refl, nth_error_map, EX. reflexivity.
    + reflexivity.
    + unfold amt_inverse. cbn. rewrite NB. reflexivity.
  - intros a _ EA. cbn [fine fst snd]. split; [exact SP|]. apply Forall_forall. intros x X. apply In_nth_error in X as (k & X). rewrite nth_error_update_nth in X.
    rewrite Forall_forall in F2. destruct (k =? i); [|apply F2; eapply nth_error_In, X].
    destruct (nth_error posts2 k) as [y|] eqn:EY; [|discriminate]. injection X as <-. apply nth_error_In in EY. apply F2 in EY as [_ C]. split; cbn; [|exact C].
    unfold vamt. rewrite EA. exact B0.
Qed.

(** ** The pool grows *)
Hypothesis GR : grows pol.
Definition psmall (p : hpool) : Prop := length (hp_comms p) <= map_next pol 0.
Lemma foc_length p s ann : length (hp_comms p) <= length (hp_comms (fst (hp_find_or_create pol p s ann))).
Proof.
  unfold hp_find_or_create. destruct s as [|c s]; [cbn; lia|]. destruct (lookup (c :: s) (hp_comms p)) eqn:E.
  - destruct ann; [destruct (lookup (c :: s) (hp_ann p))|]; cbn; lia.
  - cbn [hp_create fst hp_comms]. rewrite insert_keys_new by exact E. rewrite app_length. cbn. lia.
Qed.
Definition oann (p : hpool) (ann : option hannotation) : Prop := match ann with Some an => oamt p (hn_price an) | None => True end.
Lemma foc_fine p s ann : pgood p -> oann p ann -> psmall (fst (hp_find_or_create pol p s ann)) ->
  pgood (fst (hp_find_or_create pol p s ann)) /\ pext p (fst (hp_find_or_create pol p s ann)) /\ vptr (fst (hp_find_or_create pol p s ann)) (snd (hp_find_or_create pol p s ann)).
Proof.
  intros (G1 & G2 & G3) A. unfold hp_find_or_create. destruct s as [|c s]; [intros _; repeat split; auto using pext_refl|]. set (k := c :: s).
  destruct (lookup k (hp_comms p)) as [d|] eqn:E.
  - intros _. assert (V : vptr p (Some (AComm (al_gen (hp_alloc p)) k))) by (cbn; rewrite Nat.eqb_refl, E; eauto).
    destruct ann as [a|]; [|cbn [fst snd]; split; [repeat split; assumption|split; [apply pext_refl|exact V]]].
    destruct (lookup k (hp_ann p)) as [b|] eqn:F; cbn [fst snd]; [split; [repeat split; assumption|split; [apply pext_refl|exact V]]|].
    split; [|split; [intros o H; exact H|exact V]]. split; [exact G1|]. split; [exact G2|]. cbn [hp_ann]. intros s' an. rewrite lookup_insert. destruct (str_eqb s' k).
    + intros X. injection X as <-. exact A.
    + intros X. apply (G3 _ _ X).
  - unfold hp_create, psmall. cbn [fst snd hp_comms]. rewrite insert_keys_new by exact E. rewrite app_length. cbn [length]. intros SM.
    set (p' := mkHPool _ _ _ _ _).
    assert (AL : hp_alloc p' = after (map_next pol) (S (length (hp_comms p)))) by (cbn; rewrite G1; reflexivity).
    assert (X : pext p p').
    { intros [a|]; cbn [vptr]; [|auto]. destruct a as [| | | |g s']; cbn [h_commodity]; try (intros (y & Y); discriminate).
      destruct (Nat.eqb_spec g (al_gen (hp_alloc p))) as [->|]; [|intros (y & Y); discriminate].
      destruct (lookup s' (hp_comms p)) as [y|] eqn:L; [|intros (y & Y); discriminate]. intros _. rewrite AL, G1.
      rewrite (small_same (map_next pol) (proj2 GR) (length (hp_comms p)) (S (length (hp_comms p)))).
      - rewrite Nat.eqb_refl. cbn [p' hp_comms]. rewrite <- insert_keys_new by exact E. rewrite lookup_insert, L. destruct (str_eqb s' k); eauto.
      - destruct (hp_comms p); [discriminate|cbn; lia].
      - lia. }
    assert (V : vptr p' (Some (AComm (al_gen (hp_alloc p')) k))).
    { cbn [vptr h_commodity]. rewrite Nat.eqb_refl. cbn [p' hp_comms]. rewrite <- insert_keys_new by exact E. rewrite lookup_insert, str_eqb_refl. eauto. }
    split; [|split; [exact X|exact V]]. split; [rewrite AL; cbn [p' hp_comms]; rewrite app_length; cbn; rewrite Nat.add_1_r; reflexivity|]. split.
    + cbn [p' hp_nodes]. apply Forall_app. split; [eapply Forall_impl; [|exact G2]; intros a; apply X|]. constructor; [exact V|constructor].
    + cbn [p' hp_ann]. intros s' an. destruct ann as [a|].
      * rewrite lookup_insert. destruct (str_eqb s' k); [intros Q; injection Q as <-; eapply pext_oamt; [exact X|exact A]|].
        intros Q. eapply pext_oamt; [exact X|]. apply (G3 _ _ Q).
      * intros Q. eapply pext_oamt; [exact X|]. apply (G3 _ _ Q).
Qed.
Lemma parts_fine p q s : pgood p -> psmall (fst (h_amount_parts pol p q s)) ->
  pgood (fst (h_amount_parts pol p q s)) /\ pext p (fst (h_amount_parts pol p q s)) /\ oamt (fst (h_amount_parts pol p q s)) (snd (h_amount_parts pol p q s)).
Proof.
  intros G. unfold h_amount_parts. pose proof (foc_fine p s None G I) as H. destruct (hp_find_or_create pol p s None) as [p1 c]. cbn [fst snd] in *.
  intros S. destruct (H S) as (A & B & C). split; [exact A|]. split; [exact B|]. destruct (d_from_str q); [exact C|exact I].
Qed.
Lemma parts_length p q s : length (hp_comms p) <= length (hp_comms (fst (h_amount_parts pol p q s))).
Proof. unfold h_amount_parts. pose proof (foc_length p s None). destruct (hp_find_or_create pol p s None) as [p1 c]. exact H. Qed.
Lemma annotation_fine p d q s r : pgood p -> h_annotation_parse pol p d q s = Ok r ->
  length (hp_comms p) <= length (hp_comms (fst r)) /\ (psmall (fst r) -> pgood (fst r) /\ pext p (fst r) /\ oann (fst r) (Some (snd r))).
Proof.
  intros G. unfold h_annotation_parse. pose proof (foc_fine p s None G I) as H. pose proof (foc_length p s None) as L. destruct (hp_find_or_create pol p s None) as [p1 c]. cbn [fst snd] in *.
  intros E. inv_bind E. injection E as <-. cbn [fst snd]. split; [exact L|]. intros S. destruct (H S) as (A & B & C). split; [exact A|]. split; [exact B|].
  cbn. destruct (d_from_str q); [exact C|exact I].
Qed.
Lemma cost_fine p t amt r : pgood p -> oamt p amt -> h_parse_cost pol p t amt = Ok r ->
  length (hp_comms p) <= length (hp_comms (fst r)) /\ (psmall (fst r) -> pgood (fst r) /\ pext p (fst r) /\ oamt (fst r) (snd r)).
Proof.
  intros G A. unfold h_parse_cost. destruct amt as [a|]; [|intros E; injection E as <-; cbn; auto using pext_refl].
  destruct (is_empty _); [intros E; injection E as <-; cbn; auto using pext_refl|].
  pose proof (parts_fine p (t_cost_quantity t) (t_cost_symbol t) G) as H. pose proof (parts_length p (t_cost_quantity t) (t_cost_symbol t)) as L.
  destruct (h_amount_parts pol p (t_cost_quantity t) (t_cost_symbol t)) as [p1 c]. cbn [fst snd] in *.
  destruct c as [c|]; [|intros E; injection E as <-; cbn [fst snd]; auto].
  destruct (t_is_per_unit t); [|intros E; injection E as <-; cbn [fst snd]; auto].
  intros E. inv_bind E. injection E as <-. cbn [fst snd]. split; [exact L|]. intros S. destruct (H S) as (B & C & D). split; [exact B|]. split; [exact C|].
  pose proof (mul_assign_fine c a) as M. rewrite EQ in M. cbn in M. cbn. unfold vamt. rewrite M. apply vptr_or; [exact D|]. apply C. exact A.
Qed.
Lemma price_directive_fine p line v : pgood p -> keyed p -> parse_price_directive (v_pool p) line = Ok v -> length (p_comms v) <= map_next pol 0 ->
  fine (fun p' => pgood p' /\ pext p p') (h_price_directive pol p line).
Proof.
  intros G K. unfold h_price_directive, parse_price_directive.
  destruct (scan_price_directive line) as [[[[[td tt] tc] tq] tp]|e|]; cbn [bind]; try discriminate.
  destruct (parse_date_opt td) as [d|]; cbn [unwrap bind]; try discriminate.
  destruct (if is_empty tt then _ else _) as [tm|e|]; cbn [bind]; try discriminate.
  destruct (foc_agree pol p tc None K) as [E K1]. cbn [option_map] in E. rewrite E. pose proof (foc_fine p tc None G I) as H1. destruct (hp_find_or_create pol p tc None) as [p1 c]. cbn [fst snd] in *.
  destruct (d_from_str tq) as [q|]; cbn [unwrap bind]; try discriminate.
  destruct (foc_agree pol p1 tp None K1) as [F K2]. cbn [option_map] in F. rewrite F. pose proof (fun G => foc_fine p1 tp None G I) as H2. pose proof (foc_length p1 tp None) as L2.
  destruct (hp_find_or_create pol p1 tp None) as [p2 cc]. cbn [fst snd] in *. intros V SM.
  assert (CS : p_comms v = hp_comms p2).
  { unfold pool_add_price in V. destruct (option_map symbol_of c) as [a|]; [|discriminate]. inv_bind V. destruct (comm_eqb _ _); [discriminate|].
    cbn [a_c] in V. destruct (option_map symbol_of cc); [|discriminate]. inv_bind V. injection V as <-. reflexivity. }
  rewrite CS in SM. destruct H1 as (G1 & X1 & V1); [unfold psmall; lia|]. destruct (H2 G1 SM) as (G2 & X2 & V2).
  destruct c as [a|]; [|discriminate V].
  eapply fine_weaken; [|apply add_price_fine; [apply X2, V1|exact V2]]. intros p3 _ S3. split; [eapply samep_good; eassumption|].
  eapply pext_trans; [exact X1|]. eapply pext_trans; [exact X2|]. apply samep_ext, S3.
Qed.
End Program.
