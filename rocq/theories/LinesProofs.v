(** Line ends, trailing white space and indentation do not change what is read. *)
From Coq Require Import String List NArith ZArith Bool Lia ZifyBool ZifyNat ZifyN.
From Verif Require Import Base BaseFacts Decimal Dates Amount Balance Scanner History Pool Account Journal Xact Parser.
From Verif Require Import SpecText SpecReading SpecScan SpecDates SpecWhole SpecLines ScanFacts ScanProofs DatesFacts WholeProofs.
From Verif Require ReadingFacts XactFacts.
Import ListNotations.
Open Scope nat_scope.

Lemma tail_char_ws c : tail_char c -> is_ws c = true.
Proof. intros [->|[->|[->| ->]]]; reflexivity. Qed.
Lemma tail_ws w : tail w -> forallb is_ws w = true.
Proof. intros [_ F]. apply forallb_forall. intros c H. rewrite Forall_forall in F. apply tail_char_ws, F, H. Qed.

(** ** Equal up to the tail *)
Inductive same : str -> str -> Prop :=
| same_refl s : same s s
| same_tail r w w' : tail w -> tail w' -> same (r ++ w) (r ++ w').
(** ... and the tail comes after something that is not white space. *)
Inductive firm : str -> str -> Prop :=
| firm_refl s : starts_ws s = false -> firm s s
| firm_tail c r w w' : is_ws c = false -> tail w -> tail w' -> firm (c :: r ++ w) (c :: r ++ w').
Lemma firm_same s s' : firm s s' -> same s s'.
Proof. intros [t _|c r w w' _ T T']; [constructor|]. apply (same_tail (c :: r)); assumption. Qed.
Lemma trim_same s s' : same s s' -> firm (trim_start s) (trim_start s').
Proof.
  intros [t|r w w' T T'].
  - constructor. destruct (trim_start_spec t) as (w & _ & _ & H). exact H.
  - destruct (trim_start_spec r) as (v & E & V & H). rewrite E, <- !app_assoc, !(trim_start_app v) by exact V.
    destruct (trim_start r) as [|c r'] eqn:R.
    + cbn [app]. rewrite !trim_start_ws by (apply tail_ws; assumption). constructor. reflexivity.
    + cbn in H. cbn [app]. rewrite !trim_start_id by exact H. constructor; assumption.
Qed.
Lemma trim_both s s' : same s s' -> trim s = trim s'.
Proof.
  intros S. unfold trim. destruct (trim_same _ _ S) as [t _|c r w w' _ T T']; [reflexivity|].
  change (c :: r ++ w) with ((c :: r) ++ w). change (c :: r ++ w') with ((c :: r) ++ w').
  rewrite !trim_end_app by (apply tail_ws; assumption). reflexivity.
Qed.
Lemma trim_end_both s s' : same s s' -> trim_end s = trim_end s'.
Proof. intros [t|r w w' T T']; [reflexivity|]. rewrite !trim_end_app by (apply tail_ws; assumption). reflexivity. Qed.
Lemma same_skip s s' n : firm s s' -> 1 <= n -> (forall c r, s = c :: r -> n = 1) -> same (skipn n s) (skipn n s').
Proof.
  intros [t _|c r w w' _ T T'] H K; [constructor|]. rewrite (K c (r ++ w) eq_refl). apply same_tail; assumption.
Qed.

(** ** Splitting at a character *)
Definition cut (p : N -> bool) (s : str) : option (str * str) :=
  match find_char p s with Some i => Some (firstn i s, skipn i s) | None => None end.
Lemma cut_app p a b : forallb (fun c => negb (p c)) a = true -> cut p (a ++ b) = match cut p b with Some (x, y) => Some (a ++ x, y) | None => None end.
Proof.
  unfold cut. induction a as [|c a IH]; cbn [app forallb find_char]; intros H; [destruct (find_char p b); reflexivity|].
  apply andb_prop in H as [H1 H2]. apply negb_true_iff in H1. rewrite H1. specialize (IH H2).
  destruct (find_char p (a ++ b)) as [i|], (find_char p b) as [k|]; cbn [option_map firstn skipn]; try discriminate; [|reflexivity].
  injection IH as E1 E2. rewrite E1, E2. reflexivity.
Qed.
Lemma cut_in p a b x y : cut p a = Some (x, y) -> cut p (a ++ b) = Some (x, y ++ b).
Proof.
  unfold cut. revert x y. induction a as [|c a IH]; intros x y; cbn [app find_char]; [discriminate|].
  destruct (p c); [intros [= <- <-]; reflexivity|]. destruct (find_char p a) as [i|]; cbn [option_map firstn skipn]; [|discriminate].
  intros [= <- <-]. specialize (IH _ _ eq_refl). destruct (find_char p (a ++ b)) as [k|]; [|discriminate]. cbn [option_map firstn skipn].
  injection IH as -> ->. reflexivity.
Qed.
Lemma cut_here p c b : p c = true -> cut p (c :: b) = Some ([], c :: b).
Proof. unfold cut. cbn [find_char]. intros ->. reflexivity. Qed.
Lemma cut_none p s : cut p s = None <-> forallb (fun c => negb (p c)) s = true.
Proof. unfold cut. rewrite <- find_char_none. destruct (find_char p s); split; congruence. Qed.
(** The separator is a character of every tail. *)
Lemma cut_stop p s s' : (forall c, tail_char c -> p c = true) -> same s s' ->
  match cut p s, cut p s' with
  | Some (x, y), Some (x', y') => x = x' /\ same y y'
  | None, None => s = s'
  | _, _ => False
  end.
Proof.
  intros P [t|r w w' T T'].
  - destruct (cut p t) as [[x y]|]; auto using same_refl.
  - destruct (cut p r) as [[x y]|] eqn:C.
    + rewrite !(cut_in _ _ _ _ _ C). split; [reflexivity|]. apply same_tail; assumption.
    + apply cut_none in C. rewrite !cut_app by exact C.
      destruct T as [N F], T' as [N' F']. destruct w as [|c w]; [congruence|]. destruct w' as [|c' w']; [congruence|].
      assert (P1 : p c = true) by (apply P; inversion F; assumption). assert (P2 : p c' = true) by (apply P; inversion F'; assumption). rewrite !cut_here by assumption. rewrite !app_nil_r. split; [reflexivity|].
      apply (same_tail []); split; assumption.
Qed.
(** The separator is in no tail. *)
Lemma cut_pass p s s' : (forall c, tail_char c -> p c = false) -> same s s' ->
  match cut p s, cut p s' with
  | Some (x, y), Some (x', y') => x = x' /\ same y y' /\ exists c z z', y = c :: z /\ y' = c :: z' /\ p c = true /\ same z z'
  | None, None => True
  | _, _ => False
  end.
Proof.
  assert (H : forall t x y, cut p t = Some (x, y) -> exists c z, y = c :: z /\ p c = true).
  { intros t x y. unfold cut. destruct (find_char p t) as [i|] eqn:E; [|discriminate]. intros [= <- <-].
    pose proof (ReadingFacts.find_char_split p t) as K. rewrite E in K. destruct K as (c & r & _ & -> & Pc & _). eauto. }
  intros P [t|r w w' T T'].
  - destruct (cut p t) as [[x y]|] eqn:C; [|exact I]. destruct (H _ _ _ C) as (c & z & -> & Pc). split; [reflexivity|]. split; [constructor|].
    exists c, z, z. auto using same_refl.
  - destruct (cut p r) as [[x y]|] eqn:C.
    + rewrite !(cut_in _ _ _ _ _ C). destruct (H _ _ _ C) as (c & z & -> & Pc). split; [reflexivity|]. split; [apply same_tail; assumption|].
      exists c, (z ++ w), (z ++ w'). cbn [app]. auto using same_tail.
    + apply cut_none in C. rewrite !cut_app by exact C.
      assert (Z : forall v, tail v -> cut p v = None).
      { intros v [_ F]. apply cut_none, forallb_forall. intros c Hc. rewrite Forall_forall in F. rewrite P; auto. }
      rewrite !Z by assumption. exact I.
Qed.

(** ** Amounts *)
Lemma q_stop c : tail_char c -> negb (is_qchar c) = true. Proof. intros [->|[->|[->| ->]]]; reflexivity. Qed.
Lemma s_stop c : tail_char c -> is_sym_end c = true. Proof. intros [->|[->|[->| ->]]]; reflexivity. Qed.
Lemma quantity_same s s' : same s s' -> fst (scan_quantity s) = fst (scan_quantity s') /\ firm (snd (scan_quantity s)) (snd (scan_quantity s')).
Proof.
  intros S. assert (K := cut_stop _ _ _ q_stop S). unfold cut in K. unfold scan_quantity.
  destruct (find_char _ s) as [i|], (find_char _ s') as [k|]; try (destruct K; fail); cbn [fst snd].
  - destruct K as [E K]. split; [exact E|]. apply trim_same, K.
  - split; [exact K|]. constructor. reflexivity.
Qed.
Lemma symbol_same s s' : same s s' -> fst (scan_symbol s) = fst (scan_symbol s') /\ firm (snd (scan_symbol s)) (snd (scan_symbol s')).
Proof.
  intros S. apply trim_same in S. assert (K := cut_stop _ _ _ s_stop (firm_same _ _ S)). unfold cut in K. unfold scan_symbol.
  destruct (find_char _ (trim_start s)) as [i|], (find_char _ (trim_start s')) as [k|]; try (destruct K; fail); cbn [fst snd].
  - destruct K as [E K]. split; [exact E|]. apply trim_same, K.
  - split; [exact K|]. constructor. reflexivity.
Qed.
Definition both {A} (R : A -> A -> Prop) (x y : outcome A) : Prop :=
  match x, y with Ok a, Ok b => R a b | Panic p, Panic q => p = q | Diverge, Diverge => True | _, _ => False end.
Definition amount_rel (x y : str * str * str) : Prop := fst x = fst y /\ firm (snd x) (snd y).
Lemma amount_same s s' : same s s' -> both amount_rel (scan_amount s) (scan_amount s').
Proof.
  intros S. apply trim_same in S. unfold scan_amount.
  assert (G : forall t t', firm t t' ->
    both amount_rel (let '(q, i) := scan_quantity t in let '(s, i) := scan_symbol i in Ok (q, s, i)) (let '(q, i) := scan_quantity t' in let '(s, i) := scan_symbol i in Ok (q, s, i))
    /\ both amount_rel (let '(s, i) := scan_symbol t in let '(q, i) := scan_quantity i in Ok (q, s, i)) (let '(s, i) := scan_symbol t' in let '(q, i) := scan_quantity i in Ok (q, s, i))).
  { intros t t' F. apply firm_same in F. split.
    - destruct (quantity_same _ _ F) as [E1 F1]. destruct (scan_quantity t) as [q i], (scan_quantity t') as [q' i']. cbn [fst snd] in *.
      destruct (symbol_same _ _ (firm_same _ _ F1)) as [E2 F2]. destruct (scan_symbol i) as [y k], (scan_symbol i') as [y' k']. cbn [fst snd] in *.
      split; cbn; [congruence|exact F2].
    - destruct (symbol_same _ _ F) as [E1 F1]. destruct (scan_symbol t) as [q i], (scan_symbol t') as [q' i']. cbn [fst snd] in *.
      destruct (quantity_same _ _ (firm_same _ _ F1)) as [E2 F2]. destruct (scan_quantity i) as [y k], (scan_quantity i') as [y' k']. cbn [fst snd] in *.
      split; cbn; [congruence|exact F2]. }
  destruct S as [t Ht|c r w w' Hc T T'].
  - destruct t as [|c t]; [reflexivity|]. destruct (G (c :: t) (c :: t)) as [G1 G2]; [constructor; exact Ht|]. destruct (is_qchar c); assumption.
  - destruct (G (c :: r ++ w) (c :: r ++ w')) as [G1 G2]; [constructor; assumption|]. destruct (is_qchar c); assumption.
Qed.

(** ** Lots *)
Lemma until_same s s' c : ~ tail_char c -> same s s' ->
  both (fun x y => fst x = fst y /\ same (skipn 1 (snd x)) (skipn 1 (snd y))) (scan_until s c) (scan_until s' c).
Proof.
  intros Nc S. unfold scan_until. assert (K := cut_pass (fun x => (x =? c)%N) s s'). unfold cut in K.
  specialize (K (fun x Hx => proj2 (N.eqb_neq x c) (fun E => Nc (eq_ind x _ Hx c E))) S).
  destruct (find_char _ s) as [i|], (find_char _ s') as [k|]; try (destruct K; fail); [|reflexivity].
  destruct K as (E & _ & x & z & z' & E1 & E2 & _ & K). cbn [both fst snd]. rewrite E1, E2. split; [exact E|exact K].
Qed.
Definition lots_rel (x y : (str * str * str) * str) : Prop := fst x = fst y /\ firm (snd x) (snd y).
Lemma until_length s c a b : scan_until s c = Ok (a, b) -> length b <= length s.
Proof.
  unfold scan_until. destruct (find_char _ s) as [i|]; [|discriminate]. intros [= <- <-]. rewrite skipn_length. lia.
Qed.
Lemma trim_length s : length (trim_start s) <= length s.
Proof. destruct (trim_start_spec s) as (w & E & _). rewrite E at 2. rewrite app_length. lia. Qed.
Lemma loop_same : forall f f' s s' q y d, firm s s' -> length s <= f -> length s' <= f' ->
  both lots_rel (annotation_loop f q y d s) (annotation_loop f' q y d s').
Proof.
  induction f as [|f IH]; intros f' s s' q y d S L L'.
  - destruct S as [s Hs|c r w w' Hc T T']; [|cbn in L; lia]. destruct s as [|c s]; [|cbn in L; lia]. destruct f'; split; cbn; auto; constructor; reflexivity.
  - assert (C : (s = [] /\ s' = []) \/ exists c t t', s = c :: t /\ s' = c :: t' /\ same t t').
    { destruct S as [s Hs|c r w w' Hc T T'].
      - destruct s as [|c s]; [left; auto|right; exists c, s, s; auto using same_refl].
      - right. exists c, (r ++ w), (r ++ w'). auto using same_tail. }
    destruct C as [[-> ->]|(c & t & t' & -> & -> & St)]; [destruct f'; split; cbn; auto; constructor; reflexivity|].
    destruct f' as [|f']; [cbn in L'; lia|]. cbn in L, L'. cbn [annotation_loop].
    assert (Next : forall a x, scan_until t x = a -> forall a', scan_until t' x = a' -> True) by auto. clear Next.
    destruct (N.eqb_spec c 123).
    + destruct (negb (is_empty q)); [reflexivity|].
      assert (U := until_same t t' 125 ltac:(unfold tail_char; lia) St).
      destruct (scan_until t 125) as [[a b]| |] eqn:E1, (scan_until t' 125) as [[a' b']| |] eqn:E2; cbn [both fst snd] in U; try (destruct U; fail); cbn [bind]; [|exact U|exact I].
      destruct U as [-> U]. destruct (scan_amount a') as [[[q' y'] i]| |]; cbn [bind]; try reflexivity.
      apply IH; [apply trim_same, U| |].
      * apply until_length in E1. pose proof (trim_length (skipn 1 b)). rewrite skipn_length in *. lia.
      * apply until_length in E2. pose proof (trim_length (skipn 1 b')). rewrite skipn_length in *. lia.
    + destruct (N.eqb_spec c 91).
      * destruct (negb (is_empty d)); [reflexivity|].
        assert (U := until_same t t' 93 ltac:(unfold tail_char; lia) St).
        destruct (scan_until t 93) as [[a b]| |] eqn:E1, (scan_until t' 93) as [[a' b']| |] eqn:E2; cbn [both fst snd] in U; try (destruct U; fail); cbn [bind]; [|exact U|exact I].
        destruct U as [-> U]. destruct (scan_date a') as [d' i].
        apply IH; [apply trim_same, U| |].
        -- apply until_length in E1. pose proof (trim_length (skipn 1 b)). rewrite skipn_length in *. lia.
        -- apply until_length in E2. pose proof (trim_length (skipn 1 b')). rewrite skipn_length in *. lia.
      * destruct (N.eqb_spec c 40); [reflexivity|]. split; [reflexivity|exact S].
Qed.
Lemma lots_same s s' : same s s' -> both lots_rel (scan_annotations s) (scan_annotations s').
Proof. intros S. apply trim_same in S. unfold scan_annotations. apply loop_same; auto. Qed.

(** ** Costs *)
Lemma ascii_tail w : tail w -> exists c v, w = c :: v /\ utf8_len c = 1 /\ (c <> 64)%N /\ (v = [] \/ tail v).
Proof.
  intros [N F]. destruct w as [|c v]; [congruence|]. exists c, v. inversion F as [|? ? H F']; subst.
  split; [reflexivity|]. split; [destruct H as [->|[->|[->| ->]]]; reflexivity|]. split; [destruct H as [->|[->|[->| ->]]]; discriminate|].
  destruct v; [left; reflexivity|right; split; [discriminate|exact F']].
Qed.
Lemma scan_cost_eq s : scan_cost s =
  match s with
  | c :: t => if (c =? 64)%N then
      match t with
      | d :: u => if (d =? 64)%N then let* (q, y, _) := (let* r := drop_bytes 1 u in scan_amount (trim_start r)) in Ok (q, y, false)
                  else let* (q, y, _) := (let* r := drop_bytes 1 t in scan_amount (trim_start r)) in Ok (q, y, true)
      | [] => Panic PSlice
      end
    else Ok ([], [], false)
  | [] => Ok ([], [], false)
  end.
Proof.
  destruct s as [|c t]; [reflexivity|]. destruct (N.eqb_spec c 64) as [->|Nc].
  - destruct t as [|d u]; [reflexivity|]. destruct (N.eqb_spec d 64) as [->|Nd].
    + cbn [scan_cost]. change (drop_bytes 3 (64%N :: 64%N :: u)) with (drop_bytes 1 u). destruct (drop_bytes 1 u) as [r| |]; cbn [bind]; try reflexivity.
    + assert (E : scan_cost (64%N :: d :: u) = let* rest := drop_bytes 2 (64%N :: d :: u) in let* (q, s, _) := scan_amount (trim_start rest) in Ok (q, s, true)).
      { unfold scan_cost. destruct d as [|p]; [reflexivity|]. do 7 (destruct p as [p|p|]; try reflexivity); congruence. }
      rewrite E. change (drop_bytes 2 (64%N :: d :: u)) with (drop_bytes 1 (d :: u)). destruct (drop_bytes 1 (d :: u)) as [r| |]; cbn [bind]; try reflexivity.
  - unfold scan_cost. destruct c as [|p]; [reflexivity|]. do 7 (destruct p as [p|p|]; try reflexivity); congruence.
Qed.
Lemma amount_blank v v' : (v = [] \/ tail v) -> (v' = [] \/ tail v') -> scan_amount (trim_start v) = scan_amount (trim_start v').
Proof.
  intros H H'. assert (Z : forall u, u = [] \/ tail u -> trim_start u = []) by (intros u [->|T]; [reflexivity|apply trim_start_ws, tail_ws, T]).
  rewrite !Z by assumption. reflexivity.
Qed.
Lemma after_at s s' : same s s' ->
  both (fun x y => fst x = fst y) (let* r := drop_bytes 1 s in scan_amount (trim_start r)) (let* r := drop_bytes 1 s' in scan_amount (trim_start r)).
Proof.
  assert (R : forall (x : outcome (str * str * str)), both (fun x y => fst x = fst y) x x) by (intros [?|?|]; cbn; auto).
  assert (A : forall t t', same t t' -> both (fun x y => fst x = fst y) (scan_amount (trim_start t)) (scan_amount (trim_start t'))).
  { intros t t' S. assert (K := amount_same _ _ (firm_same _ _ (trim_same _ _ S))). destruct (scan_amount (trim_start t)), (scan_amount (trim_start t')); cbn in *; try tauto. apply K. }
  intros [t|r w w' T T']; [apply R|]. destruct r as [|c r].
  - cbn [app]. destruct (ascii_tail w T) as (c & v & -> & U & _ & V), (ascii_tail w' T') as (c' & v' & -> & U' & _ & V').
    cbn [drop_bytes]. rewrite U, U'. cbn [Nat.leb Nat.sub]. assert (D : forall u, drop_bytes 0 u = Ok u) by (destruct u; reflexivity).
    rewrite !D. cbn [bind]. rewrite (amount_blank v v') by assumption. apply R.
  - cbn [app drop_bytes]. destruct (utf8_len c <=? 1) eqn:L; [|reflexivity].
    assert (P : 1 <= utf8_len c) by (unfold utf8_len; repeat destruct (_ <? _)%N; lia).
    apply Nat.leb_le in L. replace (1 - utf8_len c) with 0 by lia.
    assert (D : forall u, drop_bytes 0 u = Ok u) by (destruct u; reflexivity). rewrite !D. cbn [bind]. apply A, same_tail; assumption.
Qed.
Lemma cost_same s s' : firm s s' -> scan_cost s = scan_cost s'.
Proof.
  intros [t _|c r w w' Hc T T']; [reflexivity|]. rewrite !scan_cost_eq. destruct (c =? 64)%N; [|reflexivity].
  assert (C : (r = [] ) \/ exists d u, r = d :: u) by (destruct r; eauto). destruct C as [->|(d & u & ->)].
  - cbn [app]. destruct (ascii_tail w T) as (e & v & E & U & Ne & V), (ascii_tail w' T') as (e' & v' & E' & U' & Ne' & V').
    assert (K := after_at _ _ (same_tail [] w w' T T')). cbn [app] in K. rewrite E, E' in *.
    destruct (N.eqb_spec e 64); [congruence|]. destruct (N.eqb_spec e' 64); [congruence|].
    destruct (let* r := drop_bytes 1 (e :: v) in _) as [[[q y] i]| |], (let* r := drop_bytes 1 (e' :: v') in _) as [[[q' y'] i']| |]; cbn in K |- *; try tauto; congruence.
  - cbn [app]. destruct (d =? 64)%N.
    + assert (K := after_at _ _ (same_tail u w w' T T')).
      destruct (let* r := drop_bytes 1 (u ++ w) in _) as [[[q y] i]| |], (let* r := drop_bytes 1 (u ++ w') in _) as [[[q' y'] i']| |]; cbn [both fst bind] in K |- *; try tauto; congruence.
    + assert (K := after_at _ _ (same_tail (d :: u) w w' T T')). cbn [app] in K.
      destruct (let* r := drop_bytes 1 (d :: u ++ w) in _) as [[[q y] i]| |], (let* r := drop_bytes 1 (d :: u ++ w') in _) as [[[q' y'] i']| |]; cbn [both fst bind] in K |- *; try tauto; congruence.
Qed.

(** ** Postings *)
Lemma find_sub_in pat r w i : find_sub pat r = Some i -> find_sub pat (r ++ w) = Some i /\ i + length pat <= length r.
Proof.
  revert i; induction r as [|c r IH]; intros i; rewrite find_sub_eq.
  - destruct (starts_with pat []) eqn:E; [|discriminate]. intros [= <-]. apply starts_with_iff in E as (v & E). destruct pat; [|discriminate]. rewrite find_sub_eq. cbn. auto.
  - destruct (starts_with pat (c :: r)) eqn:E.
    + intros [= <-]. apply starts_with_iff in E as (v & E). rewrite find_sub_eq. 
      assert (X : starts_with pat ((c :: r) ++ w) = true) by (apply starts_with_iff; exists (v ++ w); rewrite E, app_assoc; reflexivity).
      rewrite X. split; [reflexivity|]. rewrite E, app_length. lia.
    + destruct (find_sub pat r) as [k|] eqn:F; [|discriminate]. cbn [option_map]. intros [= <-]. destruct (IH k eq_refl) as [G L].
      rewrite find_sub_eq. destruct (starts_with pat ((c :: r) ++ w)) eqn:E'.
      * exfalso. apply starts_with_iff in E' as (v & E'). cbn in L.
        assert (X : starts_with pat (c :: r) = true); [|congruence]. apply starts_with_iff. exists (skipn (length pat) (c :: r)).
        rewrite <- (firstn_skipn (length pat) (c :: r)) at 1. f_equal.
        assert (Y : firstn (length pat) ((c :: r) ++ w) = pat) by (rewrite E'; apply firstn_app_exact).
        rewrite firstn_app in Y. replace (length pat - length (c :: r)) with 0 in Y by (cbn; lia). rewrite firstn_O, app_nil_r in Y. exact Y.
      * cbn [app]. rewrite G. cbn. split; [reflexivity|lia].
Qed.
(** A separator that ends in a character that is not in the tail is not found across the border. *)
Lemma find_sub_out pat l r w : ~ In l w -> find_sub (pat ++ [l]) r = None -> find_sub (pat ++ [l]) (r ++ w) = None.
Proof.
  intros N H. apply find_sub_none. intros C. apply (find_sub_not _ _ H). clear H. revert C.
  induction w as [|c w IH] using rev_ind; [rewrite app_nil_r; auto|]. intros C. apply IH.
  - intros X. apply N, in_or_app. left. exact X.
  - rewrite app_assoc in C. eapply (contains_snoc (pat ++ [l]) _ c); [| |reflexivity|exact C].
    + rewrite last_last. intros ->. apply N, in_or_app. right. left. reflexivity.
    + destruct pat; discriminate.
Qed.
Definition after_account (a : str) (input : str) : outcome post_tokens :=
  let* (q, s, input) := scan_amount input in
  let* ((pq, ps, pd), input) := scan_annotations input in
  let* (cq, cs, pu) := match input with [] => Ok ([], [], false) | _ => scan_cost input end in
  Ok (mkPT a q s pq ps pd cq cs pu).
Lemma after_account_same a s s' : same s s' -> after_account a s = after_account a s'.
Proof.
  intros S. unfold after_account. assert (K := amount_same _ _ S).
  destruct (scan_amount s) as [[[q y] i]| |], (scan_amount s') as [[[q' y'] i']| |]; cbn [both bind] in *; try tauto; [|congruence].
  destruct K as [E F]. cbn [fst snd] in *. injection E as <- <-. assert (K := lots_same _ _ (firm_same _ _ F)).
  destruct (scan_annotations i) as [[[[pq ps] pd] k]| |], (scan_annotations i') as [[[[pq' ps'] pd'] k']| |]; cbn [both bind] in *; try tauto; [|congruence].
  destruct K as [E' F']. cbn [fst snd] in *. injection E' as <- <- <-. 
  assert (X : match k with [] => Ok ([], [], false) | _ => scan_cost k end = match k' with [] => Ok ([], [], false) | _ => scan_cost k' end).
  { destruct F' as [t _|c r w w' Hc T T']; [reflexivity|]. apply cost_same. constructor; assumption. }
  rewrite X. reflexivity.
Qed.
Lemma scan_post_eq input : scan_post input =
  match trim_start input with
  | [] => Panic PExplicit
  | c :: t => if (c =? 59)%N then Panic PExplicit
              else match find_sub [32%N; 32%N] (c :: t) with
                   | None => Ok (mkPT (trim_end (c :: t)) [] [] [] [] [] [] [] false)
                   | Some i => after_account (firstn i (c :: t)) (skipn (i + 2) (c :: t))
                   end
  end.
Proof.
  unfold scan_post. destruct (trim_start input) as [|c t]; [reflexivity|]. destruct c as [|p]; [reflexivity|].
  do 6 (destruct p as [p|p|]; try reflexivity).
Qed.
Lemma post_same c r w w' : is_ws c = false -> tail w -> tail w' ->
  (~ In 32%N w /\ ~ In 32%N w') \/ find_sub [32%N; 32%N] (c :: r) <> None ->
  scan_post (c :: r ++ w) = scan_post (c :: r ++ w').
Proof.
  intros Hc T T' H. rewrite !scan_post_eq, !trim_start_id by exact Hc. destruct (c =? 59)%N; [reflexivity|].
  change (c :: r ++ w) with ((c :: r) ++ w). change (c :: r ++ w') with ((c :: r) ++ w').
  destruct (find_sub [32%N; 32%N] (c :: r)) as [i|] eqn:F.
  - destruct (find_sub_in _ _ w _ F) as [E L], (find_sub_in _ _ w' _ F) as [E' _]. rewrite E, E'.
    cbn [length] in L. rewrite !firstn_app, !skipn_app. replace (i - length (c :: r)) with 0 by (cbn; lia). replace (i + 2 - length (c :: r)) with 0 by (cbn; lia).
    rewrite !firstn_O, !app_nil_r. cbn [skipn]. apply after_account_same, same_tail; assumption.
  - destruct H as [[N N']|H]; [|congruence]. change [32%N; 32%N] with ([32%N] ++ [32%N]) in *. rewrite (find_sub_out [32%N] 32 (c :: r) w), (find_sub_out [32%N] 32 (c :: r) w') by assumption.
    rewrite !trim_end_app by (apply tail_ws; assumption). reflexivity.
Qed.
Lemma parse_post_scan j xi s s' : scan_post s = scan_post s' -> parse_post j xi s = parse_post j xi s'.
Proof. unfold parse_post. intros ->. reflexivity. Qed.
Lemma note_same j xi s s' : same s s' -> parse_trailing_note j xi (59%N :: s) = parse_trailing_note j xi (59%N :: s').
Proof. intros S. unfold parse_trailing_note. cbn [skipn]. rewrite (trim_both _ _ S). reflexivity. Qed.

Lemma xact_line_same j xi c r w w' : c <> 10%N -> c <> 13%N -> tail w -> tail w' ->
  (~ In 32%N w /\ ~ In 32%N w') \/ settled (c :: r) -> xact_line j xi (c :: r ++ w) = xact_line j xi (c :: r ++ w').
Proof.
  intros N1 N2 T T' H. rewrite !ReadingFacts.xact_line_eq. destruct (N.eqb_spec c 32) as [->|N3]; [|reflexivity].
  assert (W : is_ws 32 = true) by reflexivity.
  destruct (trim_start_spec r) as (v & E & V & S). 
  assert (X : forall u, trim_start (32%N :: r ++ u) = trim_start (trim_start r ++ u)).
  { intros u. change (32%N :: r ++ u) with ([32%N] ++ r ++ u). rewrite trim_start_app by reflexivity. rewrite E at 1. rewrite <- app_assoc. apply trim_start_app, V. }
  rewrite !X. destruct (trim_start r) as [|d s] eqn:R.
  - cbn [app]. rewrite !trim_start_ws by (apply tail_ws; assumption). reflexivity.
  - cbn in S. cbn [app]. rewrite !trim_start_id by exact S. destruct (N.eqb_spec d 59) as [->|N4].
    + rewrite (note_same j xi (s ++ w) (s ++ w')) by (apply same_tail; assumption). reflexivity.
    + rewrite (parse_post_scan j xi (d :: s ++ w) (d :: s ++ w')); [reflexivity|]. apply post_same; try assumption.
      destruct H as [H|H]; [left; exact H|right]. 
      assert (Uniq : forall v' d' s', spaces v' -> is_ws d' = false -> r = v' ++ d' :: s' -> d' :: s' = d :: s).
      { intros v' d' s' V' D' E'. rewrite <- R, E'. rewrite trim_start_app by exact V'. rewrite trim_start_id; [reflexivity|exact D']. }
      inversion H as [c0 r0 D I0|v0 a b V0 HW|v0 b V0|c0 r0 D N0]; subst; try discriminate; try congruence.
      * inversion HW as [e a' D' Ea]. subst. cbn [app] in *.
        specialize (Uniq v0 e (a' ++ 32%N :: 32%N :: b) V0 D' ltac:(symmetry; assumption)). rewrite <- Uniq.
        intros X2. apply find_sub_not in X2. apply X2. exists (e :: a'), b. reflexivity.
      * specialize (Uniq v0 59%N b V0 eq_refl ltac:(symmetry; assumption)). congruence.
Qed.

(** ** Headers *)
Lemma parse_date_tail r w : tail w -> parse_date_opt (r ++ w) = None.
Proof.
  intros T. destruct (parse_date_opt (r ++ w)) as [d|] eqn:E; [|reflexivity]. exfalso. apply parse_date_iff in E.
  destruct E as (ty & tm & td & E & _ & _ & (v & ds & -> & _ & D & L & _) & _).
  destruct T as [N F]. destruct (exists_last N) as (w0 & c & ->). destruct ds as [|e ds] using rev_ind; [cbn in L; lia|]. clear IHds.
  assert (X : c = e).
  { assert (Y : last (r ++ w0 ++ [c]) 0%N = last (ty ++ 45%N :: tm ++ 45%N :: v ++ ds ++ [e]) 0%N) by (rewrite E; reflexivity).
    rewrite app_assoc, last_last in Y. rewrite Y. 
    replace (ty ++ 45%N :: tm ++ 45%N :: v ++ ds ++ [e]) with ((ty ++ 45%N :: tm ++ 45%N :: v ++ ds) ++ [e]) by (rewrite <- !app_assoc; cbn; rewrite <- !app_assoc; cbn; rewrite <- !app_assoc; reflexivity).
    apply last_last. }
  subst e. apply Forall_app in F as [_ F]. inversion F as [|? ? H]; subst. rewrite forallb_app in D. apply andb_prop in D as [_ D]. cbn in D.
  destruct H as [->|[->|[->| ->]]]; discriminate.
Qed.
Lemma parse_date_nil : parse_date_opt [] = None. Proof. reflexivity. Qed.

Definition header_rest (input : str) : outcome (str * str) :=
  let '(payee, input) := tokenize_payee input in let* note := tokenize_note input in Ok (payee, note).
Lemma payee_same s s' : same s s' -> header_rest s = header_rest s'.
Proof.
  intros [t|r w w' T T']; [reflexivity|]. unfold header_rest, tokenize_payee.
  destruct (find_sub [32%N; 32%N; 59%N] r) as [i|] eqn:F.
  - destruct (find_sub_in _ _ w _ F) as [E L], (find_sub_in _ _ w' _ F) as [E' _]. rewrite E, E'. cbn [length] in L.
    rewrite !firstn_app, !skipn_app. replace (i - length r) with 0 by lia. rewrite !firstn_O, !app_nil_r. cbn [skipn].
    assert (P : exists b, skipn i r = 32%N :: 32%N :: 59%N :: b).
    { clear -F. revert i F. induction r as [|c r IH]; intros i; rewrite find_sub_eq; [discriminate|].
      destruct (starts_with [32%N; 32%N; 59%N] (c :: r)) eqn:S.
      - intros [= <-]. apply starts_with_iff in S as (v & ->). exists v. reflexivity.
      - destruct (find_sub _ r) as [k|]; [|discriminate]. intros [= <-]. apply (IH k eq_refl). }
    destruct P as (b & ->). cbn [app]. unfold tokenize_note. change (drop_bytes 3 (32%N :: 32%N :: 59%N :: b ++ w)) with (drop_bytes 0 (b ++ w)).
    change (drop_bytes 3 (32%N :: 32%N :: 59%N :: b ++ w')) with (drop_bytes 0 (b ++ w')).
    assert (D : forall u, drop_bytes 0 u = Ok u) by (destruct u; reflexivity). rewrite !D. cbn [bind].
    rewrite (trim_both (b ++ w) (b ++ w')) by (apply same_tail; assumption). reflexivity.
  - assert (N : forall u, tail u -> ~ In 59%N u).
    { intros u [_ Fu] I0. rewrite Forall_forall in Fu. destruct (Fu _ I0) as [X|[X|[X|X]]]; discriminate. }
    change [32%N; 32%N; 59%N] with ([32%N; 32%N] ++ [59%N]) in *. rewrite (find_sub_out [32%N; 32%N] 59 r w), (find_sub_out [32%N; 32%N] 59 r w') by auto.
    rewrite (trim_both (r ++ w) (r ++ w')) by (apply same_tail; assumption). reflexivity.
Qed.
Lemma scan_date_cut s : scan_date s = match cut (fun c => (c =? 61) || (c =? 32))%N s with Some x => x | None => (s, []) end.
Proof. unfold scan_date, cut. destruct (find_char _ s); reflexivity. Qed.
Lemma aux_cut s : tokenize_aux_date s =
  match s with
  | c :: _ => if (c =? 61)%N then let t := drop_while (fun c => c =? 61)%N s in
                match cut (fun c => c =? 32)%N t with Some x => x | None => (t, []) end
              else ([], s)
  | [] => ([], [])
  end.
Proof.
  destruct s as [|c s]; [reflexivity|]. destruct (N.eqb_spec c 61) as [->|Nc].
  - unfold tokenize_aux_date, cut. cbv zeta. destruct (find_char _ _); reflexivity.
  - unfold tokenize_aux_date. destruct c as [|p]; [reflexivity|]. do 6 (destruct p as [p|p|]; try reflexivity); congruence.
Qed.
Lemma create_eq j c r : create_xact j (c :: r) =
  let '(d, i) := scan_date (c :: r) in let '(aux, i) := tokenize_aux_date i in
  let* (payee, note) := header_rest i in let* x := xact_create d aux payee note in Ok (set_xacts j (j_xacts j ++ [x])).
Proof.
  unfold create_xact, tokenize_xact_header, header_rest. destruct (scan_date (c :: r)) as [d i]. destruct (tokenize_aux_date i) as [a k].
  destruct (tokenize_payee k) as [p m]. destruct (tokenize_note m); reflexivity.
Qed.
Lemma drop_while_border p a w : (forall c, tail_char c -> p c = false) -> tail w -> drop_while p (a ++ w) = drop_while p a ++ w.
Proof.
  intros P [N F]. induction a as [|c a IH]; cbn [app drop_while].
  - destruct w as [|d w]; [congruence|]. inversion F as [|? ? H]; subst. cbn. rewrite P by exact H. reflexivity.
  - destruct (p c); [exact IH|reflexivity].
Qed.
Lemma cut_both p (a x y : str) : cut p a = Some (x, y) -> a = x ++ y /\ forallb (fun c => negb (p c)) x = true /\ exists c z, y = c :: z /\ p c = true.
Proof.
  unfold cut. destruct (find_char p a) as [i|] eqn:E; [|discriminate]. intros [= <- <-].
  pose proof (ReadingFacts.find_char_split p a) as K. rewrite E in K. destruct K as (c & r & _ & E2 & Pc & F).
  split; [symmetry; apply firstn_skipn|]. split; [exact F|]. exists c, r. auto.
Qed.
Lemma date_panics d aux payee note r w : tail w -> d = r ++ w -> xact_create d aux payee note = Panic PUnwrap.
Proof.
  intros T ->. unfold xact_create. destruct (is_empty (r ++ w)) eqn:E.
  - destruct T as [N _]. destruct r, w; try discriminate. congruence.
  - unfold parse_date. rewrite parse_date_tail by exact T. reflexivity.
Qed.
Lemma aux_panics d payee note r w r' w' aux aux' : tail w -> tail w' -> aux = r ++ w -> aux' = r' ++ w' ->
  xact_create d aux payee note = xact_create d aux' payee note.
Proof.
  intros T T' -> ->. unfold xact_create.
  assert (E : forall r w, tail w -> is_empty (r ++ w) = false).
  { intros a b [N _]. destruct a, b; try reflexivity. congruence. }
  rewrite !E by assumption. unfold parse_date. rewrite !parse_date_tail by assumption. reflexivity.
Qed.
Lemma create_same j c r w w' : is_digit c = true -> tail w -> tail w' ->
  (~ In 32%N w /\ ~ In 32%N w') \/ In 32%N r -> create_xact j (c :: r ++ w) = create_xact j (c :: r ++ w').
Proof.
  intros D T T' H. rewrite !create_eq, !scan_date_cut.
  change (c :: r ++ w) with ((c :: r) ++ w). change (c :: r ++ w') with ((c :: r) ++ w').
  set (p := fun c => ((c =? 61) || (c =? 32))%N). destruct (cut p (c :: r)) as [[x y]|] eqn:C.
  - rewrite !(cut_in _ _ _ _ _ C). destruct (cut_both p _ _ _ C) as (E & Fx & e & z & -> & Pe). rewrite !aux_cut. cbn [app].
    destruct (N.eqb_spec e 61) as [->|Ne].
    + change (61%N :: z ++ w) with ((61%N :: z) ++ w). change (61%N :: z ++ w') with ((61%N :: z) ++ w').
      assert (Q : forall c, tail_char c -> (c =? 61)%N = false) by (intros k [->|[->|[->| ->]]]; reflexivity).
      rewrite !drop_while_border by assumption. set (t := drop_while _ (61%N :: z)). cbv zeta.
      destruct (cut (fun c => (c =? 32)%N) t) as [[x' y']|] eqn:C'.
      * rewrite !(cut_in _ _ _ _ _ C'). rewrite (payee_same (y' ++ w) (y' ++ w')) by (apply same_tail; assumption). reflexivity.
      * destruct H as [[N N']|I0].
        -- assert (Z : forall u, ~ In 32%N u -> cut (fun c => (c =? 32)%N) (t ++ u) = None).
           { intros u Nu. apply cut_none. rewrite forallb_app. apply cut_none in C'. rewrite C'. apply forallb_forall. intros k Hk.
             apply negb_true_iff, N.eqb_neq. intros ->. auto. }
           rewrite !Z by assumption. destruct (header_rest []) as [[payee note]| |]; cbn [bind]; try reflexivity.
           rewrite (aux_panics x payee note t w t w' (t ++ w) (t ++ w')) by auto. reflexivity.
        -- exfalso. assert (I1 : In 32%N (61%N :: z)).
           { assert (I2 : In 32%N (c :: r)) by (right; exact I0). rewrite E in I2. apply in_app_or in I2 as [I2|I2]; [|exact I2].
             rewrite forallb_forall in Fx. specialize (Fx _ I2). discriminate. }
           apply cut_none in C'. rewrite forallb_forall in C'.
           assert (I2 : In 32%N t).
           { subst t. destruct (ReadingFacts.drop_while_split (fun c => (c =? 61)%N) (61%N :: z)) as (a & Ea & Fa & _). rewrite Ea in I1.
             apply in_app_or in I1 as [I1|I1]; [|exact I1]. rewrite forallb_forall in Fa. specialize (Fa _ I1). discriminate. }
           specialize (C' _ I2). discriminate.
    + change (e :: z ++ w) with ((e :: z) ++ w). change (e :: z ++ w') with ((e :: z) ++ w').
      rewrite (payee_same ((e :: z) ++ w) ((e :: z) ++ w')) by (apply same_tail; assumption). reflexivity.
  - apply cut_none in C. destruct H as [[N N']|I0].
    + assert (Z : forall u, tail u -> ~ In 32%N u -> cut p ((c :: r) ++ u) = None).
      { intros u [_ Fu] Nu. apply cut_none. rewrite forallb_app, C. apply forallb_forall. intros k Hk. rewrite Forall_forall in Fu.
        destruct (Fu _ Hk) as [->|[->|[->| ->]]]; try reflexivity. destruct (Nu Hk). }
      rewrite !Z by assumption. cbn [tokenize_aux_date].
      destruct (header_rest []) as [[payee note]| |]; cbn [bind]; try reflexivity.
      rewrite !(date_panics _ _ _ _ (c :: r) _ T eq_refl), !(date_panics _ _ _ _ (c :: r) _ T' eq_refl). reflexivity.
    + exfalso. rewrite forallb_forall in C. specialize (C 32%N (or_intror I0)). discriminate.
Qed.

(** ** Directives *)
Lemma take_word_same s s' : same s s' -> fst (take_word s) = fst (take_word s') /\ same (snd (take_word s)) (snd (take_word s')).
Proof.
  intros S. apply trim_same in S. assert (K := cut_stop _ _ _ tail_char_ws (firm_same _ _ S)). unfold cut in K. unfold take_word.
  destruct (find_char _ (trim_start s)) as [i|], (find_char _ (trim_start s')) as [k|]; try (destruct K; fail); cbn [fst snd].
  - exact K.
  - split; [exact K|constructor].
Qed.
Lemma general_same inc j r w w' : tail w -> tail w' -> no_price r ->
  general_directive inc j (r ++ w) = general_directive inc j (r ++ w').
Proof.
  intros T T' N. assert (S : same (r ++ w) (r ++ w')) by (apply same_tail; assumption).
  destruct (take_word_same _ _ S) as [E S2]. destruct (take_word_same _ _ S2) as [E2 _]. rewrite !ReadingFacts.general_eq, <- E, <- E2.
  destruct (take_word (r ++ w)) as [x i] eqn:W. cbn [fst snd] in *. destruct x as [|c d]; [reflexivity|].
  destruct (c =? 97)%N; [reflexivity|]. destruct (N.eqb_spec c 105) as [->|]; [|reflexivity].
  destruct (str_eqb (105%N :: d) (lit "include")) eqn:S1; [reflexivity|]. destruct (str_eqb (105%N :: d) (lit "import")) eqn:S3; [reflexivity|].
  exfalso. apply ReadingFacts.take_word_inv in W as (v & W & V & F & G).
  assert (Wr : word (105%N :: d)) by (split; [discriminate|exact F]).
  assert (X : exists i', r = v ++ (105%N :: d) ++ i' /\ (i' = [] \/ exists c r', i' = c :: r' /\ is_ws c = true)).
  { assert (Tw := tail_ws w T). clear -W F Tw T G.
    assert (P : exists i', r = (v ++ 105%N :: d) ++ i').
    { rewrite app_assoc in W. clear G. destruct (Nat.le_gt_cases (length (v ++ 105%N :: d)) (length r)) as [L|L].
      - exists (skipn (length (v ++ 105%N :: d)) r). rewrite <- (firstn_skipn (length (v ++ 105%N :: d)) r) at 1. f_equal.
        assert (Y : firstn (length (v ++ 105%N :: d)) (r ++ w) = v ++ 105%N :: d) by (rewrite W; apply firstn_app_exact).
        rewrite firstn_app in Y. replace (length (v ++ 105%N :: d) - length r) with 0 in Y by lia. rewrite firstn_O, app_nil_r in Y. exact Y.
      - exfalso. assert (Y : skipn (length r) (v ++ 105%N :: d) ++ i = w).
        { assert (Z : skipn (length r) (r ++ w) = w) by apply skipn_app_exact. rewrite W, skipn_app in Z.
          replace (length r - length (v ++ 105%N :: d)) with 0 in Z by lia. exact Z. }
        assert (K : exists u k, v ++ 105%N :: d = u ++ [k] /\ is_ws k = false).
        { destruct (exists_last (l := 105%N :: d)) as (u & k & Ek); [discriminate|]. exists (v ++ u), k. rewrite Ek, app_assoc. split; [reflexivity|].
          rewrite forallb_forall in F. apply negb_true_iff, F. rewrite Ek. apply in_or_app. right. left. reflexivity. }
        destruct K as (u & k & Ek & Wk). rewrite Ek in *. rewrite app_length in L. cbn in L. rewrite skipn_app in Y.
        replace (length r - length u) with 0 in Y by lia. cbn [skipn] in Y. rewrite <- Y in Tw. rewrite !forallb_app in Tw. cbn in Tw. rewrite Wk in Tw.
        destruct (forallb is_ws (skipn (length r) u)); discriminate. }
    destruct P as (i' & P). exists i'. rewrite <- app_assoc in P. split; [exact P|]. rewrite P, <- !app_assoc in W.
    apply app_inv_head in W. apply app_inv_head in W. subst i. destruct i' as [|e i']; [left; reflexivity|right].
    destruct G as [G|(e' & r' & G & Ge)]; [discriminate|]. injection G as -> _. eauto. }
  destruct X as (i' & X & Gi). destruct (N v (105%N :: d) i' X V Wr Gi eq_refl) as [Y|Y]; rewrite Y in *; [rewrite str_eqb_refl in S1|rewrite str_eqb_refl in S3]; discriminate.
Qed.

Lemma step_same inc m j c r w w' : c <> 10%N -> c <> 13%N -> no_price (c :: r) -> tail w -> tail w' ->
  (~ In 32%N w /\ ~ In 32%N w') \/ settled (c :: r) -> step inc m j (Some ((c :: r) ++ w)) = step inc m j (Some ((c :: r) ++ w')).
Proof.
  intros N1 N2 P T T' H. cbn [app]. destruct m as [|xi]; cbn [step]; [|apply xact_line_same; assumption].
  unfold top_line.
  assert (B : forall u, str_eqb (c :: u) [13%N; 10%N] || str_eqb (c :: u) [10%N] = false).
  { intros u. cbn. destruct (N.eqb_spec c 13); [congruence|]. destruct (N.eqb_spec c 10); [congruence|]. reflexivity. }
  rewrite !B. destruct (_ || _); [reflexivity|]. destruct (c =? 45)%N; [reflexivity|]. destruct (is_digit c) eqn:D.
  - rewrite (create_same j c r w w'); try assumption; [reflexivity|]. destruct H as [H|H]; [left; exact H|].
    inversion H; subst; try discriminate; [right; assumption|congruence].
  - destruct (_ || _); [reflexivity|]. assert (G := general_same inc j (c :: r) w w' T T' P). cbn [app] in G. rewrite G. reflexivity.
Qed.

(** ** Whole texts *)
Lemma parse_lines_ext inc inc' : forall s s' m j, (forall a j, inc a j = inc' a j) ->
  Forall2 (fun l l' => forall m j, step inc m j l = step inc m j l') s s' -> parse_lines inc m j s = parse_lines inc' m j s'.
Proof.
  intros s s' m j HI F. revert m j. assert (X : forall l m j, step inc m j l = step inc' m j l).
  { intros [l|] [|xi] j; try reflexivity. cbn [step]. unfold top_line. destruct (_ || _); [reflexivity|]. destruct l as [|c l]; [reflexivity|].
    rewrite !ReadingFacts.general_eq. destruct (fst (take_word (c :: l))) as [|d x]; [reflexivity|].
    destruct (fst (take_word (snd (take_word (c :: l))))); [reflexivity|]. rewrite HI. reflexivity. }
  induction F as [|l l' s s' H F IH]; intros m j; cbn [parse_lines]; [reflexivity|]. rewrite H, X.
  destruct (step inc' m j l') as [[m' j'|j']| |]; cbn [bind]; auto.
Qed.
Lemma crlf_app a b : crlf (a ++ b) = crlf a ++ crlf b.
Proof. apply flat_map_app. Qed.
Lemma crlf_none b : ~ In 10%N b -> crlf b = b.
Proof.
  induction b as [|c b IH]; intros N; [reflexivity|]. cbn. destruct (N.eqb_spec c 10); [subst; elim N; left; reflexivity|].
  cbn. f_equal. apply IH. intros X. apply N. right. exact X.
Qed.
Lemma crlf_line b : ~ In 10%N b -> crlf (b ++ nl) = b ++ [13%N; 10%N].
Proof. intros N. rewrite crlf_app, crlf_none by exact N. reflexivity. Qed.
Lemma text_split t : (~ In 10%N t) \/ exists b t', t = (b ++ nl) ++ t' /\ ~ In 10%N b.
Proof.
  induction t as [|c t IH]; [left; intros []|]. destruct (N.eq_dec c 10) as [->|N]; [right; exists [], t; split; [reflexivity|intros []]|].
  destruct IH as [IH|(b & t' & -> & Nb)].
  - left. intros [X|X]; [congruence|auto].
  - right. exists (c :: b), t'. split; [reflexivity|]. intros [X|X]; [congruence|auto].
Qed.
Lemma text_lines n : forall t, length t <= n -> exists ls l, t = concat ls ++ l /\ Forall one_line ls /\ ~ In 10%N l.
Proof.
  induction n as [|n IH]; intros t L; destruct (text_split t) as [N|(b & t' & -> & N)].
  - exists [], t. auto.
  - rewrite !app_length in L. cbn in L. lia.
  - exists [], t. auto.
  - destruct (IH t') as (ls & l & -> & F & Nl); [rewrite !app_length in L; cbn in L; lia|]. exists ((b ++ nl) :: ls), l. cbn [concat]. rewrite app_assoc.
    split; [reflexivity|]. split; [|exact Nl]. constructor; [exists b; auto|exact F].
Qed.
Lemma split_rest l : ~ In 10%N l -> split_lines l = match l with [] => [] | _ => [l] end.
Proof.
  intros N. destruct l as [|c l]; [reflexivity|]. unfold split_lines. rewrite split_lines_acc_end; [reflexivity|exact N|discriminate].
Qed.
Lemma tail_nl : tail nl. Proof. split; [discriminate|]. constructor; [right; left; reflexivity|constructor]. Qed.
Lemma tail_crlf : tail [13%N; 10%N].
Proof. split; [discriminate|]. constructor; [right; right; left; reflexivity|]. constructor; [right; left; reflexivity|constructor]. Qed.
Lemma step_crlf inc m j b : ~ In 13%N b -> no_price b -> step inc m j (Some (b ++ [13%N; 10%N])) = step inc m j (Some (b ++ nl)).
Proof.
  intros N P. destruct b as [|c r].
  - destruct m; reflexivity.
  - destruct (N.eq_dec c 10) as [->|Nc].
    + destruct m as [|xi]; [|reflexivity]. cbn [app step]. unfold top_line.
      assert (B : forall u, u <> [] -> str_eqb (10%N :: u) [13%N; 10%N] || str_eqb (10%N :: u) [10%N] = false) by (intros [|x u] X; [congruence|reflexivity]).
      rewrite !B by (destruct r; discriminate).
      change (10%N :: r ++ [13%N; 10%N]) with ((10%N :: r) ++ [13%N; 10%N]). change (10%N :: r ++ nl) with ((10%N :: r) ++ nl). cbv iota.
      rewrite (general_same inc j (10%N :: r) [13%N; 10%N] nl); [reflexivity| | |exact P].
      * first [apply tail_nl|apply tail_crlf].
      * first [apply tail_nl|apply tail_crlf].
    + apply step_same; [exact Nc| |exact P| | |].
      * intros ->. apply N. left. reflexivity.
      * first [apply tail_nl|apply tail_crlf].
      * first [apply tail_nl|apply tail_crlf].
      * left. split; cbn; intuition discriminate.
Qed.
Lemma complete_concat ls : Forall one_line ls -> complete_lines (concat ls).
Proof.
  intros F. destruct ls as [|l ls] using rev_ind; [left; reflexivity|]. right. apply Forall_app in F as [_ F]. inversion F as [|? ? (b & -> & _)]; subst.
  exists (concat ls ++ b). rewrite concat_app. cbn [concat]. rewrite app_nil_r, app_assoc. reflexivity.
Qed.
Lemma crlf_source inc t : convertible t ->
  Forall2 (fun l l' => forall m j, step inc m j l = step inc m j l') (text_source (crlf t)) (text_source t).
Proof.
  intros [N P]. destruct (text_lines (length t) t (le_n _)) as (ls & l & -> & F & Nl). unfold text_source.
  assert (G : forall pre post, ls = pre ++ post ->
    Forall2 (fun l l' => forall m j, step inc m j l = step inc m j l') (map Some (split_lines (crlf (concat post ++ l)))) (map Some (split_lines (concat post ++ l)))); [|exact (G [] ls eq_refl)].
  intros pre post. revert pre. induction post as [|k post IH]; intros pre E.
  - cbn [concat app]. rewrite crlf_none by exact Nl. apply XactFacts.Forall2_refl. auto.
  - assert (Fk : one_line k). { rewrite E in F. apply Forall_app in F as [_ F]. inversion F; assumption. }
    assert (Kp : complete_lines (concat pre)). { apply complete_concat. rewrite E in F. apply Forall_app in F as [F _]. exact F. }
    destruct Fk as (b & -> & Nb). cbn [concat]. rewrite <- app_assoc, crlf_app, crlf_line by exact Nb.
    rewrite (ReadingFacts.split_lines_app (b ++ nl)) by (right; exists b; reflexivity).
    rewrite (ReadingFacts.split_lines_app (b ++ [13%N; 10%N])) by (right; exists (b ++ [13%N]); rewrite <- app_assoc; reflexivity).
    assert (S1 : split_lines (b ++ nl) = [b ++ nl]) by (unfold split_lines; rewrite split_lines_acc_line by exact Nb; reflexivity).
    assert (S2 : split_lines (b ++ [13%N; 10%N]) = [b ++ [13%N; 10%N]]).
    { change [13%N; 10%N] with ([13%N] ++ nl). rewrite app_assoc. unfold split_lines. rewrite split_lines_acc_line; [reflexivity|].
      intros X. apply in_app_or in X as [X|[X|[]]]; [auto|discriminate]. }
    rewrite S1, S2. cbn [app map]. constructor.
    + intros m j. apply step_crlf.
      * intros X. apply N. rewrite E, concat_app. apply in_or_app. left. apply in_or_app. right. cbn [concat]. apply in_or_app. left. apply in_or_app. left. exact X.
      * apply (P (concat pre) b (concat post ++ l)); [|exact Kp|exact Nb]. rewrite E, concat_app. cbn [concat]. rewrite <- !app_assoc. reflexivity.
    + apply (IH (pre ++ [b ++ nl])). rewrite E, <- app_assoc. reflexivity.
Qed.
Definition of_texts (files : str -> option str) : filesystem := fun p => option_map text_source (files p).
Lemma crlf_include depth cwd files files' : files_converted files files' ->
  forall a j, include_file depth cwd (of_texts files') a j = include_file depth cwd (of_texts files) a j.
Proof.
  intros C. induction depth as [|d IH]; intros a j; cbn [include_file]; [reflexivity|].
  set (p := resolve cwd a).
  assert (X : included cwd (of_texts files') a = included cwd (of_texts files) a
    \/ exists t, included cwd (of_texts files) a = Ok (Some (text_source t)) /\ convertible t /\ included cwd (of_texts files') a = Ok (Some (text_source (crlf t)))).
  { unfold included. fold p. destruct (C p) as [E|(t & E1 & Ct & E2)].
    - left. unfold of_texts. rewrite E. reflexivity.
    - unfold of_texts. rewrite E1, E2. destruct (path_components p) as [|q [|q' qs]]; [left; reflexivity| |right; exists t; auto].
      destruct p as [|c p']; [left; reflexivity|].
      destruct (N.eq_dec c 47) as [->|Nc]; [right; exists t; auto|left].
      destruct c as [|k]; [reflexivity|]. do 6 (destruct k as [k|k|]; try reflexivity). congruence. }
  destruct X as [->|(t & E1 & Ct & E2)].
  - destruct (included cwd (of_texts files) a) as [[src|]| |]; cbn [bind]; try reflexivity. apply parse_lines_ext; [exact IH|].
    clear. induction src; constructor; auto.
  - rewrite E1, E2. cbn [bind]. apply parse_lines_ext; [exact IH|]. apply crlf_source, Ct.
Qed.
Lemma crlf_read depth cwd files files' t j : files_converted files files' -> convertible t ->
  parse_text depth cwd (of_texts files') (crlf t) j = parse_text depth cwd (of_texts files) t j.
Proof.
  intros C Ct. unfold parse_text, read_into_journal. apply parse_lines_ext; [apply crlf_include, C|]. apply crlf_source, Ct.
Qed.

Lemma replace_line depth cwd fs t1 l l' t2 j : complete_lines t1 -> one_line l -> one_line l' ->
  (forall inc m j, step inc m j (Some l) = step inc m j (Some l')) ->
  parse_text depth cwd fs (t1 ++ l ++ t2) j = parse_text depth cwd fs (t1 ++ l' ++ t2) j.
Proof.
  intros K (b & -> & Nb) (b' & -> & Nb') H. unfold parse_text, read_into_journal. apply parse_lines_ext; [reflexivity|]. unfold text_source.
  rewrite !(ReadingFacts.split_lines_app t1) by exact K.
  rewrite (ReadingFacts.split_lines_app (b ++ nl)), (ReadingFacts.split_lines_app (b' ++ nl)) by (right; eexists; reflexivity).
  unfold split_lines at 2 5. rewrite !split_lines_acc_line by assumption. cbn [rev app]. rewrite !map_app.
  apply Forall2_app; [|cbn [map]; constructor; [auto|]]; apply XactFacts.Forall2_refl; auto.
Qed.
Lemma trailing_read depth cwd fs t1 c r w w' t2 j : complete_lines t1 -> one_line ((c :: r) ++ w) -> one_line ((c :: r) ++ w') ->
  tail w -> tail w' -> c <> 13%N -> no_price (c :: r) -> (~ In 32%N w /\ ~ In 32%N w') \/ settled (c :: r) ->
  parse_text depth cwd fs (t1 ++ ((c :: r) ++ w) ++ t2) j = parse_text depth cwd fs (t1 ++ ((c :: r) ++ w') ++ t2) j.
Proof.
  intros K L L' T T' N P H. apply replace_line; try assumption. intros inc m j'. apply step_same; try assumption.
  intros ->. destruct L as (b & E & Nb). destruct b as [|x b].
  - cbn in E. injection E as E. destruct T as [X _]. destruct r; [cbn in E; congruence|discriminate].
  - injection E as <- _. apply Nb. left. reflexivity.
Qed.
Lemma step_indent inc m j w r : spaces w -> step inc m j (Some (32%N :: w ++ r)) = step inc m j (Some (32%N :: r)).
Proof.
  intros S. destruct m as [|xi]; [reflexivity|]. cbn [step]. rewrite !ReadingFacts.xact_line_eq. cbn [N.eqb Pos.eqb].
  change (32%N :: w ++ r) with ([32%N] ++ w ++ r). change (32%N :: r) with ([32%N] ++ r).
  rewrite !(trim_start_app [32%N]) by reflexivity. rewrite trim_start_app by exact S. reflexivity.
Qed.
Lemma indent_read depth cwd fs t1 w r t2 j : complete_lines t1 -> spaces w -> one_line (32%N :: w ++ r) -> one_line (32%N :: r) ->
  parse_text depth cwd fs (t1 ++ (32%N :: w ++ r) ++ t2) j = parse_text depth cwd fs (t1 ++ (32%N :: r) ++ t2) j.
Proof. intros K S L L'. apply replace_line; try assumption. intros. apply step_indent, S. Qed.
Lemma white_space_is c : is_ws c = true <-> In c white_space.
Proof.
  split.
  - intros H. unfold is_ws in H. unfold white_space. cbn [In].
    assert (9 = c \/ 10 = c \/ 11 = c \/ 12 = c \/ 13 = c \/ 32 = c \/ 133 = c \/ 160 = c \/ 5760 = c \/ (8192 <= c <= 8202) \/ 8232 = c \/ 8233 = c \/ 8239 = c \/ 8287 = c \/ 12288 = c)%N by lia.
    lia.
  - intros H. assert (A : forallb is_ws white_space = true) by reflexivity. rewrite forallb_forall in A. apply A, H.
Qed.

(** ** Every text has lines, and only one list of them *)
Lemma split_acc_lines t : forall acc, ~ In 10%N acc -> lines_of (rev acc ++ t) (split_lines_acc acc t).
Proof.
  induction t as [|c t IH]; intros acc N; cbn [split_lines_acc].
  - rewrite app_nil_r. destruct acc as [|a acc]; [split; [reflexivity|left; constructor]|]. split; [cbn [concat]; rewrite app_nil_r; reflexivity|].
    right. exists [], (rev (a :: acc)). split; [reflexivity|]. split; [constructor|]. split.
    + cbn [rev]. destruct (rev acc); discriminate.
    + intros X. apply in_rev in X. exact (N X).
  - destruct (N.eqb_spec c 10) as [->|Nc].
    + assert (O : one_line (rev (10%N :: acc))). { exists (rev acc). split; [reflexivity|]. intros X. apply in_rev in X. exact (N X). }
      destruct (IH [] (fun X => X)) as [E H]. cbn [rev app] in E. split; [cbn [concat rev]; rewrite <- E, <- app_assoc; reflexivity|].
      destruct H as [H|(ls & l & -> & F & Ne & Nl)]; [left; constructor; assumption|]. right. exists (rev (10%N :: acc) :: ls), l.
      split; [reflexivity|]. split; [constructor; assumption|split; assumption].
    + replace (rev acc ++ c :: t) with (rev (c :: acc) ++ t) by (cbn [rev]; rewrite <- app_assoc; reflexivity).
      apply IH. intros [X|X]; [exact (Nc X)|exact (N X)].
Qed.
Lemma text_lines_iff t ls : text_source t = map Some ls <-> lines_of t ls.
Proof.
  unfold text_source. split.
  - intros E. replace ls with (split_lines t); [exact (split_acc_lines t [] (fun X => X))|].
    revert E. generalize (split_lines t). intros l. revert ls. induction l as [|a l IH]; intros [|b ls] E; try discriminate; [reflexivity|]. cbn in E. injection E as -> E. f_equal. apply IH, E.
  - intros L. rewrite (split_lines_of _ _ L). reflexivity.
Qed.
