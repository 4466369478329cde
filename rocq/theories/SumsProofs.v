(** Proofs for C102. *)
From Coq Require Import String List NArith ZArith Bool Lia Sorting.Sorted Permutation.
From Verif Require Import Base Decimal Dates Amount Balance Scanner History Pool Account Journal Xact Parser Report Options Lib.
From Verif Require Import SpecDecimal SpecAmount SpecAccount SpecScan SpecWhole SpecReport SpecCommand SpecFull SpecEnd SpecFullEnd SpecOrder SpecSums.
From Verif Require Import BaseFacts BalanceFacts ReportFacts FullEndProofs OrderProofs.
Import ListNotations.
Open Scope list_scope.
Open Scope nat_scope.

(** Any sum over accounts and commodities is made of the sums of each. *)
Definition weigh (g : path * comm -> bool) (es : list entry) : Z := sumZ (map snd (filter (fun e => g (fst e)) es)).
Lemma sumZ_cons x l : sumZ (x :: l) = (x + sumZ l)%Z.
Proof. reflexivity. Qed.
Lemma own_cons k e es : own_sum k (e :: es) = ((if key_dec (fst e) k then snd e else 0) + own_sum k es)%Z.
Proof. unfold own_sum. cbn [filter]. destruct (key_dec (fst e) k); cbn [map]; [rewrite sumZ_cons|]; lia. Qed.
Lemma weigh_cons g e es : weigh g (e :: es) = ((if g (fst e) then snd e else 0) + weigh g es)%Z.
Proof. unfold weigh. cbn [filter]. destruct (g (fst e)); cbn [map]; [rewrite sumZ_cons|]; lia. Qed.
Lemma single_sum (f : path * comm -> Z) k keys : NoDup keys -> In k keys -> (forall k', k' <> k -> f k' = 0%Z) -> sumZ (map f keys) = f k.
Proof.
  intros N I Z. induction keys as [|x keys IH]; [destruct I|]. inversion N as [|? ? Nx Nk]; subst. cbn [map]. rewrite sumZ_cons. destruct I as [->|I].
  - assert (X : sumZ (map f keys) = 0%Z).
    { clear IH N Nk. induction keys as [|y keys IHk]; [reflexivity|]. cbn [map]. rewrite sumZ_cons. rewrite IHk by (intros H; apply Nx; right; exact H). rewrite Z; [reflexivity|]. intros ->. apply Nx. left. reflexivity. }
    lia.
  - rewrite (IH Nk I), (Z x); [reflexivity|]. intros ->. contradiction.
Qed.
Lemma sumZ_plus (f h : path * comm -> Z) keys : sumZ (map (fun k => f k + h k)%Z keys) = (sumZ (map f keys) + sumZ (map h keys))%Z.
Proof. induction keys as [|k keys IH]; [reflexivity|]. cbn [map]. rewrite !sumZ_cons, IH. lia. Qed.
Lemma weigh_keys g keys es : NoDup keys -> (forall e, In e es -> In (fst e) keys) ->
  weigh g es = sumZ (map (fun k => if g k then own_sum k es else 0%Z) keys).
Proof.
  intros N. induction es as [|e es IH]; intros C.
  - clear. induction keys as [|k keys IH]; [reflexivity|]. cbn [map]. rewrite sumZ_cons, <- IH. destruct (g k); reflexivity.
  - rewrite weigh_cons, IH by (intros e' I; apply C; right; exact I).
    rewrite (map_ext (fun k => if g k then own_sum k (e :: es) else 0%Z) (fun k => ((if g k then (if key_dec (fst e) k then snd e else 0) else 0) + (if g k then own_sum k es else 0))%Z)).
    2:{ intros k. rewrite own_cons. destruct (g k); lia. }
    rewrite sumZ_plus. f_equal. rewrite (single_sum _ (fst e) keys N (C e (or_introl eq_refl))).
    + destruct (key_dec (fst e) (fst e)); [reflexivity|congruence].
    + intros k' D. destruct (key_dec (fst e) k'); [congruence|]. destruct (g k'); reflexivity.
Qed.
Lemma weigh_same g es es' : same_sums es es' -> weigh g es = weigh g es'.
Proof.
  intros S. set (keys := nodup key_dec (map fst es)).
  assert (N : NoDup keys) by apply NoDup_nodup.
  rewrite (weigh_keys g keys es N), (weigh_keys g keys es' N).
  - f_equal. apply map_ext. intros k. rewrite (proj2 (S k)). reflexivity.
  - intros [k u] I. apply nodup_In. destruct (proj2 (proj1 (S k)) (ex_intro _ u I)) as [u' I']. cbn [fst]. change k with (fst (k, u')). apply in_map, I'.
  - intros e I. apply nodup_In, in_map, I.
Qed.
Lemma below_sum c q es : sum_in c (below q es) = weigh (fun k => prefix_of q (fst k) && if comm_dec (snd k) c then true else false) es.
Proof.
  unfold sum_in, below, weigh. f_equal. f_equal. induction es as [|e es IH]; [reflexivity|]. cbn [filter]. destruct (prefix_of q (fst (fst e))) eqn:E; cbn [filter andb].
  - destruct (comm_dec (snd (fst e)) c); rewrite IH; reflexivity.
  - exact IH.
Qed.
Lemma same_in es es' : same_sums es es' -> forall e, In e es -> exists e', In e' es' /\ fst e' = fst e.
Proof. intros S [k u] I. destruct (proj1 (proj1 (S k)) (ex_intro _ u I)) as [u' I']. exists (k, u'). auto. Qed.
Lemma same_sym es es' : same_sums es es' -> same_sums es' es.
Proof. intros S k. destruct (S k) as [A B]. split; [symmetry; exact A|symmetry; exact B]. Qed.
Lemma same_trans a b c : same_sums a b -> same_sums b c -> same_sums a c.
Proof. intros S T k. destruct (S k) as [A B], (T k) as [A' B']. split; [rewrite A; exact A'|congruence]. Qed.
Lemma accounts_sums es es' ps ps' : same_sums es es' -> accounts_of_entries es ps -> accounts_of_entries es' ps' -> ps = ps'.
Proof.
  intros P [S I] [S' I']. apply (sorted_unique path_lt); [|exact S|exact S'|].
  - intros a b H H'. elim (path_lt_asym _ _ H H').
  - apply NoDup_Permutation; [apply sorted_nodup, S|apply sorted_nodup, S'|]. intros p. rewrite I, I'. split; (intros [H|(e & H & Hp)]; [left; exact H|right]).
    + destruct (same_in _ _ P e H) as (e' & He & E). exists e'. rewrite E. auto.
    + destruct (same_in _ _ (same_sym _ _ P) e H) as (e' & He & E). exists e'. rewrite E. auto.
Qed.
Lemma totals_sums q es es' b b' : same_sums es es' -> totals_said (below q es) b -> totals_said (below q es') b' -> same_amounts b b'.
Proof.
  intros P (N & I & _ & V) (N' & I' & _ & V'). split; [exact N|]. split; [exact N'|].
  assert (D : forall l : balance, NoDup (map a_c l) -> NoDup (map (fun a => (a_c a, aunits a)) l)).
  { intros l H. apply (NoDup_map_inv fst). rewrite map_map. exact H. }
  apply NoDup_Permutation; [apply D, N|apply D, N'|].
  assert (X : forall es es' (b b' : balance), same_sums es es' -> (forall c, In c (map a_c b) <-> exists e, In e (below q es) /\ snd (fst e) = c) -> (forall a, In a b -> aunits a = sum_in (a_c a) (below q es)) ->
    (forall c, In c (map a_c b') <-> exists e, In e (below q es') /\ snd (fst e) = c) -> (forall a, In a b' -> aunits a = sum_in (a_c a) (below q es')) ->
    forall x, In x (map (fun a => (a_c a, aunits a)) b) -> In x (map (fun a => (a_c a, aunits a)) b')).
  { clear. intros es es' b b' P I V I' V' x H. apply in_map_iff in H as (a & <- & Ha).
    assert (C : In (a_c a) (map a_c b')).
    { apply I'. assert (C : In (a_c a) (map a_c b)) by (apply in_map, Ha). apply I in C as (e & He & Ec). apply filter_In in He as [He Hp]. destruct (same_in _ _ P e He) as (e' & He' & E').
      exists e'. rewrite E'. split; [apply filter_In; rewrite E'; split; [exact He'|exact Hp]|exact Ec]. }
    apply in_map_iff in C as (a' & Ec & Ha'). apply in_map_iff. exists a'. split; [|exact Ha']. rewrite (V a Ha), (V' a' Ha'), Ec, !below_sum, (weigh_same _ _ _ P). reflexivity. }
  intros x. split; [apply (X es es')|apply (X es' es)]; auto. apply same_sym, P.
Qed.
Lemma text_sums es es' ps out out' : same_sums es es' ->
  Forall2 (fun p line => exists b, totals_said (below p es) b /\ line = lit "Account " ++ shown_name p ++ lit " has balance " ++ shown_amounts b) ps out ->
  Forall2 (fun p line => exists b, totals_said (below p es') b /\ line = lit "Account " ++ shown_name p ++ lit " has balance " ++ shown_amounts b) ps out' ->
  same_report out out'.
Proof.
  intros P F. revert out'. induction F as [|p l ps out (b & T & E) F IH]; intros out' F'; inversion F' as [|? l' ? ? (b' & T' & E') F'']; subst.
  - exists []. repeat constructor.
  - destruct (IH _ F'') as (rows & A & -> & ->). exists ((p, b, b') :: rows). split; [|split; reflexivity].
    constructor; [|exact A]. eapply totals_sums; [exact P|exact T|exact T'].
Qed.
Theorem sums_balance d c f args files verb ws d' c' f' args' files' verb' ws' :
  said_run d c f args files verb ws -> balance_verb verb -> said_run d' c' f' args' files' verb' ws' -> balance_verb verb' ->
  Forall xact_ok ws -> lots_ok (j_pool journal_new) ws -> full_sums_fit ws ->
  Forall xact_ok ws' -> lots_ok (j_pool journal_new) ws' -> full_sums_fit ws' -> same_sums (full_entries ws) (full_entries ws') ->
  exists out out', run d c f args = Ok out /\ run d' c' f' args' = Ok out' /\ same_report out out'.
Proof.
  intros (cm & wss & A & F & ->) V (cm' & wss' & A' & F' & ->) V' K L S K' L' S' P.
  destruct (full_balance _ _ _ _ _ _ _ _ A V F K L S) as (out & ps & R & Ac & O).
  destruct (full_balance _ _ _ _ _ _ _ _ A' V' F' K' L' S') as (out' & ps' & R' & Ac' & O').
  exists out, out'. split; [exact R|]. split; [exact R'|]. rewrite (accounts_sums _ _ _ _ P Ac Ac') in O. eapply text_sums; eassumption.
Qed.
Theorem sums_accounts d c f args files verb ws d' c' f' args' files' verb' ws' :
  said_run d c f args files verb ws -> accounts_verb verb -> said_run d' c' f' args' files' verb' ws' -> accounts_verb verb' ->
  Forall xact_ok ws -> lots_ok (j_pool journal_new) ws -> Forall xact_ok ws' -> lots_ok (j_pool journal_new) ws' ->
  same_sums (full_entries ws) (full_entries ws') ->
  exists out, run d c f args = Ok out /\ run d' c' f' args' = Ok out.
Proof.
  intros (cm & wss & A & F & ->) V (cm' & wss' & A' & F' & ->) V' K L K' L' P.
  destruct (full_accounts _ _ _ _ _ _ _ _ A V F K L) as (out & ps & R & Ac & Pe & So).
  destruct (full_accounts _ _ _ _ _ _ _ _ A' V' F' K' L') as (out' & ps' & R' & Ac' & Pe' & So').
  exists out. split; [exact R|]. rewrite R'. f_equal. apply (sorted_unique (fun a b => str_lt a b \/ a = b)); [|exact So'|exact So|].
  - intros a b [H|H] [H'|H']; auto. elim (str_lt_irrefl _ (str_lt_trans _ _ _ H H')).
  - rewrite Pe, Pe', (accounts_sums _ _ _ _ P Ac Ac'). reflexivity.
Qed.

(** ** Splitting and merging *)
Lemma own_app k a b : own_sum k (a ++ b) = (own_sum k a + own_sum k b)%Z.
Proof. induction a as [|e a IH]; [reflexivity|]. cbn [app]. rewrite !own_cons, IH. lia. Qed.
Lemma same_around a b es es' : same_sums es es' -> same_sums (a ++ es ++ b) (a ++ es' ++ b).
Proof.
  intros S k. destruct (S k) as [A B]. split; [|rewrite !own_app, B; reflexivity].
  split; intros [u I]; apply in_app_or in I as [I|I].
  - exists u. apply in_or_app. auto.
  - apply in_app_or in I as [I|I]; [destruct (proj1 A (ex_intro _ u I)) as [u' I']; exists u'|exists u]; apply in_or_app; right; apply in_or_app; auto.
  - exists u. apply in_or_app. auto.
  - apply in_app_or in I as [I|I]; [destruct (proj2 A (ex_intro _ u I)) as [u' I']; exists u'|exists u]; apply in_or_app; right; apply in_or_app; auto.
Qed.
Lemma same_split k u1 u2 : same_sums [(k, (u1 + u2)%Z)] [(k, u1); (k, u2)].
Proof.
  intros k'. split.
  - split; intros [u I].
    + destruct I as [E|[]]. injection E as -> _. exists u1. left. reflexivity.
    + exists (u1 + u2)%Z. left. destruct I as [E|[E|[]]]; injection E as -> _; reflexivity.
  - rewrite !own_cons. cbn [fst snd]. destruct (key_dec k k'); change (own_sum k' []) with 0%Z; lia.
Qed.
Lemma same_refl es : same_sums es es.
Proof. intros k. split; reflexivity. Qed.
Definition entry_of (w : fxact) (p : fposting) : entry :=
  match fp_value p with
  | Some v => (components (fp_account p), commodity_of (wa_symbol (wv_amount v)), wa_units (wv_amount v))
  | None => (components (fp_account p), rest_commodity w, rest_value w)
  end.
Lemma full_entries_cons w ws : full_entries (w :: ws) = map (entry_of w) (fx_posts w) ++ full_entries ws.
Proof. reflexivity. Qed.
Lemma full_entries_app a b : full_entries (a ++ b) = full_entries a ++ full_entries b.
Proof. unfold full_entries. apply flat_map_app. Qed.
Lemma values_app a b : values_of (a ++ b) = values_of a ++ values_of b.
Proof. apply flat_map_app. Qed.
Lemma sumZ_app a b : sumZ (a ++ b) = (sumZ a + sumZ b)%Z.
Proof. induction a as [|x a IH]; [reflexivity|]. cbn [app]. rewrite !sumZ_cons, IH. lia. Qed.
Theorem split_sums a b w w' : split_in w w' -> same_sums (full_entries (a ++ w :: b)) (full_entries (a ++ w' :: b)).
Proof.
  intros (ps1 & ps2 & acct & s & u & u1 & u2 & k & k1 & k2 & ns & ns1 & ns2 & E & P & P').
  assert (Rc : rest_commodity w = rest_commodity w').
  { unfold rest_commodity. rewrite P, P', !values_app. destruct (values_of ps1) as [|v vs]; reflexivity. }
  assert (Rv : rest_value w = rest_value w').
  { unfold rest_value. rewrite P, P', !values_app, !map_app, !sumZ_app. do 2 f_equal.
    change (sumZ (map worth_units (values_of (mkFP acct (plain_value u k s) ns :: ps2)))) with (u + sumZ (map worth_units (values_of ps2)))%Z.
    change (sumZ (map worth_units (values_of (mkFP acct (plain_value u1 k1 s) ns1 :: mkFP acct (plain_value u2 k2 s) ns2 :: ps2)))) with (u1 + (u2 + sumZ (map worth_units (values_of ps2))))%Z. lia. }
  assert (Ee : forall p, entry_of w p = entry_of w' p) by (intros p; unfold entry_of; destruct (fp_value p); [reflexivity|rewrite Rc, Rv; reflexivity]).
  rewrite !full_entries_app, !full_entries_cons, P, P', !map_app. cbn [map]. rewrite (map_ext _ _ Ee ps1), (map_ext _ _ Ee ps2).
  change (entry_of w (mkFP acct (plain_value u k s) ns)) with (components acct, commodity_of s, u).
  change (entry_of w' (mkFP acct (plain_value u1 k1 s) ns1)) with (components acct, commodity_of s, u1).
  change (entry_of w' (mkFP acct (plain_value u2 k2 s) ns2)) with (components acct, commodity_of s, u2).
  rewrite <- !app_assoc. cbn [app]. rewrite !(app_assoc (full_entries a)). subst u.
  exact (same_around (full_entries a ++ map (entry_of w') ps1) (map (entry_of w') ps2 ++ full_entries b) _ _ (same_split (components acct, commodity_of s) u1 u2)).
Qed.
Theorem merge_sums a b w1 w2 w : merged w1 w2 w -> full_entries (a ++ w1 :: w2 :: b) = full_entries (a ++ w :: b).
Proof.
  intros [V P]. rewrite P in V. apply Forall_app in V as [V1 V2]. rewrite !full_entries_app, !full_entries_cons, P, map_app, <- !app_assoc.
  assert (X : forall u ps, Forall (fun p => fp_value p <> None) ps -> map (entry_of u) ps = map (entry_of w) ps).
  { intros u ps F. apply map_ext_in. intros p I. rewrite Forall_forall in F. specialize (F p I). unfold entry_of. destruct (fp_value p); [reflexivity|contradiction]. }
  rewrite (X w1 _ V1), (X w2 _ V2). reflexivity.
Qed.
Theorem written_sums a b w w' : written_out w w' -> full_entries (a ++ w :: b) = full_entries (a ++ w' :: b).
Proof.
  intros (ps1 & ps2 & acct & s & k & ns & ns' & P & P' & V & C). apply Forall_app in V as [V1 V2]. rewrite !full_entries_app, !full_entries_cons, P, P', !map_app. cbn [map].
  assert (X : forall ps, Forall (fun p => fp_value p <> None) ps -> map (entry_of w) ps = map (entry_of w') ps).
  { intros ps F. apply map_ext_in. intros p I. rewrite Forall_forall in F. specialize (F p I). unfold entry_of. destruct (fp_value p); [reflexivity|contradiction]. }
  rewrite (X _ V1), (X _ V2).
  change (entry_of w (mkFP acct None ns)) with (components acct, rest_commodity w, rest_value w).
  change (entry_of w' (mkFP acct (plain_value (rest_value w) k s) ns')) with (components acct, commodity_of s, rest_value w). rewrite C. reflexivity.
Qed.
