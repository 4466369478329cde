(** Facts about the price history and the commodity pool. *)
From Coq Require Import List NArith ZArith Bool Lia ZifyBool ZifyNat ZifyN.
From Verif Require Import Base BaseFacts Decimal Dates Amount Scanner History Pool SpecDecimal
  SpecAmount SpecDates SpecPool DecimalFacts DatesFacts BalanceFacts.
Import ListNotations.
Open Scope nat_scope.

(** ** Price maps *)
Definition valid_keys (m : pricemap) : Prop := Forall (fun e => valid_dt (fst e)) m.

Lemma before_trans a b c :
  valid_dt a -> valid_dt b -> valid_dt c -> before a b -> before b c -> before a c.
Proof. intros Va Vb Vc. rewrite <- !dt_key_lt by assumption. lia. Qed.
Lemma before_irrefl a : valid_dt a -> ~ before a a.
Proof. intros V. rewrite <- dt_key_lt by assumption. lia. Qed.

Lemma pm_insert_in m : forall k v w x,
  valid_keys m -> valid_dt k -> ascending m ->
  (In (w, x) (pm_insert k v m) <-> w = k /\ x = v \/ w <> k /\ In (w, x) m).
Proof.
  induction m as [|[k' v'] m IH]; intros k v w x Hm Hk Ha; cbn [pm_insert].
  - cbn [In]. split; [intros [H|[]]; injection H; auto|]. intros [[-> ->]|[_ []]]. auto.
  - inversion Hm as [|? ? Hk' Hm']; subst. cbn [fst] in Hk'. destruct Ha as [Hf Ha].
    destruct (Z.compare_spec (dt_key k) (dt_key k')) as [E|E|E].
    + apply dt_key_eq in E; [|assumption|assumption]. subst k'. cbn [In]. split.
      * intros [H|H]; [injection H as <- <-; auto|]. right. split; [|auto]. intros ->.
        rewrite Forall_forall in Hf. apply Hf in H. cbn in H. apply before_irrefl in H; auto.
      * intros [[-> ->]|[Hn [H|H]]]; [auto| |auto]. injection H as -> ->. contradiction.
    + apply dt_key_lt in E; [|assumption|assumption]. cbn [In]. split.
      * intros [H|[H|H]].
        -- injection H as <- <-. auto.
        -- injection H as <- <-. right. split; [|auto]. intros ->. apply before_irrefl in E; auto.
        -- right. split; [|auto]. intros ->. rewrite Forall_forall in Hf. pose proof (Hf _ H) as B.
           cbn in B. apply (before_irrefl k Hk). eapply before_trans; [| | |exact E|exact B]; auto.
      * intros [[-> ->]|[_ [H|H]]]; auto.
    + apply dt_key_lt in E; [|assumption|assumption]. cbn [In]. rewrite IH by assumption. split.
      * intros [H|[H|[Hn H]]]; auto. injection H as <- <-. right. split; [|auto].
        intros ->. apply before_irrefl in E; auto.
      * intros [H|[Hn [H|H]]]; auto.
Qed.
Lemma pm_insert_valid m k v : valid_keys m -> valid_dt k -> valid_keys (pm_insert k v m).
Proof.
  unfold valid_keys. intros Hm Hk. induction m as [|[k' v'] m IH]; cbn [pm_insert].
  - constructor; auto.
  - inversion Hm; subst. destruct (dt_key k ?= dt_key k')%Z; constructor; auto.
Qed.
Lemma pm_insert_ascending m k v :
  valid_keys m -> valid_dt k -> ascending m -> ascending (pm_insert k v m).
Proof.
  induction m as [|[k' v'] m IH]; intros Hm Hk Ha; cbn [pm_insert].
  - cbn. auto.
  - inversion Hm as [|? ? Hk' Hm']; subst. cbn [fst] in Hk'. destruct Ha as [Hf Ha].
    destruct (Z.compare_spec (dt_key k) (dt_key k')) as [E|E|E].
    + apply dt_key_eq in E; [|assumption|assumption]. subst. cbn [ascending]. auto.
    + apply dt_key_lt in E; [|assumption|assumption]. cbn [ascending]. split; [|auto]. constructor; [exact E|].
      rewrite Forall_forall in *. intros e He. eapply before_trans; [| | |exact E|apply Hf, He]; auto.
    + apply dt_key_lt in E; [|assumption|assumption]. cbn [ascending]. split; [|apply IH; auto].
      rewrite Forall_forall in *. intros [w x] He. apply pm_insert_in in He; auto.
      * cbn [fst]. destruct He as [[-> _]|[_ He]]; [exact E|]. exact (Hf _ He).
      * apply Forall_forall. exact Hm'.
Qed.
Lemma pm_insert_nonempty m k v : pm_insert k v m <> [].
Proof. destruct m as [|[k' v'] m]; cbn [pm_insert]; [|destruct (dt_key k ?= dt_key k')%Z]; discriminate. Qed.
Lemma ascending_det m w x y :
  valid_keys m -> ascending m -> In (w, x) m -> In (w, y) m -> x = y.
Proof.
  induction m as [|[k v] m IH]; intros Hv Ha Hx Hy; [contradiction|].
  inversion Hv as [|? ? Hk Hm']; subst. destruct Ha as [Hf Ha]. rewrite Forall_forall in Hf.
  destruct Hx as [Hx|Hx], Hy as [Hy|Hy].
  - congruence.
  - injection Hx as -> ->. apply Hf in Hy. cbn in Hy. apply before_irrefl in Hy; [contradiction|exact Hk].
  - injection Hy as -> ->. apply Hf in Hx. cbn in Hx. apply before_irrefl in Hx; [contradiction|exact Hk].
  - apply IH; auto.
Qed.

Lemma latest_spec m :
  valid_keys m -> ascending m ->
  match get_latest_price m with
  | None => m = []
  | Some (w, v) => In (w, v) m /\ forall w' v', In (w', v') m -> not_after w' w
  end.
Proof.
  induction m as [|[k v] m IH]; intros Hv Ha; [reflexivity|].
  inversion Hv as [|? ? Hk Hm']; subst. destruct Ha as [Hf Ha].
  destruct m as [|e m].
  - cbn. split; [auto|]. intros w' v' [H|[]]. injection H as <- _. right. reflexivity.
  - specialize (IH Hm' Ha). change (get_latest_price ((k, v) :: e :: m)) with (get_latest_price (e :: m)).
    destruct (get_latest_price (e :: m)) as [[w x]|]; [|discriminate]. destruct IH as [I M].
    split; [right; exact I|]. intros w' v' [H|H]; [|exact (M _ _ H)].
    injection H as <- _. left. rewrite Forall_forall in Hf. exact (Hf _ I).
Qed.

(** ** Edges *)
Lemma pair_eqb_spec x y a b : reflect ((x, y) = (a, b)) ((x =? a) && (y =? b)).
Proof.
  destruct (Nat.eqb_spec x a), (Nat.eqb_spec y b); cbn; constructor; congruence.
Qed.
Lemma find_edge_in es a b m :
  NoDup (map fst es) -> (find_edge es a b = Some m <-> In (a, b, m) es).
Proof.
  induction es as [|[[x y] m'] es IH]; intros Hn; cbn [find_edge In].
  - split; [discriminate|contradiction].
  - cbn [map fst] in Hn. inversion Hn as [|? ? Hx Hn']; subst.
    destruct (pair_eqb_spec x y a b) as [E|E].
    + injection E as -> ->. split; [intros H; injection H as ->; auto|].
      intros [H|H]; [congruence|]. exfalso. apply Hx. apply in_map_iff. exists (a, b, m). auto.
    + rewrite IH by assumption. split; [auto|]. intros [H|H]; [congruence|exact H].
Qed.
Lemma find_edge_none es a b : find_edge es a b = None <-> ~ In (a, b) (map fst es).
Proof.
  induction es as [|[[x y] m'] es IH]; cbn [find_edge map fst In]; [tauto|].
  destruct (pair_eqb_spec x y a b) as [E|E].
  - split; [discriminate|]. intros H. exfalso. auto.
  - rewrite IH. intuition.
Qed.
Lemma put_price_keys es a b k v :
  map fst (put_price es a b k v)
  = if find_edge es a b then map fst es else map fst es ++ [(a, b)].
Proof.
  induction es as [|[[x y] m] es IH]; cbn [put_price find_edge]; [reflexivity|].
  destruct ((x =? a) && (y =? b)); cbn [map fst]; [reflexivity|]. rewrite IH.
  destruct (find_edge es a b); reflexivity.
Qed.
Lemma find_edge_put es a b k v x y :
  find_edge (put_price es a b k v) x y
  = if (a =? x) && (b =? y)
    then Some (pm_insert k v (match find_edge es a b with Some m => m | None => [] end))
    else find_edge es x y.
Proof.
  induction es as [|[[c d] m] es IH]; cbn [put_price find_edge].
  - reflexivity.
  - destruct (pair_eqb_spec c d a b) as [E|E].
    + injection E as -> ->. cbn [find_edge]. destruct ((a =? x) && (b =? y)); reflexivity.
    + cbn [find_edge]. destruct (pair_eqb_spec c d x y) as [F|F].
      * injection F as -> ->. destruct (pair_eqb_spec a b x y) as [G|G]; [congruence|reflexivity].
      * rewrite IH. reflexivity.
Qed.
Lemma put_price_nodup es a b k v : NoDup (map fst es) -> NoDup (map fst (put_price es a b k v)).
Proof.
  intros H. rewrite put_price_keys. destruct (find_edge es a b) eqn:E; [exact H|].
  apply find_edge_none in E. clear -H E. induction (map fst es) as [|x l IH]; cbn [app].
  - constructor; [intros []|constructor].
  - inversion H; subst. constructor.
    + rewrite in_app_iff. intros [I|[I|[]]]; [contradiction|]. subst. apply E. left. reflexivity.
    + apply IH; auto. intros I. apply E. right. exact I.
Qed.

(** ** Pool operations *)
Lemma wf_pool_new : wf_pool pool_new.
Proof.
  constructor; cbn.
  - discriminate.
  - intros i s H. destruct i; discriminate.
  - constructor.
  - constructor.
  - intros a b m [].
  - discriminate.
Qed.

Lemma insert_keys {A} k (a : A) m : lookup k m <> None -> map fst (insert k a m) = map fst m.
Proof.
  induction m as [|[k' a'] m IH]; cbn [lookup insert]; [congruence|].
  destruct (str_eqb k k') eqn:E; [reflexivity|]. intros H. cbn [map fst]. rewrite IH by exact H. reflexivity.
Qed.
Lemma lookup_app_new {A} k (a : A) m s :
  lookup k m = None -> lookup s (m ++ [(k, a)]) = if str_eqb s k then Some a else lookup s m.
Proof. intros H. rewrite <- insert_keys_new by exact H. apply lookup_insert. Qed.
Lemma nodup_snoc {A} (l : list A) x : NoDup l -> ~ In x l -> NoDup (l ++ [x]).
Proof.
  intros H N. induction H as [|y l Hy H IH]; cbn [app].
  - constructor; [intros []|constructor].
  - constructor.
    + rewrite in_app_iff. intros [I|[I|[]]]; [contradiction|]. subst. apply N. left. reflexivity.
    + apply IH. intros I. apply N. right. exact I.
Qed.

Lemma create_find p s a x :
  pool_find p s = None ->
  pool_find (pool_create p s a) x
  = if str_eqb x s
    then Some (mkComm s (length (g_nodes (p_hist p))) (match a with Some _ => true | None => false end))
    else pool_find p x.
Proof. intros H. unfold pool_create, pool_find; cbn. apply lookup_insert. Qed.

Lemma wf_create p s a :
  wf_pool p -> pool_find p s = None -> wf_annotation a -> wf_pool (pool_create p s a).
Proof.
  intros W Hs Ha. constructor.
  - intros x c. rewrite create_find by exact Hs. destruct (str_eqb x s) eqn:E.
    + apply str_eqb_eq in E. subst x. intros H. injection H as <-. cbn. split; [reflexivity|].
      rewrite nth_error_app2 by lia. rewrite Nat.sub_diag. reflexivity.
    + intros H. destruct (wp_comm _ W _ _ H) as [H1 H2]. split; [exact H1|]. cbn.
      rewrite nth_error_app1; [exact H2|]. apply nth_error_Some. congruence.
  - intros i x H. cbn in H. rewrite create_find by exact Hs.
    destruct (Nat.lt_ge_cases i (length (g_nodes (p_hist p)))) as [L|L].
    + rewrite nth_error_app1 in H by exact L. destruct (wp_node _ W _ _ H) as (c & F & I).
      destruct (str_eqb x s) eqn:E; [apply str_eqb_eq in E; congruence|]. eauto.
    + rewrite nth_error_app2 in H by exact L.
      destruct (i - length (g_nodes (p_hist p))) as [|k] eqn:K; [|destruct k; discriminate].
      cbn in H. injection H as <-. rewrite str_eqb_refl. eexists. split; [reflexivity|]. cbn. lia.
  - unfold pool_create; cbn. rewrite insert_keys_new by exact Hs. rewrite map_app. apply nodup_snoc.
    + apply (wp_keys _ W).
    + intros I. apply lookup_in in I. contradiction.
  - apply (wp_edges _ W).
  - intros x y m H. cbn in *. destruct (wp_edge _ W _ _ _ H) as (H1 & H2 & H3 & H4).
    rewrite app_length. cbn. split; [exact H1|]. split; [lia|]. split; [lia|]. exact H4.
  - intros x an H. unfold pool_create in H; cbn in H. rewrite create_find by exact Hs. destruct a as [a0|].
    + rewrite lookup_insert in H. destruct (str_eqb x s) eqn:E.
      * injection H as <-. split; [eauto|]. intros pr Hp. exact (Ha _ _ eq_refl Hp).
      * destruct (wp_ann _ W _ _ H) as [H1 H2]. split; [exact H1|exact H2].
    + destruct (wp_ann _ W _ _ H) as [[c Hc] H2]. split; [|exact H2].
      destruct (str_eqb x s) eqn:E; eauto.
Qed.

Lemma foc_cases p s a :
  pool_find_or_create p s a
  = if is_empty s then (p, None)
    else (match pool_find p s with
          | None => pool_create p s a
          | Some _ => match a, lookup s (p_ann p) with
                      | Some x, None => mkPool (p_comms p) (insert s x (p_ann p)) (p_hist p)
                      | _, _ => p
                      end
          end, Some s).
Proof.
  unfold pool_find_or_create. destruct s as [|c s]; [reflexivity|]. cbn [is_empty].
  destruct (pool_find p (c :: s)); [|reflexivity]. destruct a; [|reflexivity].
  destruct (lookup (c :: s) (p_ann p)); reflexivity.
Qed.

Lemma wf_foc p s a : wf_pool p -> wf_annotation a -> wf_pool (fst (pool_find_or_create p s a)).
Proof.
  intros W Ha. rewrite foc_cases. destruct (is_empty s) eqn:E; [exact W|]. cbn [fst].
  destruct (pool_find p s) as [c|] eqn:F; [|apply wf_create; assumption].
  destruct a as [x|]; [|exact W]. destruct (lookup s (p_ann p)) eqn:L; [exact W|].
  constructor; cbn; try apply W.
  intros y an H. rewrite lookup_insert in H. destruct (str_eqb y s) eqn:Es.
  - apply str_eqb_eq in Es. subst y. injection H as <-. split; [eauto|]. intros pr. apply Ha. reflexivity.
  - exact (wp_ann _ W _ _ H).
Qed.

Lemma foc_extends p s a : pool_extends p (fst (pool_find_or_create p s a)).
Proof.
  intros x c H. rewrite foc_cases. destruct (is_empty s); [exact H|]. cbn [fst].
  destruct (pool_find p s) as [d|] eqn:F.
  - destruct a as [y|]; [|exact H]. destruct (lookup s (p_ann p)); exact H.
  - rewrite create_find by exact F. destruct (str_eqb x s) eqn:E; [|exact H].
    apply str_eqb_eq in E. congruence.
Qed.
Lemma foc_finds p s a :
  s <> [] -> exists c, pool_find (fst (pool_find_or_create p s a)) s = Some c.
Proof.
  intros Hs. rewrite foc_cases. destruct s as [|k s]; [contradiction|]. cbn [is_empty fst].
  destruct (pool_find p (k :: s)) as [d|] eqn:F.
  - destruct a as [y|]; [|eauto]. destruct (lookup (k :: s) (p_ann p)); eauto.
  - rewrite create_find by exact F. rewrite str_eqb_refl. eauto.
Qed.
Lemma foc_comm p s a : snd (pool_find_or_create p s a) = comm_of s.
Proof. rewrite foc_cases. destruct s; reflexivity. Qed.
Lemma foc_edges p s a : g_edges (p_hist (fst (pool_find_or_create p s a))) = g_edges (p_hist p).
Proof.
  rewrite foc_cases. destruct (is_empty s); [reflexivity|]. cbn [fst].
  destruct (pool_find p s); [|reflexivity]. destruct a; [|reflexivity]. destruct (lookup s (p_ann p)); reflexivity.
Qed.
(** Looking up an existing commodity without annotation changes nothing. *)
Lemma foc_known p s c : pool_find p s = Some c -> fst (pool_find_or_create p s None) = p.
Proof. intros H. rewrite foc_cases. destruct (is_empty s); [reflexivity|]. rewrite H. reflexivity. Qed.

Lemma extends_refl p : pool_extends p p.
Proof. intros s c H. exact H. Qed.
Lemma extends_trans p q r : pool_extends p q -> pool_extends q r -> pool_extends p r.
Proof. intros H1 H2 s c H. apply H2, H1, H. Qed.

(** [pool_add_price] spelled out. *)
Lemma add_price_inv p c w x p' :
  pool_add_price p c w x = Ok p' ->
  exists s t cs ct, c = Some s /\ a_c x = Some t /\ pool_find p s = Some cs /\ pool_find p t = Some ct
    /\ c_symbol cs <> t
    /\ p' = mkPool (p_comms p) (p_ann p)
              (graph_add_price (p_hist p) (c_index cs) (c_index ct) w (a_q x)).
Proof.
  unfold pool_add_price. intros H. inv_bind H. destruct c as [s|]; [|discriminate]. cbn [deref] in EQ.
  destruct (pool_find p s) as [cs|] eqn:F; [|discriminate]. injection EQ as <-.
  destruct (comm_eqb_spec (Some (c_symbol cs)) (a_c x)) as [E|E]; [discriminate|].
  destruct (a_c x) as [t|] eqn:T; [|discriminate]. inv_bind H. cbn [deref] in EQ.
  destruct (pool_find p t) as [ct|] eqn:F2; [|discriminate]. injection EQ as <-. injection H as <-.
  exists s, t, cs, ct. repeat split; auto. congruence.
Qed.

Lemma index_lt p s c : wf_pool p -> pool_find p s = Some c -> c_index c < length (g_nodes (p_hist p)).
Proof. intros W H. apply nth_error_Some. destruct (wp_comm _ W _ _ H) as [_ E]. congruence. Qed.
Lemma index_inj p s t c d :
  wf_pool p -> pool_find p s = Some c -> pool_find p t = Some d -> c_index c = c_index d -> s = t.
Proof.
  intros W H1 H2 E. destruct (wp_comm _ W _ _ H1) as [_ N1]. destruct (wp_comm _ W _ _ H2) as [_ N2].
  congruence.
Qed.
Lemma edge_valid p a b m :
  wf_pool p -> find_edge (g_edges (p_hist p)) a b = Some m -> valid_keys m /\ ascending m /\ m <> []
                                                      /\ Forall (fun e => wf_dec (snd e)) m.
Proof.
  intros W H. apply find_edge_in in H; [|apply W]. destruct (wp_edge _ W _ _ _ H) as (_ & _ & _ & Hn & Ha & Hf).
  repeat split; auto.
  - unfold valid_keys. eapply Forall_impl; [|exact Hf]. cbn; tauto.
  - eapply Forall_impl; [|exact Hf]. cbn; tauto.
Qed.

Lemma wf_add_price p c w x p' :
  wf_pool p -> valid_dt w -> wf_amt x -> pool_add_price p c w x = Ok p' -> wf_pool p'.
Proof.
  intros W Vw Wx H. apply add_price_inv in H as (s & t & cs & ct & -> & T & F1 & F2 & N & ->).
  assert (Ne : c_index cs <> c_index ct).
  { intros E. apply N. destruct (wp_comm _ W _ _ F1) as [E1 _].
    rewrite E1. eapply index_inj; eauto. }
  constructor; cbn; try apply W.
  - apply put_price_nodup, W.
  - intros a b m H. pose proof (put_price_nodup (g_edges (p_hist p)) (c_index cs) (c_index ct) w (a_q x)
                                  (wp_edges _ W)) as Hn.
    apply find_edge_in in H; [|exact Hn]. rewrite find_edge_put in H.
    destruct (pair_eqb_spec (c_index cs) (c_index ct) a b) as [E|E].
    + injection E as <- <-. injection H as <-. split; [exact Ne|].
      split; [eapply index_lt; eauto|]. split; [eapply index_lt; eauto|].
      split; [apply pm_insert_nonempty|].
      destruct (find_edge (g_edges (p_hist p)) (c_index cs) (c_index ct)) as [m|] eqn:Fe.
      * destruct (edge_valid _ _ _ _ W Fe) as (Hk & Ha & _ & Hw). split; [apply pm_insert_ascending; auto|].
        rewrite Forall_forall in *. intros [k v] I. apply pm_insert_in in I; auto.
        unfold valid_keys in Hk. rewrite Forall_forall in Hk.
        destruct I as [[-> ->]|[_ I]]; [split; assumption|]. split; [exact (Hk _ I)|exact (Hw _ I)].
      * split; [apply pm_insert_ascending; cbn; auto; constructor|].
        constructor; [split; assumption|constructor].
    + apply find_edge_in in H; [|apply W]. exact (wp_edge _ W _ _ _ H).
Qed.
Lemma add_price_extends p c w x p' : pool_add_price p c w x = Ok p' -> pool_extends p p'.
Proof.
  intros H. apply add_price_inv in H as (s & t & cs & ct & -> & T & F1 & F2 & N & ->).
  intros y d Hy. exact Hy.
Qed.

Lemma directive_inv p line p' :
  parse_price_directive p line = Ok p' ->
  exists t_date t_time t_comm t_q t_pc d t q,
    scan_price_directive line = Ok (t_date, t_time, t_comm, t_q, t_pc)
    /\ parse_date_opt t_date = Some d
    /\ (if is_empty t_time then t = midnight else parse_time_opt t_time = Some t)
    /\ d_from_str t_q = Some q
    /\ pool_add_price (fst (pool_find_or_create (fst (pool_find_or_create p t_comm None)) t_pc None))
                      (comm_of t_comm) (mkDT d t) (mkAmt q (comm_of t_pc)) = Ok p'.
Proof.
  unfold parse_price_directive. intros H. inv_bind H. destruct v as [[[[td tt] tc] tq] tp].
  inv_bind H. apply unwrap_ok in EQ0. inv_bind H.
  pose proof (foc_comm p tc None) as C1. destruct (pool_find_or_create p tc None) as [p1 c1] eqn:G1. cbn [fst snd] in *.
  inv_bind H. apply unwrap_ok in EQ2.
  pose proof (foc_comm p1 tp None) as C2. destruct (pool_find_or_create p1 tp None) as [p2 c2] eqn:G2. cbn [fst snd] in *.
  subst c1 c2. exists td, tt, tc, tq, tp, v, v0, v1. rewrite G1. cbn [fst]. rewrite G2. cbn [fst].
  split; [exact EQ|]. split; [exact EQ0|]. split; [|split; [exact EQ2|exact H]].
  destruct (is_empty tt); [injection EQ1; auto|]. apply unwrap_ok, EQ1.
Qed.
Lemma wf_directive p line p' : wf_pool p -> parse_price_directive p line = Ok p' -> wf_pool p'.
Proof.
  intros W H. apply directive_inv in H as (td & tt & tc & tq & tp & d & t & q & _ & D & T & Q & H).
  eapply wf_add_price; [| | |exact H].
  - apply wf_foc; [apply wf_foc; [exact W|]|]; intros x pr; discriminate.
  - split; [eapply parse_date_valid; eauto|]. destruct (is_empty tt); [subst; apply midnight_valid|].
    eapply parse_time_valid; eauto.
  - unfold wf_amt; cbn. apply d_from_str_sound in Q. tauto.
Qed.
Lemma directive_extends p line p' : parse_price_directive p line = Ok p' -> pool_extends p p'.
Proof.
  intros H. apply directive_inv in H as (td & tt & tc & tq & tp & d & t & q & _ & D & T & Q & H).
  apply add_price_extends in H. eapply extends_trans; [apply foc_extends|]. 
  eapply extends_trans; [apply foc_extends|]. exact H.
Qed.

Lemma annotation_inv p d q s p' a :
  annotation_parse p d q s = Ok (p', a) ->
  p' = fst (pool_find_or_create p s None)
  /\ an_price a = option_map (fun v => mkAmt v (comm_of s)) (d_from_str q)
  /\ (if is_empty d then an_date a = None else an_date a = parse_date_opt d /\ parse_date_opt d <> None).
Proof.
  unfold annotation_parse. intros H.
  pose proof (foc_comm p s None) as C. destruct (pool_find_or_create p s None) as [p1 c]. cbn [fst snd] in *.
  subst c. inv_bind H. injection H as <- <-. cbn. repeat split.
  destruct (is_empty d); [injection EQ as <-; reflexivity|]. inv_bind EQ. apply unwrap_ok in EQ0.
  injection EQ as <-. rewrite EQ0. split; [reflexivity|discriminate].
Qed.
Lemma annotation_wf p d q s p' a :
  wf_pool p -> annotation_parse p d q s = Ok (p', a) -> wf_pool p' /\ wf_annotation (Some a).
Proof.
  intros W H. apply annotation_inv in H as (-> & Hp & _). split.
  - apply wf_foc; [exact W|]. intros x pr; discriminate.
  - intros x pr E Hx. injection E as <-. rewrite Hp in Hx. destruct (d_from_str q) as [v|] eqn:Q; [|discriminate].
    injection Hx as <-. apply d_from_str_sound in Q. unfold wf_amt; cbn. tauto.
Qed.

Lemma reachable_from_wf p0 p : wf_pool p0 -> reachable_from p0 p -> wf_pool p.
Proof.
  intros W. induction 1.
  - exact W.
  - apply wf_create; assumption.
  - apply wf_foc; assumption.
  - eapply wf_add_price; eauto.
  - eapply wf_directive; eauto.
  - eapply annotation_wf; eauto.
Qed.
Lemma reachable_wf p : reachable_pool p -> wf_pool p.
Proof. apply reachable_from_wf, wf_pool_new. Qed.
Lemma create_extends p s a : pool_find p s = None -> pool_extends p (pool_create p s a).
Proof.
  intros F x c H. rewrite create_find by exact F. destruct (str_eqb x s) eqn:E; [|exact H].
  apply str_eqb_eq in E. congruence.
Qed.
Lemma annotation_extends p d q s p' a : annotation_parse p d q s = Ok (p', a) -> pool_extends p p'.
Proof. intros H. apply annotation_inv in H as (-> & _). apply foc_extends. Qed.
Lemma reachable_extends p0 p : reachable_from p0 p -> pool_extends p0 p.
Proof.
  induction 1; (eapply extends_trans; [eassumption|]) || apply extends_refl.
  - apply create_extends; assumption.
  - apply foc_extends.
  - eapply add_price_extends; eauto.
  - eapply directive_extends; eauto.
  - eapply annotation_extends; eauto.
Qed.

(** ** Recorded prices *)
Lemma points_add g a b k v x y :
  points (graph_add_price g a b k v) x y
  = if (a =? x) && (b =? y) then pm_insert k v (points g a b) else points g x y.
Proof.
  unfold points, graph_add_price; cbn [g_edges]. rewrite find_edge_put.
  destruct ((a =? x) && (b =? y)); reflexivity.
Qed.
Lemma points_valid p a b : wf_pool p -> valid_keys (points (p_hist p) a b) /\ ascending (points (p_hist p) a b).
Proof.
  intros W. unfold points. destruct (find_edge (g_edges (p_hist p)) a b) as [m|] eqn:F.
  - destruct (edge_valid _ _ _ _ W F) as (H1 & H2 & _). auto.
  - split; [constructor|exact I].
Qed.
Lemma price_on_find p s t w v cs ct :
  pool_find p s = Some cs -> pool_find p t = Some ct ->
  (price_on p s t w v <-> In (w, v) (points (p_hist p) (c_index cs) (c_index ct))).
Proof.
  intros F1 F2. unfold price_on, index_of. rewrite F1, F2; cbn [option_map]. split.
  - intros (a & b & A & B & H). injection A as <-. injection B as <-. exact H.
  - intros H. eauto.
Qed.
Lemma price_on_known p s t w v :
  price_on p s t w v -> exists cs ct, pool_find p s = Some cs /\ pool_find p t = Some ct.
Proof.
  intros (a & b & A & B & H). unfold index_of in *.
  destruct (pool_find p s), (pool_find p t); try discriminate. eauto.
Qed.
Lemma price_on_det p s t w v v' : wf_pool p -> price_on p s t w v -> price_on p s t w v' -> v = v'.
Proof.
  intros W H1 H2. destruct (price_on_known _ _ _ _ _ H1) as (cs & ct & F1 & F2).
  rewrite (price_on_find _ _ _ _ _ _ _ F1 F2) in H1. rewrite (price_on_find _ _ _ _ _ _ _ F1 F2) in H2.
  destruct (points_valid p (c_index cs) (c_index ct) W) as [V A]. eapply ascending_det; eauto.
Qed.

(** The effect of recording one price: the point for the same pair and moment is replaced, all
    others are kept. *)
Lemma add_price_effect p c w x p' :
  wf_pool p -> valid_dt w -> pool_add_price p c w x = Ok p' ->
  forall s t w' v', price_on p' s t w' v' <->
    (if comm_dec (Some s) c then if comm_dec (Some t) (a_c x) then
       w' = w /\ v' = a_q x \/ w' <> w /\ price_on p s t w' v'
     else price_on p s t w' v' else price_on p s t w' v').
Proof.
  intros W Vw H s t w' v'. apply add_price_inv in H as (s0 & t0 & cs & ct & -> & T & F1 & F2 & N & ->).
  rewrite T. unfold price_on at 1, index_of at 1 2; cbn [p_comms p_hist].
  change (pool_find {| p_comms := p_comms p; p_ann := p_ann p; p_hist := _ |}) with (pool_find p).
  destruct (comm_dec (Some s) (Some s0)) as [E1|E1].
  - injection E1 as ->. destruct (comm_dec (Some t) (Some t0)) as [E2|E2].
    + injection E2 as ->. rewrite F1, F2; cbn [option_map]. rewrite (price_on_find _ _ _ _ _ _ _ F1 F2).
      destruct (points_valid p (c_index cs) (c_index ct) W) as [V A].
      rewrite <- pm_insert_in by assumption. split.
      * intros (a & b & Ha & Hb & H). injection Ha as <-. injection Hb as <-. cbn [p_hist] in H.
        rewrite points_add, !Nat.eqb_refl in H. exact H.
      * intros H. exists (c_index cs), (c_index ct). rewrite points_add, !Nat.eqb_refl. auto.
    + unfold price_on, index_of. split.
      * intros (a & b & Ha & Hb & H). exists a, b. split; [exact Ha|]. split; [exact Hb|].
        rewrite points_add in H. destruct (pair_eqb_spec (c_index cs) (c_index ct) a b) as [E|E]; [|exact H].
        exfalso. injection E as _ <-. destruct (pool_find p t) as [ct'|] eqn:F; [|discriminate].
        injection Hb as Hb. apply E2. f_equal. eapply index_inj; eauto.
      * intros (a & b & Ha & Hb & H). exists a, b. split; [exact Ha|]. split; [exact Hb|].
        rewrite points_add. destruct (pair_eqb_spec (c_index cs) (c_index ct) a b) as [E|E]; [|exact H].
        exfalso. injection E as _ <-. destruct (pool_find p t) as [ct'|] eqn:F; [|discriminate].
        injection Hb as Hb. apply E2. f_equal. eapply index_inj; eauto.
  - unfold price_on, index_of. split.
    + intros (a & b & Ha & Hb & H). exists a, b. split; [exact Ha|]. split; [exact Hb|].
      rewrite points_add in H. destruct (pair_eqb_spec (c_index cs) (c_index ct) a b) as [E|E]; [|exact H].
      exfalso. injection E as <- _. destruct (pool_find p s) as [cs'|] eqn:F; [|discriminate].
      injection Ha as Ha. apply E1. f_equal. eapply index_inj; eauto.
    + intros (a & b & Ha & Hb & H). exists a, b. split; [exact Ha|]. split; [exact Hb|].
      rewrite points_add. destruct (pair_eqb_spec (c_index cs) (c_index ct) a b) as [E|E]; [|exact H].
      exfalso. injection E as <- _. destruct (pool_find p s) as [cs'|] eqn:F; [|discriminate].
      injection Ha as Ha. apply E1. f_equal. eapply index_inj; eauto.
Qed.

(** Creating commodities records no price. *)
Lemma wf_points_none p a b :
  wf_pool p -> length (g_nodes (p_hist p)) <= a \/ length (g_nodes (p_hist p)) <= b ->
  points (p_hist p) a b = [].
Proof.
  intros W H. unfold points. destruct (find_edge (g_edges (p_hist p)) a b) as [m|] eqn:F; [|reflexivity].
  apply find_edge_in in F; [|apply W]. destruct (wp_edge _ W _ _ _ F) as (_ & H1 & H2 & _). lia.
Qed.
Lemma foc_prices p s a x y w v :
  wf_pool p -> (price_on (fst (pool_find_or_create p s a)) x y w v <-> price_on p x y w v).
Proof.
  intros W. unfold price_on.
  assert (E : forall i j, points (p_hist (fst (pool_find_or_create p s a))) i j = points (p_hist p) i j)
    by (intros; unfold points; rewrite foc_edges; reflexivity).
  split.
  - intros (i & j & Hi & Hj & H). rewrite E in H. exists i, j.
    assert (G : forall z k, index_of (fst (pool_find_or_create p s a)) z = Some k ->
                            index_of p z = Some k \/ length (g_nodes (p_hist p)) <= k).
    { intros z k. unfold index_of. rewrite foc_cases. destruct (is_empty s); [auto|]. cbn [fst].
      destruct (pool_find p s) as [c|] eqn:F.
      - destruct a; [destruct (lookup s (p_ann p))|]; auto.
      - rewrite create_find by exact F. destruct (str_eqb z s); [|auto]. cbn. intros K. injection K. lia. }
    destruct (G _ _ Hi) as [Gi|Gi]; [|rewrite wf_points_none in H; [contradiction|auto|auto]].
    destruct (G _ _ Hj) as [Gj|Gj]; [|rewrite wf_points_none in H; [contradiction|auto|auto]].
    auto.
  - intros (i & j & Hi & Hj & H). exists i, j. rewrite E.
    assert (G : forall z k, index_of p z = Some k -> index_of (fst (pool_find_or_create p s a)) z = Some k).
    { intros z k. unfold index_of. destruct (pool_find p z) as [c|] eqn:F; [|discriminate].
      apply (foc_extends p s a) in F. rewrite F. auto. }
    auto.
Qed.
