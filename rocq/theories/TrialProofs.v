(** The balance of the root account is zero. *)
From Coq Require Import String List NArith ZArith Bool Lia Sorted Permutation.
From Verif Require Import Base Decimal Dates Amount Balance Account Journal Xact Parser Report Options Lib.
From Verif Require Import SpecDecimal SpecAmount SpecAccount SpecReport SpecScan SpecWhole SpecCommand SpecFull SpecEnd SpecFullEnd SpecTrial.
From Verif Require Import BaseFacts BalanceFacts EndProofs FullEndProofs.
Import ListNotations.
Open Scope list_scope.
Open Scope nat_scope.

(** ** Sums of entries *)
Definition part (c : comm) (e : entry) : Z := if comm_dec (snd (fst e)) c then snd e else 0%Z.
Lemma sumZ_cons x l : sumZ (x :: l) = (x + sumZ l)%Z. Proof. reflexivity. Qed.
Lemma sum_in_parts c es : sum_in c es = sumZ (map (part c) es).
Proof. unfold sum_in. induction es as [|e es IH]; [reflexivity|]. cbn [filter map]. rewrite sumZ_cons, <- IH. unfold part. destruct (comm_dec (snd (fst e)) c); [cbn [map]; apply sumZ_cons|reflexivity]. Qed.
Lemma sum_in_app c es es' : sum_in c (es ++ es') = (sum_in c es + sum_in c es')%Z.
Proof. rewrite !sum_in_parts, map_app, sumZ_app. reflexivity. Qed.
Lemma below_root es : below [] es = es.
Proof. induction es as [|e es IH]; [reflexivity|]. change (below [] (e :: es)) with (e :: below [] es). rewrite IH. reflexivity. Qed.

(** ** One transaction *)
Definition is_open (p : fposting) : bool := match fp_value p with None => true | Some _ => false end.
Definition opens (ps : list fposting) : nat := length (filter is_open ps).
Lemma opens_one ps : (forall i k, option_map fp_value (nth_error ps i) = Some None -> option_map fp_value (nth_error ps k) = Some None -> i = k) -> opens ps <= 1.
Proof.
  unfold opens. induction ps as [|p ps IH]; intros H; [cbn; lia|]. cbn [filter]. assert (IH' : length (filter is_open ps) <= 1).
  { apply IH. intros i k A B. specialize (H (S i) (S k) A B). lia. }
  destruct (is_open p) eqn:E; [|exact IH']. unfold is_open in E. destruct (fp_value p) eqn:V; [discriminate|]. cbn [length].
  destruct (filter is_open ps) as [|q l] eqn:F; [cbn; lia|]. exfalso. assert (I : In q (filter is_open ps)) by (rewrite F; left; reflexivity).
  apply filter_In in I as [I O]. apply In_nth_error in I as (n & N). unfold is_open in O. destruct (fp_value q) eqn:Q; [discriminate|].
  assert (X : 0 = S n); [|discriminate]. apply H; cbn; [rewrite V; reflexivity|rewrite N; cbn; rewrite Q; reflexivity].
Qed.
Definition given (c : comm) (v : wvalue) : Z := if comm_dec (commodity_of (wa_symbol (wv_amount v))) c then wa_units (wv_amount v) else 0%Z.
Definition entry_of (w : fxact) (p : fposting) : entry :=
  match fp_value p with
  | Some v => (components (fp_account p), commodity_of (wa_symbol (wv_amount v)), wa_units (wv_amount v))
  | None => (components (fp_account p), rest_commodity w, rest_value w)
  end.
Lemma entries_sum c w ps :
  sumZ (map (part c) (map (entry_of w) ps))
  = (sumZ (map (given c) (values_of ps)) + Z.of_nat (opens ps) * (if comm_dec (rest_commodity w) c then rest_value w else 0))%Z.
Proof.
  unfold values_of, opens. induction ps as [|p ps IH]; [reflexivity|]. cbn [map filter flat_map]. rewrite map_app, sumZ_app, sumZ_cons, IH. clear IH.
  unfold is_open at 2. unfold entry_of at 1. destruct (fp_value p) as [v|] eqn:E.
  - cbn [map]. rewrite sumZ_cons. unfold part at 1, given at 2. cbn [fst snd]. change (sumZ []) with 0%Z. lia.
  - cbn [length]. rewrite Nat2Z.inj_succ. unfold part at 1. cbn [fst snd map]. change (sumZ []) with 0%Z. lia.
Qed.
Lemma worths_plain w : no_costs w -> map worth_units (values_of (fx_posts w)) = map (fun v => wa_units (wv_amount v)) (values_of (fx_posts w))
  /\ map worth_symbol (values_of (fx_posts w)) = map (fun v => wa_symbol (wv_amount v)) (values_of (fx_posts w)).
Proof.
  unfold no_costs. induction 1 as [|v vs H F [IH1 IH2]]; [split; reflexivity|]. cbn [map]. rewrite IH1, IH2. unfold worth_units at 1, worth_symbol at 1. rewrite H. split; reflexivity.
Qed.
Lemma given_sym s vs : s <> [] -> sumZ (map (given (Some s)) vs) = sumZ (map (fun v => if str_eqb (wa_symbol (wv_amount v)) s then wa_units (wv_amount v) else 0%Z) vs).
Proof.
  intros N. f_equal. apply map_ext. intros v. unfold given. destruct (comm_dec (commodity_of (wa_symbol (wv_amount v))) (Some s)) as [E|E].
  - destruct (wa_symbol (wv_amount v)) eqn:W; [discriminate|]. injection E as <-. rewrite str_eqb_refl. reflexivity.
  - destruct (str_eqb (wa_symbol (wv_amount v)) s) eqn:Q; [|reflexivity]. apply str_eqb_eq in Q. rewrite Q in E. destruct s; [contradiction|]. elim E. reflexivity.
Qed.
Lemma given_plain vs : sumZ (map (given None) vs) = sumZ (map (fun v => if str_eqb (wa_symbol (wv_amount v)) [] then wa_units (wv_amount v) else 0%Z) vs).
Proof. f_equal. apply map_ext. intros v. unfold given. destruct (wa_symbol (wv_amount v)); reflexivity. Qed.
Lemma given_empty vs : sumZ (map (given (Some [])) vs) = 0%Z.
Proof.
  induction vs as [|v vs IH]; [reflexivity|]. cbn [map]. rewrite sumZ_cons, IH. unfold given. destruct (comm_dec (commodity_of (wa_symbol (wv_amount v))) (Some [])) as [E|E]; [|reflexivity].
  destruct (wa_symbol (wv_amount v)); discriminate.
Qed.
Lemma given_zero w c : sums_to_zero w -> sumZ (map (given c) (values_of (fx_posts w))) = 0%Z.
Proof.
  intros S. destruct c as [[|x s]|]; [apply given_empty|rewrite given_sym by discriminate; apply S|rewrite given_plain; apply S].
Qed.
Lemma open_none ps : ~ Exists (fun p => fp_value p = None) ps -> opens ps = 0.
Proof.
  unfold opens. induction ps as [|p ps IH]; intros N; [reflexivity|]. cbn [filter]. unfold is_open at 1. destruct (fp_value p) eqn:E; [apply IH; intros X; apply N; right; exact X|]. elim N. left. exact E.
Qed.
Lemma open_some ps : Exists (fun p => fp_value p = None) ps -> 1 <= opens ps.
Proof.
  unfold opens. induction 1 as [p ps E|p ps X IH]; cbn [filter].
  - unfold is_open at 1. rewrite E. cbn. lia.
  - destruct (is_open p); cbn [length]; lia.
Qed.
Lemma values_length ps : length ps = length (values_of ps) + opens ps.
Proof. unfold values_of, opens. induction ps as [|p ps IH]; [reflexivity|]. cbn [flat_map filter]. rewrite app_length. unfold is_open at 1. destruct (fp_value p); cbn [length]; lia. Qed.
Lemma all_given s vs : Forall (fun v => wa_symbol (wv_amount v) = s) vs -> sumZ (map (given (commodity_of s)) vs) = sumZ (map (fun v => wa_units (wv_amount v)) vs).
Proof. intros F. f_equal. apply map_ext_in. intros v Hv. rewrite Forall_forall in F. unfold given. rewrite (F v Hv). destruct (comm_dec (commodity_of s) (commodity_of s)); [reflexivity|contradiction]. Qed.
Lemma none_given s c vs : Forall (fun v => wa_symbol (wv_amount v) = s) vs -> commodity_of s <> c -> sumZ (map (given c) vs) = 0%Z.
Proof.
  intros F N. induction F as [|v vs H F IH]; [reflexivity|]. cbn [map]. rewrite sumZ_cons, IH. unfold given. rewrite H. destruct (comm_dec (commodity_of s) c); [contradiction|reflexivity].
Qed.
Lemma even_sum w c : xact_ok w -> even w -> sum_in c (full_entries [w]) = 0%Z.
Proof.
  intros (L & U & _ & _ & Y) (NC & E). destruct (worths_plain w NC) as [Wu Ws]. rewrite sum_in_parts. unfold full_entries. cbn [flat_map]. rewrite app_nil_r.
  change (map _ (fx_posts w)) with (map (entry_of w) (fx_posts w)). rewrite entries_sum. apply opens_one in U. destruct E as [[O R]|[O S]].
  - pose proof (open_some _ O) as O1. assert (Oe : opens (fx_posts w) = 1) by lia. rewrite Oe. change (Z.of_nat 1) with 1%Z. rewrite Z.mul_1_l.
    pose proof (values_length (fx_posts w)) as Len. rewrite Oe in Len.
    assert (Sy : exists sym, Forall (fun v => wa_symbol (wv_amount v) = sym) (values_of (fx_posts w))).
    { assert (G : ~ Forall (fun p => fp_value p <> None) (fx_posts w)).
      { intros G. apply Exists_exists in O as (p & Hp & Np). rewrite Forall_forall in G. exact (G p Hp Np). }
      destruct Y as [(sym & Y)|[[G' _]|(x & y & r & k & (_ & G' & _) & _)]]; [|contradiction|contradiction].
      exists sym. rewrite Forall_forall in Y. apply Forall_forall. intros v Hv. specialize (Y v Hv). unfold no_costs in NC. rewrite Forall_forall in NC. unfold worth_symbol in Y. rewrite (NC v Hv) in Y. exact Y. }
    destruct Sy as (sym & Sy). assert (Rc : rest_commodity w = commodity_of sym).
    { unfold rest_commodity. rewrite Ws. destruct (values_of (fx_posts w)) as [|v vs]; [cbn in Len; lia|]. cbn [map hd]. inversion Sy; subst. reflexivity. }
    rewrite Rc. unfold rest_value. rewrite Wu. unfold rest_not_positive in R. rewrite Z.abs_eq by exact R. destruct (comm_dec (commodity_of sym) c) as [<-|N].
    + rewrite (all_given _ _ Sy). lia.
    + rewrite (none_given _ _ _ Sy N). reflexivity.
  - rewrite (open_none _ O), (given_zero _ _ S). reflexivity.
Qed.
Lemma full_entries_app ws ws' : full_entries (ws ++ ws') = full_entries ws ++ full_entries ws'.
Proof. unfold full_entries. apply flat_map_app. Qed.
Lemma even_sums ws c : Forall xact_ok ws -> Forall even ws -> sum_in c (full_entries ws) = 0%Z.
Proof.
  intros K E. induction E as [|w ws E Es IH]; [reflexivity|]. inversion K; subst. change (w :: ws) with ([w] ++ ws). rewrite full_entries_app, sum_in_app, even_sum, IH by assumption. reflexivity.
Qed.

(** ** The first line *)
Lemma first_path es ps : accounts_of_entries es ps -> exists r, ps = [] :: r.
Proof.
  intros (S & I). assert (H : In [] ps) by (apply I; left; reflexivity). destruct ps as [|p ps]; [destruct H|]. exists ps. f_equal. destruct H as [H|H]; [exact H|].
  inversion S as [|? ? _ F]; subst. rewrite Forall_forall in F. specialize (F _ H). destruct p; destruct F.
Qed.
Lemma trial_balance depth cwd fs args verb cmds files wss :
  args_mean args (verb :: cmds) files -> balance_verb verb -> Forall2 (ffile_says depth cwd fs) files wss ->
  Forall xact_ok (concat wss) -> lots_ok (j_pool journal_new) (concat wss) -> full_sums_fit (concat wss) ->
  Forall even (concat wss) ->
  exists out, run depth cwd fs args = Ok out /\ zero_root out (concat wss).
Proof.
  intros A V F K L S E. destruct (full_balance depth cwd fs _ _ _ _ _ A V F K L S) as (out & ps & R & Ac & O). destruct (first_path _ _ Ac) as (r & ->).
  inversion O as [|? line ? out' (b & (N & I & W & T) & El) _]; subst. rewrite below_root in *. exists ((lit "Account " ++ shown_name [] ++ lit " has balance " ++ shown_amounts b) :: out'). split; [exact R|]. exists b. split; [reflexivity|]. split; [exact N|]. split; [exact I|]. split; [exact W|].
  apply Forall_forall. intros a Ha. rewrite (T a Ha). apply even_sums; assumption.
Qed.
