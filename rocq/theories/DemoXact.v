(** Concrete transactions used by the examples and refutations in PropertiesXact.v. *)
From Coq Require Import String List NArith ZArith Bool Lia ZifyBool ZifyNat.
From Verif Require Import Base BaseFacts Decimal Dates Amount Balance Scanner History Pool Account Journal Xact Parser.
From Verif Require Import SpecDecimal SpecAmount SpecDates SpecPool SpecXact.
From Verif Require Import DecimalFacts BalanceFacts PoolFacts PriceFacts PriceProofs ArithProofs XactFacts XactProofs DemoPrices ModelTests.
Import ListNotations.
Open Scope list_scope.
Open Scope nat_scope.

(** A computable sufficient condition for [fits_amts] and [wf_post]. *)
Definition wf_check (a : amount) : bool := (0 <=? d_m (a_q a))%Z && (d_m (a_q a) <? 2 ^ 96)%Z && (d_s (a_q a) <=? 28).
Definition fits_check (s : nat) (l : list amount) : bool :=
  (s <=? 28) && forallb (fun a => wf_check a && (d_s (a_q a) <=? s)) l
  && (sumZ (map (fun a => scaled_abs s (a_q a)) l) <? 2 ^ 96)%Z.
Lemma wf_check_ok a : wf_check a = true -> wf_amt a.
Proof. unfold wf_check, wf_amt, wf_dec. intros H. lia. Qed.
Lemma in_comm_sum s c l : Forall wf_amt l ->
  (0 <= sumZ (map (scaled_abs s) (map a_q (in_comm c l))) <= sumZ (map (fun a => scaled_abs s (a_q a)) l))%Z.
Proof.
  induction 1 as [|a l W _ IH]; cbn; [lia|].
  assert (0 <= scaled_abs s (a_q a))%Z.
  { unfold scaled_abs. destruct W as [[W _] _]. apply Z.mul_nonneg_nonneg; [exact W|apply Z.pow_nonneg; lia]. }
  unfold in_comm in *. destruct (comm_dec (a_c a) c); cbn; unfold sumZ in *; lia.
Qed.
Lemma fits_check_ok s l : fits_check s l = true -> fits_amts l.
Proof.
  unfold fits_check. rewrite !andb_true_iff. intros [[Hs Hl] Hb]. apply Nat.leb_le in Hs. apply Z.ltb_lt in Hb.
  rewrite forallb_forall in Hl.
  assert (W : Forall wf_amt l).
  { apply Forall_forall. intros a Ha. apply wf_check_ok. apply Hl in Ha. apply andb_true_iff in Ha. apply Ha. }
  split; [exact W|]. intros c. exists s. split; [exact Hs|]. split.
  - apply Forall_forall. intros d Hd. apply in_map_iff in Hd as (a & <- & Ha). unfold in_comm in Ha. apply filter_In in Ha as [Ha _].
    apply Hl in Ha. apply andb_true_iff in Ha as [_ Ha]. apply Nat.leb_le, Ha.
  - pose proof (in_comm_sum s c l W). lia.
Qed.
Definition wf_post_check (p : post) : bool :=
  match po_amount p with Some a => wf_check a | None => true end
  && match po_cost p with Some a => wf_check a | None => true end.
Lemma wf_posts_ok ps : forallb wf_post_check ps = true -> Forall wf_post ps.
Proof.
  rewrite forallb_forall, Forall_forall. intros H p Hp. apply H in Hp. unfold wf_post_check in Hp.
  apply andb_true_iff in Hp as [A B]. split; intros a E; rewrite E in *; apply wf_check_ok; assumption.
Qed.

Definition neg (m : Z) (s : nat) : dec := mkDec true m s.
Definition am (d : dec) (s : str) : amount := mkAmt d (Some s).
Definition po (a : string) (amt cost : option amount) : post := mkPost [lit a] amt cost None.

(** Three postings, the last one elided. *)
Definition lunch : list post :=
  [po "Expenses:Food" (Some (am (dq 1250 2) sEUR)) None; po "Expenses:Tips" (Some (am (dq 1 0) sEUR)) None;
   po "Assets:Cash" None None].
Lemma lunch_elided : one_elided lunch [po "Expenses:Food" (Some (am (dq 1250 2) sEUR)) None; po "Expenses:Tips" (Some (am (dq 1 0) sEUR)) None]
   (po "Assets:Cash" None None) [].
Proof.
  split; [reflexivity|]. split; [reflexivity|]. split; unfold complete; repeat (apply Forall_cons || apply Forall_nil); discriminate.
Qed.
Lemma lunch_fits : fits_amts (worths lunch).
Proof. apply (fits_check_ok 2). vm_compute. reflexivity. Qed.
Lemma lunch_only : only_in (Some sEUR) (worths lunch).
Proof. unfold only_in. cbn. repeat (apply Forall_cons || apply Forall_nil); reflexivity. Qed.

(** Income first: the total of the written postings is negative. *)
Definition salary : list post :=
  [po "Income:Salary" (Some (am (neg 100 0) sEUR)) None; po "Assets:Bank" None None].
Lemma jan1_valid : valid_date (mkDate 2023 1 1).
Proof. apply (day_valid 2023 1 1). vm_compute. reflexivity. Qed.
Lemma salary_elided : one_elided salary [po "Income:Salary" (Some (am (neg 100 0) sEUR)) None] (po "Assets:Bank" None None) [].
Proof.
  split; [reflexivity|]. split; [reflexivity|]. split; unfold complete; repeat (apply Forall_cons || apply Forall_nil); discriminate.
Qed.
Lemma salary_wf : Forall wf_post salary.
Proof. apply wf_posts_ok. vm_compute. reflexivity. Qed.
Lemma salary_fits : fits_amts (worths salary).
Proof. apply (fits_check_ok 2). vm_compute. reflexivity. Qed.
Lemma salary_only : only_in (Some sEUR) (worths salary).
Proof. unfold only_in. cbn. repeat (apply Forall_cons || apply Forall_nil); reflexivity. Qed.

(** Shares bought for dollars. *)
Definition trade : list post :=
  [po "Assets:Stocks" (Some (am (dq 10 0) sEUR)) None; po "Expenses:Fees" (Some (am (dq 2 0) sEUR)) None;
   po "Assets:Cash" (Some (am (neg 30 0) sUSD)) None].
Lemma trade_two : two_commodities trade (Some sEUR) (Some sUSD).
Proof.
  split; [vm_compute; discriminate|]. split.
  - intros c. cbn. intuition congruence.
  - split; [vm_compute; discriminate|]. split; [vm_compute; discriminate|].
    exists (am (dq 10 0) sEUR). split; [|left; reflexivity]. exists []. do 2 eexists. split; [reflexivity|]. split; [reflexivity|constructor].
Qed.
Lemma trade_complete : complete trade.
Proof. unfold complete. repeat (apply Forall_cons || apply Forall_nil); discriminate. Qed.
Lemma trade_wf : Forall wf_post trade.
Proof. apply wf_posts_ok. vm_compute. reflexivity. Qed.
Lemma trade_fits : fits_amts (worths trade).
Proof. apply (fits_check_ok 2). vm_compute. reflexivity. Qed.
Lemma trade_exact : exact_costs trade (Some sEUR) (Some sUSD) (dq 25 1).
Proof.
  split; [unfold dq, d_make; wf_lit|]. split; [vm_compute; discriminate|]. split; [vm_compute; reflexivity|].
  unfold trade. repeat (apply Forall_cons || apply Forall_nil); intros a [= <-] E.
  - exists (dq 25 0). split; [unfold dq, d_make; wf_lit|vm_compute; reflexivity].
  - exists (dq 5 0). split; [unfold dq, d_make; wf_lit|vm_compute; reflexivity].
  - vm_compute in E. discriminate.
Qed.

(** A cost written by the user that finalisation overwrites. *)
Definition mixed : list post :=
  [po "A" (Some (am (dq 10 0) sBAM)) (Some (am (dq 20 0) sEUR)); po "B" (Some (am (dq 5 0) sBAM)) None].
Lemma mixed_wf : Forall wf_post mixed.
Proof. apply wf_posts_ok. vm_compute. reflexivity. Qed.
Lemma mixed_fits : fits_amts (worths mixed).
Proof. apply (fits_check_ok 2). vm_compute. reflexivity. Qed.

Lemma elided_refuted :
  ~ (forall d pool posts pool' posts' l1 p l2 c,
       reachable_pool pool -> valid_date d -> one_elided posts l1 p l2 -> Forall wf_post posts ->
       fits_amts (worths posts) -> only_in c (worths posts) ->
       finalize_posts (Some d) pool posts = Ok (pool', posts') ->
       exists a, posts' = l1 ++ mkPost (po_account p) (Some a) (po_cost p) (po_note p) :: l2
                 /\ a_c a = c /\ aunits a = (- total c (worths posts))%Z).
Proof.
  intros H.
  assert (E : exists pool' posts', finalize_posts (Some (mkDate 2023 1 1)) demo_empty salary = Ok (pool', posts')
     /\ posts' = [po "Income:Salary" (Some (am (neg 100 0) sEUR)) None; po "Assets:Bank" (Some (am (neg 100 0) sEUR)) None]).
  { do 2 eexists. split; vm_compute; reflexivity. }
  destruct E as (pool' & posts' & E & Ep).
  destruct (H _ _ _ _ _ [po "Income:Salary" (Some (am (neg 100 0) sEUR)) None] (po "Assets:Bank" None None) [] (Some sEUR)
              demo_empty_reachable jan1_valid salary_elided salary_wf salary_fits salary_only E) as (a & Ea & _ & Ua).
  rewrite Ep in Ea. cbn [app po_account po_cost po_note po] in Ea. injection Ea as Ea.
  rewrite <- Ea in Ua. vm_compute in Ua. discriminate.
Qed.

Lemma balanced_refuted : ~ (forall text j',
    parse_text 1 [] no_files text journal_new = Ok j' -> Forall (fun x => balanced (x_posts x)) (j_xacts j')).
Proof.
  intros H. specialize (H (lit "2023-01-01 Payee
    Assets  10 EUR
    Expenses  20 EUR
")). match type of H with forall j', ?t = Ok j' -> _ => assert (E : exists j', t = Ok j' /\ map (fun x => (total (Some sEUR) (worths (x_posts x)) =? 0)%Z) (j_xacts j') = [false]) end.
  { eexists. split; vm_compute; reflexivity. }
  destruct E as (j' & E & T). apply H in E. destruct (j_xacts j') as [|x xs]; [discriminate|]. injection T as T _.
  inversion E as [|? ? [_ B] _]; subst. specialize (B (Some sEUR)). unfold balanced_in in B. rewrite B in T. discriminate.
Qed.

Lemma cost_refuted :
  ~ (forall d pool posts pool' posts',
       reachable_pool pool -> valid_date d -> Forall wf_post posts -> fits_amts (worths posts) ->
       finalize_posts (Some d) pool posts = Ok (pool', posts') ->
       Forall2 (fun p p' => forall k, po_cost p = Some k -> po_cost p' = Some k) posts posts').
Proof.
  intros H.
  assert (E : exists pool' p1 p2, finalize_posts (Some (mkDate 2023 1 1)) demo_empty mixed = Ok (pool', [p1; p2])
     /\ po_cost p1 = Some (am (dq 40 0) sEUR)).
  { do 3 eexists. split; vm_compute; reflexivity. }
  destruct E as (pool' & p1 & p2 & E & Ep).
  apply (H _ _ _ _ _ demo_empty_reachable jan1_valid mixed_wf mixed_fits) in E.
  inversion E as [|? ? ? ? C _]; subst. specialize (C _ eq_refl). rewrite Ep in C. vm_compute in C. discriminate.
Qed.
