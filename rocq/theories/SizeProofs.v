(** Proofs for C100. *)
From Coq Require Import String List NArith ZArith Bool Lia Relations.
From Verif Require Import Base Decimal Dates Amount Balance Scanner History Pool Account Journal Xact Parser.
From Verif Require Import SpecText SpecDecimal SpecAmount SpecDates SpecPool SpecReading SpecXact SpecAccount SpecJournal SpecFull SpecOutline SpecPriceLog SpecLine SpecLots SpecSize.
From Verif Require Import BaseFacts AccountFacts JournalFacts JournalProofs ReadingFacts TerminationFacts MoreProofs EndProofs LineReadProofs OutlineProofs LotProofs.
Import ListNotations.
Open Scope list_scope.
Open Scope nat_scope.

Lemma at_most_add {A} (dec : forall x y : A, {x = y} + {x <> y}) (P Q : A -> Prop) (L : list A) n :
  at_most P n -> (forall x, Q x -> P x \/ In x L) -> at_most Q (n + length L).
Proof.
  intros H I l N F.
  set (a := filter (fun x => if in_dec dec x L then false else true) l). set (b := filter (fun x => if in_dec dec x L then true else false) l).
  assert (E : length l = length a + length b).
  { unfold a, b. clear. induction l as [|x l IH]; [reflexivity|]. cbn [filter]. destruct (in_dec dec x L); cbn [length]; lia. }
  assert (La : length a <= n).
  { apply H; [apply NoDup_filter, N|]. apply Forall_forall. intros x Hx. apply filter_In in Hx as [Hx D]. destruct (in_dec dec x L) as [|Nx]; [discriminate|].
    destruct (I x (proj1 (Forall_forall _ _) F x Hx)) as [|]; [assumption|contradiction]. }
  assert (Lb : length b <= length L).
  { apply NoDup_incl_length; [apply NoDup_filter, N|]. intros x Hx. apply filter_In in Hx as [_ D]. destruct (in_dec dec x L); [assumption|discriminate]. }
  lia.
Qed.
Lemma at_most_le {A} (P : A -> Prop) n m : at_most P n -> n <= m -> at_most P m.
Proof. intros H L l N F. specialize (H l N F). lia. Qed.

(** What the items of an outline cost. *)
Definition item_cost (v : str -> nat) (i : item) : nat :=
  match i with Lines (h, ps) => v h + list_sum (map (fun r => v (32%N :: r)) ps) | Price_line l => v l end.
Definition items_cost (v : str -> nat) (its : list item) : nat := list_sum (map (item_cost v) its).
Lemma list_sum_app l l' : list_sum (l ++ l') = list_sum l + list_sum l'.
Proof. induction l as [|x l IH]; [reflexivity|]. cbn [app list_sum fold_right]. unfold list_sum in *. lia. Qed.
Lemma items_app v a b : items_cost v (a ++ b) = items_cost v a + items_cost v b.
Proof. unfold items_cost. rewrite map_app. apply list_sum_app. Qed.
Lemma items_cons v a b : items_cost v (a :: b) = item_cost v a + items_cost v b.
Proof. reflexivity. Qed.

Lemma names_file_once cwd arg p q : names_file cwd arg p -> names_file cwd arg q -> p = q.
Proof.
  intros [c r E I|H A B|d H A|H A] [c' r' E' I'|H' A' B'|d' H' A'|H' A']; try reflexivity; subst; try solve [exfalso; first [eapply H; [reflexivity|assumption]|eapply H'; [reflexivity|assumption]|congruence|eapply B; reflexivity|eapply B'; reflexivity|destruct d; discriminate|destruct d'; discriminate]].
Qed.
Section Costs.
Variable v : str -> nat.
Variables (cwd : str) (fs : filesystem).
Lemma costs_cons l src n : costs v cwd fs (Some l :: src) n -> exists c n', n = c + n' /\ v l <= c /\ costs v cwd fs src n'.
Proof. intros H. inversion H as [| |? ? m A B|? ? ? ? ? k m A B C D E]; subst; [exists (v l), m|exists (Nat.max (v l) k), m]; repeat split; try assumption; lia. Qed.
Lemma costs_include l arg p f src n : include_line l arg -> names_file cwd arg p -> fs p = Some f -> costs v cwd fs (Some l :: src) n ->
  exists k n', n = Nat.max (v l) k + n' /\ costs v cwd fs f k /\ costs v cwd fs src n'.
Proof.
  intros I N F H. inversion H as [| |? ? m A B|? arg' p' f' ? k m A B C D E]; subst; [rewrite (A arg p I N) in F; discriminate|].
  pose proof (proj2 (include_words l arg I)) as W. pose proof (proj2 (include_words l arg' A)) as W'. rewrite W in W'. subst arg'.
  pose proof (names_file_once _ _ _ _ N B) as <-. rewrite F in C. injection C as <-. exists k, m. auto.
Qed.
Definition cur_cost (cur : option lines_read) : nat := match cur with None => 0 | Some o => item_cost v (Lines o) end.
Lemma outline_cost cur src its : outline cwd fs cur src its -> forall n, costs v cwd fs src n -> items_cost v its <= n + cur_cost cur.
Proof.
  intros O. induction O; intros n C; cbn [cur_cost] in *.
  - change (items_cost v []) with 0. lia.
  - rewrite items_cons. change (items_cost v []) with 0. lia.
  - change (items_cost v []) with 0. lia.
  - inversion C; subst. specialize (IHO _ H0). rewrite items_cons. lia.
  - destruct l as [l|]; [|inversion C; subst; apply IHO; assumption]. apply costs_cons in C as (c & n' & -> & L & C). specialize (IHO _ C). lia.
  - apply costs_cons in C as (c & n' & -> & L & C). specialize (IHO _ C). rewrite items_cons. cbn [item_cost]. lia.
  - apply costs_cons in C as (c & n' & -> & L & C). specialize (IHO _ C). lia.
  - destruct (costs_include _ _ _ _ _ _ H H0 H1 C) as (k & n' & -> & C1 & C2). specialize (IHO1 _ C1). specialize (IHO2 _ C2). rewrite items_app. lia.
  - apply costs_cons in C as (k & n' & -> & L & C). specialize (IHO _ C). cbn [item_cost map list_sum fold_right] in IHO. lia.
  - apply costs_cons in C as (k & n' & -> & L & C). specialize (IHO _ C). lia.
  - apply costs_cons in C as (k & n' & -> & L & C). specialize (IHO _ C). cbn [item_cost] in *. rewrite map_app, list_sum_app in IHO. change (list_sum (map (fun r0 : list N => v (32%N :: r0)) [r])) with (v (32%N :: r) + 0) in IHO. assert (X : forall a b c d e f : nat, a <= b + (c + (d + (e + 0))) -> e <= f -> a <= f + b + (c + d)) by lia. exact (X _ _ _ _ _ _ IHO L).
  - apply costs_cons in C as (k & n' & -> & L & C). specialize (IHO _ C). rewrite items_cons. lia.
  - apply costs_cons in C as (k & n' & -> & L & C). specialize (IHO _ C). rewrite items_cons. lia.
Qed.
(** The cost of a source without includes. *)
Lemma costs_flat src : (forall l arg p, In (Some l) src -> include_line l arg -> names_file cwd arg p -> fs p = None) ->
  costs v cwd fs src (list_sum (map (fun l => match l with Some l => v l | None => 0 end) src)).
Proof.
  induction src as [|[l|] src IH]; intros H; cbn [map list_sum fold_right]; [constructor| |].
  - apply co_line; [intros arg p; apply H; left; reflexivity|]. apply IH. intros l' arg p I. apply H. right. exact I.
  - apply co_undecodable. apply IH. intros l' arg p I. apply H. right. exact I.
Qed.
End Costs.
Lemma flat_lines cwd fs src : (forall l arg p, In (Some l) src -> include_line l arg -> names_file cwd arg p -> fs p = None) ->
  exists n, costs per_line cwd fs src n /\ n <= length src.
Proof.
  intros H. eexists. split; [apply costs_flat, H|]. clear H. induction src as [|[l|] src IH]; cbn [map list_sum fold_right length]; unfold per_line, list_sum in *; lia.
Qed.

(** Transactions and postings. *)
Lemma xact_lines_cost its : items_cost per_line its = length (xact_lines its) + length (posting_lines its) + length (price_lines its).
Proof.
  unfold posting_lines. induction its as [|i its IH]; [reflexivity|]. rewrite items_cons, IH. destruct i as [[h ps]|l].
  - change (xact_lines (Lines (h, ps) :: its)) with ((h, ps) :: xact_lines its). change (price_lines (Lines (h, ps) :: its)) with (price_lines its).
    cbn [flat_map snd]. rewrite app_length. cbn [length item_cost]. replace (list_sum (map (fun r => per_line (32%N :: r)) ps)) with (length ps); [unfold per_line; lia|].
    clear. induction ps as [|p ps IH]; [reflexivity|]. cbn [map list_sum fold_right length]. unfold per_line, list_sum in *. lia.
  - change (xact_lines (Price_line l :: its)) with (xact_lines its). change (price_lines (Price_line l :: its)) with (l :: price_lines its). cbn [length item_cost]. unfold per_line. lia.
Qed.
Lemma read_from_posts os xs : Forall2 read_from os xs -> length os = length xs /\ length (flat_map snd os) = length (flat_map x_posts xs).
Proof.
  intros F. induction F as [|o x os xs (_ & P) F [IH1 IH2]]; [split; reflexivity|]. cbn [flat_map length]. rewrite !app_length, (MoreProofs.Forall2_len _ _ _ P). lia.
Qed.
Theorem entries_bound depth cwd fs src j j' n : reachable_journal j -> read_into_journal depth cwd fs src j = Ok j' -> costs per_line cwd fs src n ->
  entries_in j' <= entries_in j + n.
Proof.
  intros R H C. destruct (read_outline _ _ _ _ _ _ R H) as (its & new & O & E & F). pose proof (outline_cost _ _ _ _ _ _ O _ C) as B. cbn [cur_cost] in B.
  rewrite xact_lines_cost in B. destruct (read_from_posts _ _ F) as [L1 L2]. unfold entries_in. rewrite E, flat_map_app, !app_length. unfold posting_lines in B. lia.
Qed.

(** Accounts. *)
Fixpoint starts (p : path) : list path := match p with [] => [] | x :: p => [x] :: map (cons x) (starts p) end.
Lemma starts_length p : length (starts p) = length p.
Proof. induction p as [|x p IH]; [reflexivity|]. cbn [starts length]. f_equal. rewrite map_length. exact IH. Qed.
Lemma starts_in : forall p q, q <> [] -> prefix_of q p = true -> In q (starts p).
Proof.
  induction p as [|x p IH]; intros [|y q] N H; try congruence; cbn [prefix_of] in H; [discriminate|].
  apply andb_prop in H as [E H]. apply str_eqb_eq in E. subst y. cbn [starts]. destruct q as [|z q]; [left; reflexivity|right]. apply in_map. apply IH; [discriminate|exact H].
Qed.
Lemma split_length sep s : length (split_on sep s) <= S (length s).
Proof.
  induction s as [|c s IH]; cbn [split_on length]; [lia|]. destruct (c =? sep)%N; cbn [length]; [lia|]. destruct (split_on sep s); cbn [length] in *; lia.
Qed.
Lemma components_length s : length (components s) <= S (length s).
Proof.
  unfold components. pose proof (split_length colon s) as L. destruct (rev (split_on colon s)) as [|[|c w] [|w' up]] eqn:E; try exact L.
  apply (f_equal (@length _)) in E. rewrite rev_length in E. rewrite rev_length. cbn [length] in *. lia.
Qed.
Lemma account_length r a : account_written r a -> length a <= length r.
Proof.
  intros (w & t & -> & _ & _ & [(b & -> & _)|(_ & u & -> & _)]); rewrite !app_length; lia.
Qed.
Lemma posts_starts (P : post -> Prop) : forall ls ps, Forall2 (fun l p => exists a, account_written l a /\ po_account p = components a) ls ps ->
  length (flat_map (fun p => starts (po_account p)) ps) <= list_sum (map (fun r => per_character (32%N :: r)) ls).
Proof.
  intros ls ps F. induction F as [|l p ls ps (a & A & E) F IH]; [cbn; lia|]. cbn [flat_map]. rewrite app_length, starts_length, E.
  apply Nat.add_le_mono; [|exact IH]. pose proof (components_length a). apply account_length in A. unfold per_character. cbn [length]. lia.
Qed.
Lemma lines_starts : forall its new, Forall2 read_from (xact_lines its) new -> length (flat_map (fun p => starts (po_account p)) (flat_map x_posts new)) <= items_cost per_character its.
Proof.
  induction its as [|i its IH]; intros new F.
  - change (xact_lines []) with (@nil lines_read) in F. inversion F. cbn. lia.
  - rewrite items_cons. destruct i as [[h ps]|l].
    + change (xact_lines (Lines (h, ps) :: its)) with ((h, ps) :: xact_lines its) in F. inversion F as [|? x ? new' (_ & P) F']; subst. specialize (IH _ F').
      cbn [flat_map]. rewrite flat_map_app, app_length. pose proof (posts_starts (fun _ => True) _ _ P). cbn [snd item_cost] in *. lia.
    + change (xact_lines (Price_line l :: its)) with (xact_lines its) in F. specialize (IH _ F). lia.
Qed.
Theorem accounts_bound depth cwd fs src j j' n N : reachable_journal j -> read_into_journal depth cwd fs src j = Ok j' -> costs per_character cwd fs src n ->
  at_most (exists_at (j_master j)) N -> at_most (exists_at (j_master j')) (N + n).
Proof.
  intros R H C A. destruct (read_outline _ _ _ _ _ _ R H) as (its & new & O & E & F). pose proof (outline_cost _ _ _ _ _ _ O _ C) as B. cbn [cur_cost] in B.
  pose proof (lines_starts _ _ F) as L. set (ps := flat_map (fun p => starts (po_account p)) (flat_map x_posts new)) in *.
  apply (at_most_le _ (N + length ps)); [|lia]. apply (at_most_add (list_eq_dec str_eq_dec) (exists_at (j_master j))); [exact A|].
  intros q Q. apply (read_accounts _ _ _ _ _ _ q R H) in Q as [Q|(p & I & X)]; [left; exact Q|].
  unfold all_posts in I. rewrite E, flat_map_app in I. apply in_app_or in I as [I|I].
  - left. destruct (in_get_post _ _ I) as (r & Hr). eapply exists_prefix; [|exact X]. apply (proj2 (accounts_agree _ R) r). unfold account_of. rewrite Hr. reflexivity.
  - destruct q as [|x q]; [left; eexists; reflexivity|right]. apply in_flat_map. exists p. split; [exact I|]. apply starts_in; [discriminate|exact X].
Qed.

(** Commodities. *)
Definition post_symbols (l : str) : list str := match scan_post l with Ok tok => [t_symbol tok; t_price_commodity tok; t_cost_symbol tok] | _ => [] end.
Definition price_symbols (l : str) : list str := match scan_price_directive l with Ok (_, _, s, _, t) => [s; t] | _ => [] end.
Lemma flat_map_length {A B} (f : A -> list B) k l : (forall x, length (f x) <= k) -> length (flat_map f l) <= k * length l.
Proof. intros H. induction l as [|x l IH]; cbn [flat_map length]; [lia|]. rewrite app_length. specialize (H x). lia. Qed.
Theorem commodities_bound depth cwd fs src j j' n N : reachable_journal j -> read_into_journal depth cwd fs src j = Ok j' -> costs per_line cwd fs src n ->
  at_most (commodity_known (j_pool j)) N -> at_most (commodity_known (j_pool j')) (N + 3 * n).
Proof.
  intros R H C A. destruct (commodities_told _ _ _ _ _ _ R H) as (its & O & K). pose proof (outline_cost _ _ _ _ _ _ O _ C) as B. cbn [cur_cost] in B. rewrite xact_lines_cost in B.
  set (L := flat_map post_symbols (posting_lines its) ++ flat_map price_symbols (price_lines its)).
  assert (LL : length L <= 3 * length (posting_lines its) + 2 * length (price_lines its)).
  { unfold L. rewrite app_length. apply Nat.add_le_mono; apply flat_map_length; intros x.
    - unfold post_symbols. destruct (scan_post x); cbn [length]; lia.
    - unfold price_symbols. destruct (scan_price_directive x) as [[[[[? ?] ?] ?] ?]| |]; cbn [length]; lia. }
  apply (at_most_le _ (N + length L)); [|lia]. apply (at_most_add str_eq_dec (commodity_known (j_pool j))); [exact A|].
  intros s S. apply K in S as [S|[(l & tok & I & P & _ & T)|(l & a & b & w & u & I & P & T)]]; [left; exact S| |]; right; apply in_or_app; [left|right]; apply in_flat_map; exists l; (split; [exact I|]).
  - apply post_iff in P. unfold post_symbols. rewrite P. destruct T as [T|[T|[T _]]]; subst; cbn [In]; auto.
  - apply said_scan in P as (dt & tm & q & P). unfold price_symbols. rewrite P. destruct T as [T|T]; subst; cbn [In]; auto.
Qed.

(** Prices. *)
Lemma price_records_length w ps rs : price_records w ps rs -> length rs <= length ps.
Proof. induction 1; cbn [length]; lia. Qed.
Lemma recorded_length its xs rs : recorded its xs rs -> length rs <= length (posting_lines its) + length (price_lines its).
Proof.
  intros R. induction R as [|o x its xs rs rs' (_ & P) (d & _ & X) R IH|l r its xs rs P R IH]; [cbn; lia| |].
  - unfold posting_lines in *. change (xact_lines (Lines o :: its)) with (o :: xact_lines its). change (price_lines (Lines o :: its)) with (price_lines its).
    cbn [flat_map]. rewrite !app_length. apply price_records_length in X. rewrite (MoreProofs.Forall2_len _ _ _ P). lia.
  - unfold posting_lines in *. change (xact_lines (Price_line l :: its)) with (xact_lines its). change (price_lines (Price_line l :: its)) with (l :: price_lines its). cbn [length]. lia.
Qed.
Lemma records_key s t rs w u : In (w, u) (records_for s t rs) -> In (s, t, w) (map fst rs).
Proof.
  intros H. unfold records_for in H. apply in_flat_map in H as ([[[s' t'] w'] v'] & I & H). apply in_map_iff. exists (s', t', w', v'). split; [|exact I]. cbn [fst].
  destruct (comm_dec (Some s') (Some s)) as [E1|]; [|destruct H]. destruct (comm_dec (Some t') (Some t)) as [E2|]; [|destruct H]. destruct H as [H|[]]. congruence.
Qed.
Lemma key_dec (x y : str * str * datetime) : {x = y} + {x <> y}.
Proof. decide equality; [|decide equality; apply str_eq_dec]. repeat (decide equality). Defined.
Theorem prices_bound depth cwd fs src j j' n N : reachable_journal j -> read_into_journal depth cwd fs src j = Ok j' -> costs per_line cwd fs src n ->
  at_most (price_known (j_pool j)) N -> at_most (price_known (j_pool j')) (N + n).
Proof.
  intros R H C A. destruct (read_prices _ _ _ _ _ _ R H) as (its & new & rs & O & _ & Rc & P). pose proof (outline_cost _ _ _ _ _ _ O _ C) as B. cbn [cur_cost] in B. rewrite xact_lines_cost in B.
  pose proof (recorded_length _ _ _ Rc) as L. apply (at_most_le _ (N + length (map fst rs))); [|rewrite map_length; apply Nat.add_le_mono_l; refine (Nat.le_trans _ _ _ L _); lia].
  apply (at_most_add key_dec (price_known (j_pool j))); [exact A|]. intros [[s t] w] (u & Hu). cbn [fst snd] in Hu. apply P in Hu as [(r1 & r2 & E & _)|[Hu _]].
  - right. apply (records_key _ _ _ _ u). rewrite E. apply in_or_app. right. left. reflexivity.
  - left. exists u. exact Hu.
Qed.

(** Files that do not include themselves have a cost; it is bounded by their number and length. *)
Lemma include_or_not l : (exists arg, include_line l arg) \/ (forall arg, ~ include_line l arg).
Proof.
  destruct (list_eq_dec N.eq_dec (fst (take_word l)) (lit "include")) as [E|E].
  - destruct (fst (take_word (snd (take_word l)))) as [|a arg] eqn:A.
    + right. intros arg H. pose proof (proj2 (include_line_arg _ _ H)) as W. rewrite A in W. subst arg. destruct H as (_ & _ & _ & _ & _ & _ & _ & [N _] & _). congruence.
    + left. exists (a :: arg). apply take_word_include; assumption.
  - right. intros arg H. apply E, (include_line_arg _ _ H).
Qed.
Lemma costs_exist_at v cwd fs files L : acyclic cwd fs -> only_files fs files -> forall d visited src,
  NoDup visited -> incl visited files ->
  (forall w l arg p, In w visited -> In (Some l) src -> include_line l arg -> names_file cwd arg p -> clos_trans _ (includes cwd fs) w p) ->
  length files <= d + length visited ->
  exists n, costs v cwd fs src n /\ ((forall l, v l <= 1) -> 1 <= L -> length src <= L -> (forall p f, fs p = Some f -> length f <= L) -> n <= length src * L ^ d).
Proof.
  intros A O. induction d as [|d IHd]; intros visited src Nd Hin; (induction src as [|[l|] src IH]; intros Hv Le; [exists 0; split; [constructor|lia]| |]).
  - destruct IH as (n & C & B); [intros w l' arg p Iw Il; apply Hv; [exact Iw|right; exact Il]|exact Le|].
    exists (v l + n). split.
    + apply co_line; [|exact C]. intros arg p I N. destruct (fs p) as [f|] eqn:F; [exfalso|reflexivity].
      assert (Ip : In p files) by (apply O; congruence).
      assert (Nv : ~ In p visited).
      { intros K. exact (A p (Hv p l arg p K (or_introl eq_refl) I N)). }
      assert (X : length (p :: visited) <= length files) by (apply NoDup_incl_length; [constructor; assumption|intros q [<-|K]; [exact Ip|apply Hin, K]]).
      cbn [length] in X. lia.
    + intros V L1 Ls F. cbn [length] in *. specialize (V l) as Vl. specialize (B V L1 ltac:(lia) F). cbn [Nat.pow] in *. lia.
  - destruct IH as (n & C & B); [intros w l' arg p Iw Il; apply Hv; [exact Iw|right; exact Il]|exact Le|].
    exists n. split; [apply co_undecodable, C|]. intros V L1 Ls F. cbn [length] in *. specialize (B V L1 ltac:(lia) F). lia.
  - destruct IH as (n & C & B); [intros w l' arg p Iw Il; apply Hv; [exact Iw|right; exact Il]|exact Le|].
    assert (Ln : exists arg p f, include_line l arg /\ names_file cwd arg p /\ fs p = Some f \/ (forall arg p, include_line l arg -> names_file cwd arg p -> fs p = None)).
    { destruct (include_or_not l) as [[arg I]|No]; [|exists [], [], []; right; intros arg p I; destruct (No _ I)].
      pose proof (proj2 (names_resolve cwd arg (resolve cwd arg)) eq_refl) as N. destruct (fs (resolve cwd arg)) as [f|] eqn:F.
      - exists arg, (resolve cwd arg), f. left. auto.
      - exists [], [], []. right. intros arg' p I' N'. pose proof (proj2 (include_line_arg _ _ I)) as W. pose proof (proj2 (include_line_arg _ _ I')) as W'. rewrite W in W'. subst arg'.
        apply names_resolve in N'. congruence. }
    destruct Ln as (arg & p & f & [(I & N & F)|No]).
    + assert (Ip : In p files) by (apply O; congruence).
      assert (Nv : ~ In p visited) by (intros K; exact (A p (Hv p l arg p K (or_introl eq_refl) I N))).
      destruct (IHd (p :: visited) f) as (m & Cm & Bm).
      * constructor; assumption.
      * intros q [<-|K]; [exact Ip|apply Hin, K].
      * intros w l' arg' q [<-|K] Il I' N'; [apply t_step; exists f, l', arg'; auto|].
        eapply t_trans; [exact (Hv w l arg p K (or_introl eq_refl) I N)|apply t_step; exists f, l', arg'; auto].
      * cbn [length]. lia.
      * exists (Nat.max (v l) m + n). split; [eapply co_include; eassumption|]. intros V L1 Ls Fl. cbn [length] in *. specialize (V l) as Vl. specialize (B V L1 ltac:(lia) Fl).
        specialize (Bm V L1 (Fl _ _ F) Fl). pose proof (Fl _ _ F) as Lf. assert (P : 1 <= L ^ S d) by (apply Nat.neq_0_lt_0, Nat.pow_nonzero; lia).
        assert (M : m <= L ^ S d) by (cbn [Nat.pow]; refine (Nat.le_trans _ _ _ Bm _); apply Nat.mul_le_mono_r; exact Lf). cbn [Nat.mul]. lia.
    + exists (v l + n). split; [apply co_line; assumption|]. intros V L1 Ls Fl. cbn [length] in *. specialize (V l) as Vl. specialize (B V L1 ltac:(lia) Fl).
      assert (P : 1 <= L ^ S d) by (apply Nat.neq_0_lt_0, Nat.pow_nonzero; lia). cbn [Nat.mul]. lia.
  - destruct IH as (n & C & B); [intros w l' arg p Iw Il; apply Hv; [exact Iw|right; exact Il]|exact Le|].
    exists n. split; [apply co_undecodable, C|]. intros V L1 Ls F. cbn [length] in *. specialize (B V L1 ltac:(lia) F). cbn [Nat.mul]. lia.
Qed.
Theorem costs_exist v cwd fs files src : acyclic cwd fs -> only_files fs files -> exists n, costs v cwd fs src n.
Proof.
  intros A O. destruct (costs_exist_at v cwd fs files 0 A O (length files) [] src) as (n & C & _); [constructor|intros ? []|intros ? ? ? ? []|cbn; lia|]. exists n. exact C.
Qed.
Theorem lines_exponential cwd fs files src L : acyclic cwd fs -> only_files fs files -> 1 <= L -> (forall p f, fs p = Some f -> length f <= L) -> length src <= L ->
  exists n, costs per_line cwd fs src n /\ n <= L ^ S (length files).
Proof.
  intros A O L1 F Ls. destruct (costs_exist_at per_line cwd fs files L A O (length files) [] src) as (n & C & B); [constructor|intros ? []|intros ? ? ? ? []|cbn; lia|].
  exists n. split; [exact C|]. cbn [Nat.pow]. refine (Nat.le_trans _ _ _ (B (fun _ => le_n _) L1 Ls F) _). apply Nat.mul_le_mono_r. exact Ls.
Qed.
