(** The reports on full journals. *)
From Coq Require Import String List NArith ZArith Bool Lia Sorted Permutation.
From Verif Require Import Base Decimal Dates Amount Balance Scanner History Pool Account Journal Xact Parser Report Options Lib.
From Verif Require Import SpecDecimal SpecAmount SpecDates SpecPool SpecAccount SpecXact SpecJournal SpecText SpecReading SpecScan SpecWhole SpecReport SpecCommand SpecFull SpecEnd SpecFullEnd.
From Verif Require Import BaseFacts AccountFacts JournalFacts JournalProofs CommandProofs WholeProofs FullFacts FullProofs EndProofs.
Import ListNotations.
Open Scope list_scope.
Open Scope nat_scope.

(** ** Files *)
Lemma says_app cwd fs d l1 ws1 : says cwd fs d l1 ws1 -> forall l2 ws2, says cwd fs d l2 ws2 -> says cwd fs d (l1 ++ nl :: l2) (ws1 ++ ws2).
Proof.
  induction 1 as [d|d l lines ws Hl H IH|d l arg p t lines' ws' lines ws Hl Hd Nf Fp Ef Lo H' IH' H IH|d h pls e lines w ws Hh Hp He H IH|d h pls w Hh Hp]; intros l2 ws2 H2.
  - apply says_inert; [|exact H2]. exists nl. split; [reflexivity|left; reflexivity].
  - cbn [app]. apply says_inert; [exact Hl|]. apply IH, H2.
  - cbn [app]. rewrite <- app_assoc. eapply says_include; try eassumption. apply IH, H2.
  - rewrite <- app_assoc, <- app_assoc. cbn [app]. apply says_xact; try assumption. apply IH, H2.
  - rewrite <- app_assoc. cbn [app]. apply says_xact; try assumption. left. reflexivity.
Qed.
Lemma files_said depth cwd fs files wss : Forall2 (ffile_says depth cwd fs) files wss ->
  exists sources lines, files_are fs files sources /\ joined sources = map Some lines /\ says cwd fs depth lines (concat wss).
Proof.
  induction 1 as [|f ws files wss (t & ls & Ef & Lo & Wj) F (srcs & lines & Fa & J & Wl)].
  - exists [], []. split; [constructor|]. split; [reflexivity|constructor].
  - exists (text_source t :: srcs), (ls ++ nl :: lines). split; [|split].
    + constructor; [|exact Fa]. split; [exact Ef|]. unfold decodable, text_source. apply Forall_map. apply Forall_forall. discriminate.
    + unfold joined in *. cbn [flat_map]. rewrite J. unfold text_source. rewrite (split_lines_of _ _ Lo), map_app, <- app_assoc. reflexivity.
    + cbn [concat]. apply says_app; assumption.
Qed.
Lemma full_files_read depth cwd fs files wss : Forall2 (ffile_says depth cwd fs) files wss -> Forall xact_ok (concat wss) -> lots_ok (j_pool journal_new) (concat wss) ->
  exists sources j, files_are fs files sources /\ read_into_journal depth cwd fs (joined sources) journal_new = Ok j
    /\ reachable_journal j /\ Forall2 fxact_is (concat wss) (j_xacts j)
    /\ forall q, exists_at (j_master j) q <-> q = [] \/ exists p, In p (all_posts j) /\ prefix_of q (po_account p) = true.
Proof.
  intros F W LO. destruct (files_said _ _ _ _ _ F) as (srcs & lines & Fa & J & Wl).
  destruct (said_accepted depth cwd fs lines _ journal_new Wl W LO rj_new) as (j & new & rss & E & X & N & _).
  exists srcs, j. split; [exact Fa|].
  assert (R : read_into_journal depth cwd fs (joined srcs) journal_new = Ok j) by (rewrite J; exact E).
  split; [exact R|]. split; [eapply rj_read; [apply rj_new|exact R]|]. split; [rewrite X; exact N|]. intros q. rewrite (read_accounts _ _ _ _ _ _ q rj_new R).
  split; (intros [A|A]; [left|right; exact A]).
  - destruct A as [a A]. destruct q; [reflexivity|discriminate A].
  - subst q. eexists. reflexivity.
Qed.

(** ** Entries *)
Lemma ok_has_value w : xact_ok w -> exists v vs, values_of (fx_posts w) = v :: vs.
Proof.
  intros (L & U & _). destruct (fx_posts w) as [|p1 [|p2 ps]]; cbn [length] in L; [lia|lia|]. unfold values_of. cbn [flat_map].
  destruct (fp_value p1) as [v|] eqn:E1; [eexists _, _; reflexivity|]. destruct (fp_value p2) as [v|] eqn:E2; [eexists _, _; reflexivity|].
  assert (X : 0 = 1); [|discriminate]. apply U; cbn; [rewrite E1|rewrite E2]; reflexivity.
Qed.
Definition entry_of (w : fxact) (p : fposting) : entry :=
  match fp_value p with
  | Some v => (components (fp_account p), commodity_of (wa_symbol (wv_amount v)), wa_units (wv_amount v))
  | None => (components (fp_account p), rest_commodity w, rest_value w)
  end.
Lemma fxact_says scale w x : xact_ok w -> Forall (fun v => wa_decimals (wv_amount v) <= scale) (values_of (fx_posts w)) ->
  Forall (fun p => fp_value p <> None) (fx_posts w) \/ Forall (fun v => worth_decimals v <= scale) (values_of (fx_posts w)) ->
  fxact_is w x -> Forall2 (posting_says scale) (map (entry_of w) (fx_posts w)) (x_posts x).
Proof.
  intros OK D E (_ & _ & _ & _ & F). apply Forall2_in_l in F.
  assert (G : forall l l', Forall2 (fun fp p => In fp (fx_posts w) /\ fposting_is w fp p) l l' -> Forall2 (posting_says scale) (map (entry_of w) l) l').
  2: { apply G. exact F. }
  clear F. intros l l' F. induction F as [|fp p l l' [Hin (A & _ & a & Pa & M)] F IH]; cbn [map]; constructor; [|exact IH].
  unfold entry_of. destruct (fp_value fp) as [v|] eqn:Ev.
  - destruct M as (((_ & Ua & Sa & Ca) & _) & _). split; [exact A|]. exists a. split; [exact Pa|]. cbn [fst snd]. split; [exact Ca|]. split; [exact Ua|]. rewrite Sa.
    rewrite Forall_forall in D. apply D. unfold values_of. apply in_flat_map. exists fp. split; [exact Hin|]. rewrite Ev. left. reflexivity.
  - destruct M as (_ & Ua & Ca & _ & Sa & _). split; [exact A|]. exists a. split; [exact Pa|]. cbn [fst snd]. split; [|split; [exact Ua|]].
    + destruct (ok_has_value w OK) as (v & vs & Ew). unfold rest_commodity. rewrite Ew in *. cbn [map hd]. inversion Ca; subst. assumption.
    + apply Sa. destruct E as [E|E]; [|exact E]. rewrite Forall_forall in E. elim (E fp Hin Ev).
Qed.
Lemma full_entries_of ws : full_entries ws = flat_map (fun w => map (entry_of w) (fx_posts w)) ws.
Proof. reflexivity. Qed.
Lemma full_says scale ws xs : Forall xact_ok ws ->
  Forall (fun w => Forall (fun v => wa_decimals (wv_amount v) <= scale) (values_of (fx_posts w))
                      /\ (Forall (fun p => fp_value p <> None) (fx_posts w) \/ Forall (fun v => worth_decimals v <= scale) (values_of (fx_posts w)))) ws ->
  Forall2 fxact_is ws xs -> Forall2 (posting_says scale) (full_entries ws) (flat_map x_posts xs).
Proof.
  rewrite full_entries_of. intros W K F. induction F as [|w x ws xs I F IH]; [constructor|]. inversion W; inversion K as [|? ? [K1 K2] K3]; subst. cbn [flat_map].
  apply Forall2_app; [apply fxact_says; assumption|apply IH; assumption].
Qed.
Lemma full_names ws xs : Forall2 fxact_is ws xs -> Forall2 names (full_entries ws) (flat_map x_posts xs).
Proof.
  rewrite full_entries_of. induction 1 as [|w x ws xs (_ & _ & _ & _ & I) F IH]; [constructor|]. cbn [flat_map]. apply Forall2_app; [|exact IH].
  clear -I. induction I as [|fp p l l' (A & _) F IH]; [constructor|]. cbn [map]. constructor; [|exact IH]. unfold names, entry_of. destruct (fp_value fp); exact A.
Qed.

(** ** The commands *)
Lemma full_balance depth cwd fs args verb cmds files wss :
  args_mean args (verb :: cmds) files -> balance_verb verb -> Forall2 (ffile_says depth cwd fs) files wss ->
  Forall xact_ok (concat wss) -> lots_ok (j_pool journal_new) (concat wss) -> full_sums_fit (concat wss) ->
  exists out ps, run depth cwd fs args = Ok out /\ accounts_of_entries (full_entries (concat wss)) ps
    /\ Forall2 (fun p line => exists b, totals_said (below p (full_entries (concat wss))) b
                /\ line = lit "Account " ++ shown_name p ++ lit " has balance " ++ shown_amounts b) ps out.
Proof.
  intros A V F W LO (scale & L & K & B). destruct (full_files_read depth cwd fs _ _ F W LO) as (srcs & j & Fa & Rd & R & X & Ex).
  exact (balance_of_entries depth cwd fs _ _ _ _ _ _ _ scale A V Fa Rd R Ex L (full_says scale _ _ W K X) B).
Qed.
Lemma full_accounts depth cwd fs args verb cmds files wss :
  args_mean args (verb :: cmds) files -> accounts_verb verb -> Forall2 (ffile_says depth cwd fs) files wss ->
  Forall xact_ok (concat wss) -> lots_ok (j_pool journal_new) (concat wss) ->
  exists out ps, run depth cwd fs args = Ok out /\ accounts_of_entries (full_entries (concat wss)) ps
    /\ Permutation out (map (fun p => last p []) ps) /\ StronglySorted (fun a b => str_lt a b \/ a = b) out.
Proof.
  intros A V F W LO. destruct (full_files_read depth cwd fs _ _ F W LO) as (srcs & j & Fa & Rd & R & X & Ex).
  exact (accounts_of_names depth cwd fs _ _ _ _ _ _ _ A V Fa Rd R Ex (full_names _ _ X)).
Qed.
