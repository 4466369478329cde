(** Proofs of the properties of reading. *)
From Coq Require Import String List NArith ZArith Bool Lia Relations ZifyBool ZifyNat ZifyN.
From Verif Require Import Base BaseFacts Decimal Dates Amount Balance Scanner History Pool Account Journal Xact Parser Lib.
From Verif Require Import SpecText SpecReading ReadingFacts TerminationFacts XactFacts.
Import ListNotations.
Open Scope nat_scope.

(** ** Texts *)
Lemma comment_text depth cwd fs t1 c t2 j :
  complete_lines t1 -> complete_lines c -> inside (text_source t1) = false -> Forall inert (text_source c) ->
  parse_text depth cwd fs (t1 ++ c ++ t2) j = parse_text depth cwd fs (t1 ++ t2) j.
Proof.
  intros C1 C2 I F. unfold parse_text. rewrite !text_source_app by assumption. apply inert_lines; assumption.
Qed.
Lemma compose_text depth cwd fs t1 t2 j :
  complete_lines t1 -> inside (text_source t1) = false ->
  parse_text depth cwd fs (t1 ++ t2) j
  = let* j' := parse_text depth cwd fs t1 j in parse_text depth cwd fs t2 j'.
Proof.
  intros C I. unfold parse_text. rewrite text_source_app by exact C. apply read_app; [apply text_decodable|exact I].
Qed.
(** Ending each text with an empty line is enough. *)
Lemma compose_text_blank depth cwd fs t1 t2 j :
  complete_lines t1 ->
  parse_text depth cwd fs (t1 ++ 10%N :: t2) j
  = let* j' := parse_text depth cwd fs t1 j in parse_text depth cwd fs t2 j'.
Proof.
  intros C. unfold parse_text. rewrite text_source_app by exact C.
  change (text_source (10%N :: t2)) with (Some [10%N] :: text_source t2).
  apply read_app_blank; [apply text_decodable|left; reflexivity].
Qed.

(** ** Termination *)
Lemma below_trans {A} (a b c : outcome A) : below a b -> below b c -> below a c.
Proof. intros H K N. rewrite <- (H N). apply K. rewrite (H N). exact N. Qed.
Lemma read_below_le cwd fs src j d d' : d <= d' -> below (read_into_journal d cwd fs src j) (read_into_journal d' cwd fs src j).
Proof. induction 1 as [|d' _ IH]; [apply below_refl|]. eapply below_trans; [exact IH|apply read_below]. Qed.
Lemma terminates cwd fs files : acyclic cwd fs -> only_files fs files ->
  forall src j, exists o, o <> Diverge /\ forall depth, length files < depth -> read_into_journal depth cwd fs src j = o.
Proof.
  intros A O src j. exists (read_into_journal (S (length files)) cwd fs src j).
  assert (N : read_into_journal (S (length files)) cwd fs src j <> Diverge) by (apply (nd_read cwd fs files A O); lia).
  split; [exact N|]. intros depth L. apply read_below_le; [lia|exact N].
Qed.
Lemma self_include_diverges cwd fs arg p l s1 s2 :
  Forall inert s1 -> include_line l arg -> hd_error l = Some 105%N -> names_file cwd arg p -> file_path p -> fs p = Some (s1 ++ Some l :: s2) ->
  forall depth j, read_into_journal depth cwd fs [Some l] j = Diverge.
Proof.
  intros F Hl Hd Nf Fp Fs depth j. apply (included_file _ fs) in Nf; [|exact Fp]. rewrite Fs in Nf. unfold read_into_journal. cbn [parse_lines]. rewrite (include_step _ _ _ _ Hl Hd).
  assert (E : include_file depth cwd fs arg j = Diverge); [|rewrite E; reflexivity].
  revert j. induction depth as [|d IH]; intros j; cbn [include_file]; [reflexivity|]. rewrite Nf. cbn [bind]. rewrite parse_app, inert_prefix by exact F.
  cbn [bind parse_lines]. rewrite (include_step _ _ _ _ Hl Hd), IH. reflexivity.
Qed.

(** ** Notes *)
Lemma trimmed_trim w1 s w2 : spaces w1 -> spaces w2 -> trimmed s -> trim (w1 ++ s ++ w2) = s.
Proof.
  intros S1 S2 (c & r & d & q & E1 & E2 & Hc & Hd). apply trim_pad; [exact S1|exact S2| |].
  - rewrite E1. exact Hc.
  - unfold ends_ws. rewrite E2, rev_app_distr. exact Hd.
Qed.
Lemma note_line_trim l note : note_line l note -> exists r, trim_start l = 59%N :: r /\ trim r = note /\ note <> [].
Proof.
  intros (ws0 & ws1 & ws2 & -> & S0 & S1 & S2 & T).
  exists (ws1 ++ note ++ ws2). split; [|split; [apply trimmed_trim; assumption|]].
  - change (32%N :: ws0 ++ 59%N :: ws1 ++ note ++ ws2) with ((32%N :: ws0) ++ 59%N :: ws1 ++ note ++ ws2).
    rewrite trim_start_app by (cbn; exact S0). reflexivity.
  - destruct T as (c & r & d & q & -> & _). discriminate.
Qed.
Lemma split_at {A} (l : list A) n x : nth_error l n = Some x -> exists a b, l = a ++ x :: b /\ length a = n.
Proof. apply nth_error_split. Qed.
Lemma snoc_case {A} (l : list A) : l = [] \/ exists q d, l = q ++ [d].
Proof. destruct l as [|x l] using rev_ind; [left; reflexivity|right; eauto]. Qed.

Definition add_note (note : str) (x : xact) : xact :=
  match x_posts x with
  | [] => xact_add_note x note
  | _ => set_posts x (update_nth (length (x_posts x) - 1) (fun p => post_add_note p note) (x_posts x))
  end.
Lemma add_note_noted note x : noted note x (add_note note x).
Proof.
  unfold add_note, noted. destruct (snoc_case (x_posts x)) as [E|(q & d & E)]; rewrite E.
  - cbn. rewrite E. auto 10.
  - destruct (q ++ [d]) eqn:Eq; [destruct q; discriminate|]. rewrite <- Eq. cbn. repeat (split; [reflexivity|]). right. split; [reflexivity|].
    exists q, d. split; [reflexivity|]. rewrite app_length. cbn [length]. replace (length q + 1 - 1) with (length q) by lia.
    apply (update_nth_last (fun p => post_add_note p note)).
Qed.
Lemma note_line_step j xi l note : note_line l note ->
  xact_line j xi l = Ok (Continue (InXact xi) (set_xacts j (update_nth xi (add_note note) (j_xacts j)))).
Proof.
  intros H. destruct (note_line_trim l note H) as (r & E & T & N). destruct H as (ws0 & ws1 & ws2 & -> & _).
  rewrite xact_line_eq. rewrite E. change ((32 =? 32)%N) with true. change ((59 =? 59)%N) with true. cbv iota.
  unfold parse_trailing_note. change (skipn 1 (59%N :: r)) with r. rewrite T. destruct note; [congruence|]. reflexivity.
Qed.
Lemma note_step inc j xi x l note :
  nth_error (j_xacts j) xi = Some x -> note_line l note ->
  exists j', step inc (InXact xi) j (Some l) = Ok (Continue (InXact xi) j') /\ noted_at xi note j j'.
Proof.
  intros Hx Hn. eexists. split; [apply note_line_step, Hn|]. split; [reflexivity|]. split; [reflexivity|].
  destruct (split_at _ _ _ Hx) as (a & b & E & L). exists a, x, (add_note note x), b. split; [exact L|]. split; [exact E|].
  split; [|apply add_note_noted]. cbn [j_xacts set_xacts]. rewrite E, <- L. apply update_nth_mid.
Qed.

(** Finalising does not look at the notes. *)
Definition npost (n : str) (p : post) : post := post_add_note p n.
Lemma sum_upd k n ps : forall i b o, sum_posts (update_nth k (npost n) ps) i b o = sum_posts ps i b o.
Proof.
  revert k; induction ps as [|p ps IH]; intros [|k] i b o; cbn [update_nth sum_posts]; try reflexivity.
  change (post_value (npost n p)) with (post_value p). destruct (post_value p); [destruct (bal_add b a); cbn [bind]; auto|destruct o; auto].
Qed.
Lemma top_upd k n ps : top_amount (update_nth k (npost n) ps) = top_amount ps.
Proof.
  revert k; induction ps as [|p ps IH]; intros [|k]; cbn [update_nth top_amount]; try reflexivity.
  rewrite IH. reflexivity.
Qed.
Lemma cost_upd c u k n ps : forall b, cost_loop c u (update_nth k (npost n) ps) b
  = let* (ps', b') := cost_loop c u ps b in Ok (update_nth k (npost n) ps', b').
Proof.
  revert k; induction ps as [|p ps IH]; intros [|k] b; cbn [update_nth cost_loop]; try reflexivity.
  - change (po_amount (npost n p)) with (po_amount p). destruct (po_amount p) as [a|]; cbn [unwrap bind]; [|reflexivity].
    destruct (comm_eqb (a_c a) c).
    + destruct (bal_sub b a); cbn [bind]; try reflexivity. destruct (amt_mul u a); cbn [bind]; try reflexivity.
      destruct (bal_add a0 a1); cbn [bind]; try reflexivity. destruct (cost_loop c u ps a2) as [[]| |]; reflexivity.
    + cbn [bind]. destruct (cost_loop c u ps b) as [[]| |]; reflexivity.
  - destruct (po_amount p) as [a|]; cbn [unwrap bind]; [|reflexivity].
    destruct (comm_eqb (a_c a) c).
    + destruct (bal_sub b a); cbn [bind]; try reflexivity. destruct (amt_mul u a); cbn [bind]; try reflexivity.
      destruct (bal_add a0 a1); cbn [bind]; try reflexivity. rewrite IH. destruct (cost_loop c u ps a2) as [[]| |]; reflexivity.
    + cbn [bind]. rewrite IH. destruct (cost_loop c u ps b) as [[]| |]; reflexivity.
Qed.
Lemma infer_upd k n ps b : infer_costs (update_nth k (npost n) ps) b
  = let* (ps', b') := infer_costs ps b in Ok (update_nth k (npost n) ps', b').
Proof.
  unfold infer_costs. destruct b as [|x [|y [|z b]]]; try reflexivity. rewrite top_upd. destruct (top_amount ps); [|reflexivity].
  destruct (_ && _); [|reflexivity]. destruct (negb (comm_eqb (a_c x) (a_c a))); (destruct (amt_div _ _); cbn [bind]; [apply cost_upd|reflexivity|reflexivity]).
Qed.
Lemma price_upd d k n ps : forall p, price_loop d p (update_nth k (npost n) ps)
  = let* (p', ps') := price_loop d p ps in Ok (p', update_nth k (npost n) ps').
Proof.
  assert (G : forall p ps q, 
     (let* (p', q') := (match po_cost (npost n q) with
        | None => Ok (p, npost n q)
        | Some cost => match po_amount (npost n q) with
            | None => Panic PExplicit
            | Some amt => if comm_eqb (a_c amt) (a_c cost) then Panic PExplicit
                else let* d0 := unwrap d in let* (bd, np) := exchange p amt cost false (mkDT d0 midnight) in
                  let* pool' := match np with Some pr => pool_add_price_struct p pr | None => Ok p end in
                  Ok (pool', set_amount (npost n q) (bd_amount bd)) end end) in
      let* (pool'', posts'') := price_loop d p' ps in Ok (pool'', q' :: posts'')) =
     let* (p', ps') := (let* (p', q') := (match po_cost q with
        | None => Ok (p, q)
        | Some cost => match po_amount q with
            | None => Panic PExplicit
            | Some amt => if comm_eqb (a_c amt) (a_c cost) then Panic PExplicit
                else let* d0 := unwrap d in let* (bd, np) := exchange p amt cost false (mkDT d0 midnight) in
                  let* pool' := match np with Some pr => pool_add_price_struct p pr | None => Ok p end in
                  Ok (pool', set_amount q (bd_amount bd)) end end) in
      let* (pool'', posts'') := price_loop d p' ps in Ok (pool'', q' :: posts'')) in Ok (p', update_nth 0 (npost n) ps')).
  { intros p qs q. change (po_cost (npost n q)) with (po_cost q). change (po_amount (npost n q)) with (po_amount q).
    destruct (po_cost q) as [cost|].
    - destruct (po_amount q) as [amt|]; [|reflexivity]. destruct (comm_eqb _ _); [reflexivity|]. destruct (unwrap d) as [d0| |]; cbn [bind]; try reflexivity.
      destruct (exchange p amt cost false (mkDT d0 midnight)) as [[bd np]| |]; cbn [bind]; try reflexivity.
      destruct (match np with Some pr => pool_add_price_struct p pr | None => Ok p end) as [p1| |]; cbn [bind]; try reflexivity.
      destruct (price_loop d p1 qs) as [[]| |]; reflexivity.
    - cbn [bind]. destruct (price_loop d p qs) as [[]| |]; reflexivity. }
  revert k; induction ps as [|q ps IH]; intros k p; [destruct k; reflexivity|]. destruct k as [|k].
  - cbn [update_nth price_loop]. apply G.
  - cbn [update_nth price_loop].
    match goal with |- bind ?m _ = _ => destruct m as [[p1 q1]| |]; cbn [bind]; try reflexivity end.
    rewrite IH. destruct (price_loop d p1 ps) as [[]| |]; reflexivity.
Qed.
Lemma update_comm {A} (f g : A -> A) : (forall x, f (g x) = g (f x)) -> forall l i k,
  update_nth i f (update_nth k g l) = update_nth k g (update_nth i f l).
Proof.
  intros H. induction l as [|x l IH]; intros [|i] [|k]; cbn [update_nth]; try reflexivity; [rewrite H; reflexivity|].
  f_equal. apply IH.
Qed.
Lemma finalize_posts_upd d p k n ps : finalize_posts d p (update_nth k (npost n) ps)
  = let* (p', ps') := finalize_posts d p ps in Ok (p', update_nth k (npost n) ps').
Proof.
  unfold finalize_posts. rewrite sum_upd. destruct (sum_posts ps 0 bal_new None) as [[bal np]| |]; cbn [bind]; try reflexivity.
  rewrite update_nth_length. destruct (length ps =? 1)%nat; [reflexivity|]. destruct np as [i|].
  - cbn [bind]. rewrite price_upd. destruct (price_loop d p ps) as [[p1 ps1]| |]; cbn [bind]; try reflexivity.
    destruct bal as [|b [|]]; try reflexivity. cbn [bind]. f_equal. f_equal. apply update_comm. reflexivity.
  - rewrite infer_upd. destruct (infer_costs ps bal) as [[ps1 b1]| |]; cbn [bind]; try reflexivity. rewrite price_upd.
    destruct (price_loop d p ps1) as [[p1 ps2]| |]; reflexivity.
Qed.
Lemma finalize_posts_nil d p p' ps' : finalize_posts d p [] = Ok (p', ps') -> ps' = [].
Proof. intros H. apply finalize_frame in H. inversion H. reflexivity. Qed.
Lemma add_note_finalize d p x n p' ps' : finalize_posts d p (x_posts x) = Ok (p', ps') ->
  exists qs, finalize_posts d p (x_posts (add_note n x)) = Ok (p', qs)
    /\ set_posts (add_note n x) qs = add_note n (set_posts x ps').
Proof.
  intros H. unfold add_note. destruct (x_posts x) as [|q qs] eqn:E.
  - apply finalize_posts_nil in H as E'. subst ps'. exists []. split; [cbn; rewrite E; exact H|reflexivity].
  - change (x_posts (set_posts x ?l)) with l. cbn [x_posts set_posts].
    pose proof (finalize_posts_upd d p (length (q :: qs) - 1) n (q :: qs)) as U. rewrite H in U. cbn [bind] in U.
    eexists. split; [exact U|]. apply finalize_frame in H. inversion H as [|? q' ? qs' _ F]; subst.
    assert (L : length (q' :: qs') = length (q :: qs)) by (cbn; f_equal; clear -F; induction F; cbn; congruence).
    cbv beta iota. rewrite L. reflexivity.
Qed.
Lemma step_last inc m j l xi j' : (forall k, m = InXact k -> S k = length (j_xacts j)) ->
  step inc m j l = Ok (Continue (InXact xi) j') -> S xi = length (j_xacts j').
Proof.
  intros Hm H. destruct m as [|k], l as [l|]; cbn [step] in H; try discriminate.
  - unfold top_line in H. destruct (_ || _); [discriminate|]. destruct l as [|c r]; [discriminate|]. destruct (_ || _); [discriminate|].
    destruct (c =? 45)%N; [discriminate|]. destruct (is_digit c); [|destruct (_ || _); [discriminate|]; inv_bind H; discriminate].
    inv_bind H. injection H as <- <-. unfold create_xact in EQ. inv_bind EQ. destruct v0 as [[[? ?] ?] ?]. inv_bind EQ. injection EQ as <-.
    cbn. rewrite app_length. cbn. lia.
  - specialize (Hm k eq_refl). destruct l as [|c r]; [discriminate|]. rewrite xact_line_eq in H. unfold fin in H.
    destruct (c =? 32)%N; [|destruct (_ || _); [inv_bind H|]; discriminate].
    destruct (trim_start (c :: r)) as [|d s]; [inv_bind H; discriminate|]. destruct (d =? 59)%N; inv_bind H; injection H as <- <-.
    + unfold parse_trailing_note in EQ. destruct (is_empty _); injection EQ as <-; [exact Hm|]. cbn. rewrite update_nth_length. exact Hm.
    + unfold parse_post in EQ. inv_bind EQ. inv_bind EQ. destruct v1. destruct (parse_amount_parts _ _ _). inv_bind EQ. destruct v1.
      destruct (pool_find_or_create _ _ _). inv_bind EQ. destruct v1. destruct (nth_error _ _); [|discriminate]. inv_bind EQ. injection EQ as <-.
      cbn. unfold add_post. rewrite update_nth_length. exact Hm.
  - inv_bind H. discriminate.
Qed.
Lemma prefix_last inc s : forall m j xi j', (forall k, m = InXact k -> S k = length (j_xacts j)) ->
  prefix inc m j s = Ok (Continue (InXact xi) j') -> S xi = length (j_xacts j').
Proof.
  induction s as [|l s IH]; intros m j xi j' Hm H; cbn [prefix] in H; [injection H as -> <-; auto|].
  destruct (step inc m j l) as [[m1 j1|j1]| |] eqn:E; cbn [bind] in H; try discriminate.
  eapply IH; [|exact H]. intros k ->. eapply step_last; eassumption.
Qed.
Lemma note_at_end depth cwd fs s1 j j1 l note :
  decodable s1 -> inside s1 = true -> note_line l note ->
  read_into_journal depth cwd fs s1 j = Ok j1 ->
  exists j', read_into_journal depth cwd fs (s1 ++ [Some l]) j = Ok j'
    /\ noted_at (length (j_xacts j1) - 1) note j1 j'.
Proof.
  intros D I Hn H. unfold read_into_journal in *. set (inc := include_file depth cwd fs) in *. rewrite parse_app.
  rewrite <- (app_nil_r s1) in H. rewrite parse_app in H.
  destruct (prefix inc Top j s1) as [[m j0|j0]| |] eqn:P; cbn [bind] in H; try discriminate; [|destruct (prefix_no_stop _ _ D _ _ _ P)].
  pose proof (prefix_mode _ _ _ _ _ _ P) as M. cbn in M. fold (inside s1) in M. rewrite I in M. destruct m as [|xi]; [discriminate|].
  assert (L : S xi = length (j_xacts j0)) by (eapply prefix_last; [|exact P]; discriminate).
  cbn [bind parse_lines step]. rewrite (note_line_step _ _ _ _ Hn). cbn [bind]. cbn [parse_lines] in H.
  unfold finalize in H |- *. cbn [j_xacts set_xacts j_pool j_master].
  destruct (nth_error (j_xacts j0) xi) as [x|] eqn:Ex; [|discriminate]. destruct (split_at _ _ _ Ex) as (a & b & E & La).
  assert (b = []) as -> by (rewrite E, app_length in L; cbn in L; destruct b; [reflexivity|cbn in L; lia]).
  rewrite nth_error_update_nth, Nat.eqb_refl, Ex. cbn [option_map].
  inv_bind H. destruct v as [p' ps']. injection H as <-.
  destruct (add_note_finalize _ _ _ note _ _ EQ) as (qs & F & U).
  assert (x_date (add_note note x) = x_date x) as -> by (unfold add_note; destruct (x_posts x); reflexivity).
  rewrite F. cbn [bind]. eexists. split; [reflexivity|]. cbn [j_xacts]. rewrite update_nth_length, <- L. replace (S xi - 1) with xi by lia.
  split; [reflexivity|]. split; [reflexivity|].
  exists a, (set_posts x ps'), (add_note note (set_posts x ps')), []. split; [exact La|]. rewrite E, <- La. cbn [j_xacts].
  rewrite !(fun f => update_nth_mid f a). split; [reflexivity|]. split; [|apply add_note_noted]. rewrite U. reflexivity.
Qed.
