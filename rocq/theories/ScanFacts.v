(** Facts about the scanner. *)
From Coq Require Import String List NArith ZArith Bool Lia ZifyBool ZifyNat ZifyN.
From Verif Require Import Base Scanner SpecText SpecReading SpecScan BaseFacts.
Import ListNotations.
Open Scope nat_scope.

Lemma is_qchar_eq c : is_digit c || one_of "-.," c = is_qchar c.
Proof. unfold is_qchar, one_of. cbn. destruct (is_digit c), (c =? 45)%N, (c =? 46)%N, (c =? 44)%N; reflexivity. Qed.
Lemma is_sym_end_eq c : is_ws c || is_digit c || one_of "@-" c = is_sym_end c.
Proof. unfold is_sym_end, one_of. cbn. destruct (is_ws c), (is_digit c), (c =? 64)%N, (c =? 45)%N; reflexivity. Qed.
Lemma forallb_ext {A} (p q : A -> bool) l : (forall x, p x = q x) -> forallb p l = forallb q l.
Proof. intros H. induction l as [|x l IH]; cbn; [reflexivity|]. rewrite H, IH. reflexivity. Qed.
Lemma quantity_chars q : quantity_text q -> q <> [] /\ forallb is_qchar q = true.
Proof. intros [N F]. split; [exact N|]. rewrite <- F. symmetry. apply forallb_ext. apply is_qchar_eq. Qed.
Lemma symbol_chars s : symbol_text s -> s <> [] /\ forallb (fun c => negb (is_sym_end c)) s = true.
Proof. intros [N F]. split; [exact N|]. rewrite <- F. symmetry. apply forallb_ext. intros c. rewrite is_sym_end_eq. reflexivity. Qed.

(** The first character of a text, if any, satisfies [p]. *)
Definition heads (p : N -> bool) (s : str) : Prop := match s with [] => True | c :: _ => p c = true end.
Lemma heads_ws s : heads is_ws s -> s = [] \/ exists c r, s = c :: r /\ is_ws c = true.
Proof. destruct s; cbn; eauto. Qed.

Lemma span_find p s rest : forallb (fun c => negb (p c)) s = true -> heads p rest ->
  match find_char p (s ++ rest) with
  | Some i => (firstn i (s ++ rest), skipn i (s ++ rest))
  | None => (s ++ rest, [])
  end = (s, rest).
Proof.
  intros F H. destruct rest as [|c r].
  - rewrite app_nil_r. apply find_char_none in F. rewrite F. reflexivity.
  - rewrite (find_char_here p s c r F H). rewrite firstn_app_exact, skipn_app_exact. reflexivity.
Qed.

Lemma scan_quantity_app q rest : forallb is_qchar q = true -> heads (fun c => negb (is_qchar c)) rest ->
  scan_quantity (q ++ rest) = (q, trim_start rest).
Proof.
  intros F H. unfold scan_quantity.
  assert (S : forallb (fun c => negb (negb (is_qchar c))) q = true) by (rewrite <- F; apply forallb_ext; intros; apply negb_involutive).
  apply (span_find (fun c => negb (is_qchar c)) q rest) in S; [|exact H].
  destruct (find_char _ (q ++ rest)) as [i|].
  - injection S as -> ->. reflexivity.
  - injection S as E1 E2. rewrite E1, <- E2. reflexivity.
Qed.
Lemma scan_symbol_app s rest : s <> [] -> forallb (fun c => negb (is_sym_end c)) s = true -> heads is_sym_end rest ->
  forall ws, spaces ws -> scan_symbol (ws ++ s ++ rest) = (s, trim_start rest).
Proof.
  intros N F H ws W. unfold scan_symbol. rewrite trim_start_app by exact W.
  assert (starts_ws s = false) as Hs.
  { destruct s as [|c s]; [congruence|]. cbn in *. apply andb_prop in F as [F _]. unfold is_sym_end in F. destruct (is_ws c); [discriminate|reflexivity]. }
  rewrite trim_start_id by (rewrite starts_ws_app by exact N; exact Hs).
  assert (S := span_find is_sym_end s rest F H). destruct (find_char _ (s ++ rest)) as [i|].
  - injection S as -> ->. reflexivity.
  - injection S as E1 E2. rewrite E1, <- E2. reflexivity.
Qed.
Lemma scan_symbol_none rest : heads is_sym_end (trim_start rest) -> scan_symbol rest = ([], trim_start rest).
Proof.
  intros H. unfold scan_symbol. destruct (trim_start rest) as [|c r] eqn:E; [reflexivity|]. cbn [find_char]. cbn in H. rewrite H. cbn.
  f_equal. assert (K : starts_ws (trim_start rest) = false).
  { destruct (trim_start_spec rest) as (w & _ & _ & K). exact K. }
  rewrite E in K. cbn in K. rewrite K. reflexivity.
Qed.
Lemma trim_idem s : trim_start (trim_start s) = trim_start s.
Proof. apply trim_start_id. destruct (trim_start_spec s) as (w & _ & _ & K). exact K. Qed.

Lemma ws_not_q c : is_ws c = true -> is_qchar c = false.
Proof. unfold is_ws, is_qchar, is_digit. lia. Qed.
Lemma heads_ws_q rest : heads is_ws rest -> heads (fun c => negb (is_qchar c)) rest.
Proof. destruct rest; cbn; [trivial|]. intros H. rewrite (ws_not_q _ H). reflexivity. Qed.
Lemma heads_ws_sym rest : heads is_ws rest -> heads is_sym_end rest.
Proof. destruct rest; cbn; [trivial|]. unfold is_sym_end. intros ->. reflexivity. Qed.
Lemma q_not_ws c : is_qchar c = true -> is_ws c = false.
Proof. unfold is_ws, is_qchar, is_digit. lia. Qed.

(** What may follow a written amount. *)
Definition follows (s rest : str) : Prop := heads is_ws rest /\ (s = [] -> heads is_sym_end (trim_start rest)).
Lemma scan_amount_written t q s : written_amount t q s -> forall ws rest, spaces ws -> follows s rest ->
  scan_amount (ws ++ t ++ rest) = Ok (q, s, trim_start rest).
Proof.
  intros H ws rest W [R1 R2]. unfold scan_amount. rewrite trim_start_app by exact W.
  destruct H as [q Hq|q ws' s Hq Ws Hs Hn|q ws' s Hq Ws Hs Hn Hn'].
  - apply quantity_chars in Hq as [Nq Fq]. destruct q as [|c q]; [congruence|]. cbn in Fq. pose proof Fq as F'. apply andb_prop in F' as [Hc _].
    rewrite trim_start_id by (cbn; apply q_not_ws, Hc). cbn [app]. rewrite Hc.
    change (c :: q ++ rest) with ((c :: q) ++ rest). rewrite scan_quantity_app by (try apply heads_ws_q; assumption).
    rewrite scan_symbol_none; [rewrite trim_idem; reflexivity|]. rewrite trim_idem. apply R2. reflexivity.
  - apply quantity_chars in Hq as [Nq Fq]. apply symbol_chars in Hs as [Ns Fs]. destruct q as [|c q]; [congruence|]. cbn in Fq. pose proof Fq as F'. apply andb_prop in F' as [Hc _].
    rewrite trim_start_id by (cbn; apply q_not_ws, Hc). cbn [app]. rewrite Hc.
    change (c :: (q ++ ws' ++ s) ++ rest) with (((c :: q) ++ ws' ++ s) ++ rest). rewrite <- !app_assoc.
    rewrite scan_quantity_app; [|exact Fq|].
    + rewrite <- (app_nil_l (trim_start (ws' ++ s ++ rest))). rewrite trim_start_app by exact Ws.
      assert (starts_ws s = false) as Hs.
      { destruct s as [|d s]; [congruence|]. cbn in *. apply andb_prop in Fs as [Fs _]. unfold is_sym_end in Fs. destruct (is_ws d); [discriminate|reflexivity]. }
      rewrite trim_start_id by (rewrite starts_ws_app by exact Ns; exact Hs).
      rewrite scan_symbol_app; [reflexivity|exact Ns|exact Fs|apply heads_ws_sym, R1|reflexivity].
    + destruct ws' as [|w ws']; cbn.
      * destruct s as [|d s]; [congruence|]. cbn. cbn in Fs. apply andb_prop in Fs as [Fs _]. unfold is_sym_end in Fs.
        specialize (Hn eq_refl). assert (K : one_of ".," d = false).
        { destruct (one_of ".," d) eqn:E; [|reflexivity]. elim Hn. exists d, s. auto. }
        unfold one_of in K. cbn in K. unfold is_qchar. lia.
      * cbn in Ws. unfold spaces in Ws. cbn in Ws. apply andb_prop in Ws as [Ws _]. rewrite (ws_not_q _ Ws). reflexivity.
  - apply quantity_chars in Hq as [Nq Fq]. apply symbol_chars in Hs as [Ns Fs]. destruct s as [|c s]; [congruence|].
    pose proof Fs as F'. cbn in F'. apply andb_prop in F' as [Hc _]. unfold is_sym_end in Hc.
    assert (K : one_of ".," c = false).
    { destruct (one_of ".," c) eqn:E; [|reflexivity]. elim Hn. exists c, s. auto. }
    unfold one_of in K. cbn in K.
    rewrite trim_start_id by (cbn; lia). cbn [app]. assert (is_qchar c = false) as -> by (unfold is_qchar; lia).
    change (c :: (s ++ ws' ++ q) ++ rest) with (((c :: s) ++ ws' ++ q) ++ rest). rewrite <- !app_assoc.
    rewrite <- (app_nil_l ((c :: s) ++ ws' ++ q ++ rest)). rewrite scan_symbol_app; [|discriminate|exact Fs| |reflexivity].
    + rewrite trim_start_app by exact Ws. destruct q as [|d q]; [congruence|]. pose proof Fq as F'. cbn in F'. apply andb_prop in F' as [Hd _].
      rewrite trim_start_id by (cbn; apply q_not_ws, Hd). rewrite scan_quantity_app by (try apply heads_ws_q; assumption). reflexivity.
    + destruct ws' as [|w ws']; cbn [app].
      * destruct q as [|d q]; [congruence|]. cbn. cbn in Fq. apply andb_prop in Fq as [Hd _].
        specialize (Hn' eq_refl). assert (K' : one_of ".," d = false).
        { destruct (one_of ".," d) eqn:E; [|reflexivity]. elim Hn'. exists d, q. auto. }
        unfold one_of in K'. cbn in K'. unfold is_qchar in Hd. unfold is_sym_end. lia.
      * cbn. unfold spaces in Ws. cbn in Ws. apply andb_prop in Ws as [Ws _]. unfold is_sym_end. rewrite Ws. reflexivity.
Qed.
