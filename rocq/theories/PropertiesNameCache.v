(** C94: full names are computed once and kept. *)
From Coq Require Import String List NArith ZArith Bool Lia.
From Verif Require Import Base Account Memory NameCache.
From Verif Require Import SpecText SpecAccount SpecMemory SpecEnd SpecExact SpecNameCache.
From Verif Require Import NameCacheProofs DemoMemory.
Import ListNotations.
Open Scope list_scope.
Open Scope nat_scope.

(** Whenever the full name of an account is given, between any registrations of accounts and other questions, it is
    the names on the way to it. *)
Theorem C94_right :
  forall pol rs t l p s, grows pol -> answers pol nacct_new rs = Ok (t, l) -> In (p, s) l -> s = shown_name p.
Proof. intros pol rs t l p s G. exact (answers_right pol G rs t l p s). Qed.
Print Assumptions C94_right.
(** The next question, for an account there is: it is answered with the names on the way, if the accounts on the way
    have not been moved since something was registered below them, or if it has been answered before; it follows a pointer
    that is not valid otherwise. *)
Theorem C94_defined :
  forall pol rs t l p, grows pol -> answers pol nacct_new rs = Ok (t, l) -> present (registered rs) p ->
  (line_stays pol (registered rs) p \/ In (AskName p) rs /\ shown_name p <> [] -> exists t', n_fullname t p = Ok (t', shown_name p))
  /\ (~ (line_stays pol (registered rs) p \/ In (AskName p) rs /\ shown_name p <> []) -> n_fullname t p = Panic PNull).
Proof. intros pol rs t l p G. exact (ask_defined pol G rs t l p). Qed.
Print Assumptions C94_defined.
(** A name that has been given is given again, whatever has been registered since, and nothing changes. *)
Theorem C94_again :
  forall pol rs t l p, grows pol -> answers pol nacct_new rs = Ok (t, l) -> In (AskName p) rs -> shown_name p <> [] -> n_fullname t p = Ok (t, shown_name p).
Proof. intros pol rs t l p G. exact (ask_again pol G rs t l p). Qed.
Print Assumptions C94_again.
(** Accounts can always be registered. *)
Theorem C94_register :
  forall pol rs t l name, grows pol -> answers pol nacct_new rs = Ok (t, l) -> name <> [] -> exists t', n_register pol t name = Ok t'.
Proof. intros pol rs t l name G. exact (register_more pol G rs t l name). Qed.
Print Assumptions C94_register.
(** With few accounts side by side, every full name is given. *)
Theorem C94_few :
  forall pol ps p, grows pol -> (forall q k, accounts_below q ps k -> k <= map_next pol 0) -> line_stays pol ps p.
Proof. intros pol ps p G. exact (few_lines pol G ps p). Qed.
Print Assumptions C94_few.

Definition cash : path := [lit "A"; lit "x"].
Definition others : list request := [Register (lit "B"); Register (lit "C"); Register (lit "D")].
(** [A:x], and three accounts beside [A]: the name of [A:x] is given if it is asked for before they are registered, and then
    also after; the first question must not come after them. *)
Example C94_early_case :
  exists t, answers std_policy nacct_new (Register (lit "A:x") :: AskName cash :: others ++ [AskName cash]) = Ok (t, [(cash, lit "A:x"); (cash, lit "A:x")])
  /\ registered (Register (lit "A:x") :: AskName cash :: others) = [cash; [lit "B"]; [lit "C"]; [lit "D"]]
  /\ shown_name cash = lit "A:x".
Proof. eexists. split; [vm_compute; reflexivity|]. split; vm_compute; reflexivity. Qed.
Theorem C94_late_refuted :
  exists rs t l p, answers std_policy nacct_new rs = Ok (t, l) /\ present (registered rs) p /\ n_fullname t p = Panic PNull /\ ~ line_stays std_policy (registered rs) p.
Proof.
  assert (E : exists t, answers std_policy nacct_new (Register (lit "A:x") :: others) = Ok (t, []) /\ n_fullname t cash = Panic PNull) by (eexists; split; vm_compute; reflexivity).
  destruct E as (t & E & N). exists (Register (lit "A:x") :: others), t, [], cash. split; [exact E|].
  assert (P : present (registered (Register (lit "A:x") :: others)) cash) by (exists []; left; vm_compute; reflexivity).
  split; [exact P|]. split; [exact N|]. intros S. destruct (C94_defined std_policy _ _ _ cash std_grows E P) as [D _]. destruct (D (or_introl S)) as (t' & X). congruence.
Qed.
Print Assumptions C94_late_refuted.
(** An account without a name below another without a name: its full name is empty, is not kept, and is computed each time;
    the answer can be there the first time and not the second. *)
Example C94_empty_case :
  exists t, answers std_policy nacct_new (Register (lit "::") :: AskName [[]; []] :: others) = Ok (t, [([[]; []], [])])
  /\ shown_name [[]; []] = [] /\ n_fullname t [[]; []] = Panic PNull.
Proof. eexists. split; [vm_compute; reflexivity|]. split; vm_compute; reflexivity. Qed.
(** With few accounts side by side. *)
Example C94_few_case :
  exists t, answers std_policy nacct_new [Register (lit "A:x"); Register (lit "B:y:z"); AskName [lit "B"; lit "y"]; AskName []; AskName cash] =
    Ok (t, [([lit "B"; lit "y"], lit "B:y"); ([], []); (cash, lit "A:x")]).
Proof. eexists. vm_compute. reflexivity. Qed.
