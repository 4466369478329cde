(** C14-C16: registering and finding accounts. *)
From Coq Require Import String List NArith ZArith Bool Lia.
From Verif Require Import Base Account SpecAccount AccountFacts AccountProofs.
Import ListNotations.
Open Scope nat_scope.

(** Every tree that registrations can build satisfies [wf_tree]; registration never fails on
    non-empty names. *)
Theorem C14_reachable_trees :
  forall names, Forall (fun n => n <> []) names ->
    exists m, register_all (Acct [] [] []) names = Ok m /\ wf_tree m.
Proof. exact reachable_trees. Qed.
Print Assumptions C14_reachable_trees.

(** ** C14: registered accounts can be found under their name *)
Theorem C14_register_then_find :
  forall m name, wf_tree m -> name <> [] ->
    exists m' p, register_account m name = Ok (m', p)
      /\ wf_tree m'
      /\ find_account m' name = Ok (Some p)
      /\ p = components name
      /\ exists_at m' p
      /\ register_account m' name = Ok (m', p).
Proof. exact register_then_find. Qed.
Print Assumptions C14_register_then_find.

(** The full name is the registered name, and the accounts named by its prefixes exist and are
    called by the corresponding component. *)
Theorem C14_full_name :
  forall m name m' p, wf_tree m -> register_account m name = Ok (m', p) ->
    (forall k, k <= length p -> exists_at m' (firstn k p))
    /\ (forall k a c, get_account m' (firstn k p ++ [c]) = Some a -> ac_name a = c)
    /\ (Forall (fun w => w <> []) (split_on colon name) -> fullname p = name).
Proof. exact full_name. Qed.
Print Assumptions C14_full_name.

(** Different names (without empty components) denote different accounts. *)
Theorem C14_names_identify :
  forall n1 n2,
    Forall (fun w => w <> []) (split_on colon n1) -> Forall (fun w => w <> []) (split_on colon n2) ->
    components n1 = components n2 -> n1 = n2.
Proof. exact names_identify. Qed.
Print Assumptions C14_names_identify.

Example C14_case :
  exists m, register_account (Acct [] [] []) (lit "Assets:Investments:Broker")
            = Ok (m, [lit "Assets"; lit "Investments"; lit "Broker"])
            /\ find_account m (lit "Assets:Investments") = Ok (Some [lit "Assets"; lit "Investments"]).
Proof. eexists. split; vm_compute; reflexivity. Qed.

(** ** C15: registering an account disturbs nothing else *)
Theorem C15_register_frame :
  forall m name m' p, wf_tree m -> register_account m name = Ok (m', p) ->
    ac_name m' = ac_name m
    /\ (forall q, exists_at m q -> posts_at m' q = posts_at m q)
    /\ (forall q, ~ exists_at m q -> exists_at m' q <-> exists r, p = q ++ r)
    /\ (forall q, ~ exists_at m q -> exists_at m' q -> posts_at m' q = Some []).
Proof. exact register_frame. Qed.
Print Assumptions C15_register_frame.

Example C15_case :
  let m := Acct [] [Acct (lit "Assets") [Acct (lit "Cash") [] [(0, 0)]] []] [] in
  wf_tree m /\ exists m', register_account m (lit "Assets:Bank:Giro")
                          = Ok (m', [lit "Assets"; lit "Bank"; lit "Giro"])
                          /\ posts_at m' [lit "Assets"; lit "Cash"] = Some [(0, 0)].
Proof.
  cbv zeta. split; [|eexists; split; vm_compute; reflexivity].
  repeat first [constructor | intros ? [<-|[]] | intros ? [] | intros H; vm_compute in H; intuition discriminate
               | intros [] | intros _ ].
Qed.

(** ** C16: looking up a missing account *)

(** The lookup never panics when the name has one component or the first component is unknown or
    the account exists.  Missing from the full statement: names with a known first component below
    which some further component is missing (refuted below). *)
Theorem C16_lookup_partial :
  forall m name, wf_tree m ->
    (exists_at m (components name) -> find_account m name = Ok (Some (components name)))
    /\ (~ exists_at m (components name) ->
        ~ exists_at m (firstn 1 (components name)) -> find_account m name = Ok None)
    /\ (~ exists_at m (components name) ->
        exists_at m (firstn 1 (components name)) -> find_account m name = Panic PUnwrap).
Proof. exact lookup_partial. Qed.
Print Assumptions C16_lookup_partial.

(** A missing account below an existing one makes the lookup panic. *)
Theorem C16_lookup_refuted :
  exists m name, register_all (Acct [] [] []) [lit "Assets:Cash"] = Ok m
    /\ ~ exists_at m (components name) /\ find_account m name = Panic PUnwrap.
Proof. exact lookup_refuted. Qed.
Print Assumptions C16_lookup_refuted.

Example C16_case :
  exists m, register_all (Acct [] [] []) [lit "Assets:Cash"] = Ok m
            /\ find_account m (lit "Income") = Ok None
            /\ find_account m (lit "Assets:Cash") = Ok (Some [lit "Assets"; lit "Cash"]).
Proof. eexists. repeat split; vm_compute; reflexivity. Qed.
