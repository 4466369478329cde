(** Model of post.rs, xact.rs:13-83 and journal.rs; account amounts and totals
    (account.rs:157-171, 196-216). *)
From Coq Require Import List NArith ZArith Bool Lia.
From Verif Require Import Base Decimal Dates Amount Balance Pool Account.
Import ListNotations.

(** post.rs:12-27; [xact_ptr] is the position of the posting in the journal. *)
Record post := mkPost {
  po_account : path; po_amount : option amount; po_cost : option amount; po_note : option str }.

(** xact.rs:13-21 *)
Record xact := mkXact {
  x_date : option date; x_aux_date : option date; x_payee : str; x_note : option str;
  x_posts : list post }.

(** journal.rs:20-25 *)
Record journal := mkJournal { j_master : account; j_pool : pool; j_xacts : list xact }.

(** journal.rs:28-36 [new] *)
Definition journal_new : journal := mkJournal (Acct [] [] []) pool_new [].

(** journal.rs:44-46 [all_posts] *)
Definition all_posts (j : journal) : list post := flat_map x_posts (j_xacts j).

(** Dereferencing a posting pointer. *)
Definition get_post (xs : list xact) (r : postref) : option post :=
  match nth_error xs (fst r) with
  | Some x => nth_error (x_posts x) (snd r)
  | None => None
  end.

(** account.rs:157-171 [amount]: postings without amount are skipped. *)
Definition account_amount (xs : list xact) (refs : list postref) : outcome balance :=
  fold_outcome
    (fun bal r =>
       match get_post xs r with
       | None => Panic PNull
       | Some p => match po_amount p with
                   | Some a => bal_add bal a
                   | None => Ok bal
                   end
       end) refs bal_new.

(** account.rs:196-216 [total]: the totals of the children in the order of their names, then the
    own amount. *)
Fixpoint account_total (xs : list xact) (a : account) : outcome balance :=
  let subs := sort_key (map (fun c => (ac_name c, account_total xs c)) (ac_children a)) in
  let* t := fold_outcome (fun t (s : str * outcome balance) => let* b := snd s in bal_add_bal t b)
                         subs bal_new in
  let* own := account_amount xs (ac_posts a) in
  bal_add_bal t own.
