(** Specification vocabulary for account names and the account tree. *)
From Coq Require Import List NArith ZArith Bool.
From Verif Require Import Base Account.
Import ListNotations.

Definition colon : char := 58%N.

(** The parts of a text between separators; a text without separator has one part. *)
Fixpoint split_on (sep : char) (s : str) : list str :=
  match s with
  | [] => [[]]
  | c :: s' => if (c =? sep)%N then [] :: split_on sep s'
               else match split_on sep s' with
                    | w :: ws => (c :: w) :: ws
                    | [] => [[c]]
                    end
  end.

(** The accounts on the way to the named account: the parts between colons, where one colon at the
    very end does not count. *)
Definition components (name : str) : path :=
  match rev (split_on colon name) with
  | [] :: w :: up => rev (w :: up)
  | _ => split_on colon name
  end.

(** Parts joined by colons. *)
Fixpoint join (p : path) : str :=
  match p with
  | [] => []
  | [n] => n
  | n :: p' => n ++ colon :: join p'
  end.

(** [q] is an initial part of [p]. *)
Fixpoint prefix_of (q p : path) : bool :=
  match q, p with
  | [], _ => true
  | x :: q', y :: p' => str_eqb x y && prefix_of q' p'
  | _ :: _, [] => false
  end.

(** What can be observed of an account: whether it exists and which postings it lists. *)
Definition exists_at (m : account) (p : path) : Prop := exists a, get_account m p = Some a.
Definition posts_at (m : account) (p : path) : option (list postref) :=
  option_map ac_posts (get_account m p).

(** A tree as built by registrations: siblings have different names and no name has a colon. *)
Inductive wf_tree : account -> Prop :=
| wf_node n cs ps :
    NoDup (map ac_name cs) ->
    (forall c, In c cs -> ~ In colon (ac_name c)) ->
    (forall c, In c cs -> wf_tree c) ->
    wf_tree (Acct n cs ps).

(** Everything registered so far: any sequence of registrations into an empty tree. *)
Fixpoint register_all (m : account) (names : list str) : outcome account :=
  match names with
  | [] => Ok m
  | n :: names' => let* (m', _) := register_account m n in register_all m' names'
  end.
