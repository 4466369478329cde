(** Model of the account tree of account.rs.  An account is identified by the list of component
    names that leads to it from the master account; the children are kept in creation order
    (the Rust HashMap has no order and every traversal sorts by name). *)
From Coq Require Import List NArith ZArith Bool Lia.
From Verif Require Import Base.
Import ListNotations.

(** A posting is referred to by (transaction number, posting number) instead of a pointer. *)
Definition postref := (nat * nat)%type.

(** account.rs:10-20; the key of a child in the map is its name; [parent] and the cached
    [fullname] are determined by the position in the tree. *)
Inductive account := Acct (name : str) (children : list account) (posts : list postref).

Definition ac_name (a : account) : str := let 'Acct n _ _ := a in n.
Definition ac_children (a : account) : list account := let 'Acct _ c _ := a in c.
Definition ac_posts (a : account) : list postref := let 'Acct _ _ p := a in p.

Definition path := list str.

(** [self.accounts.get(name)] *)
Definition find_child (name : str) (cs : list account) : option account :=
  find (fun c => str_eqb (ac_name c) name) cs.

(** Replace the child of the given name. *)
Fixpoint set_child (name : str) (c' : account) (cs : list account) : list account :=
  match cs with
  | [] => []
  | c :: r => if str_eqb (ac_name c) name then c' :: r else c :: set_child name c' r
  end.

(** account.rs:106-115: split at the first ':'. *)
Definition split_first (name : str) : str * str :=
  match find_char (fun c => (c =? 58)%N) name with
  | Some i => (firstn i name, skipn (i + 1) name)
  | None => (name, [])
  end.

(** account.rs:100-139 [find_or_create], with [create_account] (36-49).  Returns the updated
    account and the path of the account found or created below it.  Each recursive call has a
    shorter name, so [S (length name)] is enough fuel. *)
Fixpoint find_or_create (fuel : nat) (self : account) (name : str) (auto_create : bool)
  : outcome (option (account * path)) :=
  match fuel with
  | O => Diverge
  | S f =>
      let 'Acct n cs ps := self in
      match find_child name cs with
      | Some _ => Ok (Some (self, [name]))
      | None =>
          let '(first, rest) := split_first name in
          match find_child first cs with
          | None =>
              if auto_create then
                let child := Acct first [] [] in
                match rest with
                | [] => Ok (Some (Acct n (cs ++ [child]) ps, [first]))
                | _ =>
                    let* r := find_or_create f child rest auto_create in
                    let* (child', p) := unwrap r in
                    Ok (Some (Acct n (cs ++ [child']) ps, first :: p))
                end
              else Ok None
          | Some child =>
              match rest with
              | [] => Ok (Some (self, [first]))
              | _ =>
                  let* r := find_or_create f child rest auto_create in
                  let* (child', p) := unwrap r in
                  Ok (Some (Acct n (set_child first child' cs) ps, first :: p))
              end
          end
      end
  end.

(** account.rs:89-96 [find_account] *)
Definition find_account (self : account) (name : str) : outcome (option path) :=
  let* r := find_or_create (S (length name)) self name false in
  Ok (option_map snd r).

(** journal.rs:68-88 [register_account] on the master account. *)
Definition register_account (master : account) (name : str) : outcome (account * path) :=
  match name with
  | [] => Panic PExplicit
  | _ => let* r := find_or_create (S (length name)) master name true in unwrap r
  end.

(** Following a path, i.e. dereferencing an account pointer. *)
Fixpoint get_account (a : account) (p : path) : option account :=
  match p with
  | [] => Some a
  | n :: p' => match find_child n (ac_children a) with
               | Some c => get_account c p'
               | None => None
               end
  end.

(** parser.rs:465-471: [account.posts.push(post)] through the account pointer. *)
Fixpoint push_post (a : account) (p : path) (r : postref) : outcome account :=
  let 'Acct n cs ps := a in
  match p with
  | [] => Ok (Acct n cs (ps ++ [r]))
  | k :: p' => match find_child k cs with
               | None => Panic PNull
               | Some c => let* c' := push_post c p' r in Ok (Acct n (set_child k c' cs) ps)
               end
  end.

(** account.rs:51-76 [fullname]: walks from the account to the master account (whose name is
    empty) and prepends every non-empty name; the master itself has the empty full name. *)
Definition fullname (p : path) : str :=
  match rev p with
  | [] => []
  | name :: up =>
      fold_left (fun full n => match n with [] => full | _ => n ++ 58%N :: full end) up name
  end.

(** account.rs:173-183 [flatten]: depth first, children sorted by name.  The children are
    flattened first and sorted afterwards, which is the same because sorting looks at the names
    only. *)
Fixpoint flatten (a : account) : list account :=
  a :: concat (map snd (sort_key (map (fun c => (ac_name c, flatten c)) (ac_children a)))).
