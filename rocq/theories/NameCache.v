(** Full names of accounts as they are asked for: the name is computed once, by following the pointers to the
    parents, and then kept in the account.

    [Account] and [Heap] compute it every time.  Here the field that keeps it is there, and a history is any sequence of
    registrations and of questions for full names.  Addresses and allocations are those of [Memory]. *)
From Coq Require Import String List NArith ZArith Bool.
From Verif Require Import Base Account Memory Heap.
Import ListNotations.
Open Scope nat_scope.

(** account.rs:10-20; [posts] is left out *)
Inductive nacct := NAcct (name : str) (parent : option addr) (al : alloc) (kept : str) (children : list nacct).
Definition na_name (a : nacct) : str := let 'NAcct n _ _ _ _ := a in n.
Definition na_parent (a : nacct) : option addr := let 'NAcct _ p _ _ _ := a in p.
Definition na_alloc (a : nacct) : alloc := let 'NAcct _ _ al _ _ := a in al.
Definition na_kept (a : nacct) : str := let 'NAcct _ _ _ k _ := a in k.
Definition na_children (a : nacct) : list nacct := let 'NAcct _ _ _ _ c := a in c.
Definition find_nchild (name : str) (cs : list nacct) : option nacct := find (fun c => str_eqb (na_name c) name) cs.
Fixpoint set_nchild (name : str) (c' : nacct) (cs : list nacct) : list nacct :=
  match cs with
  | [] => []
  | c :: r => if str_eqb (na_name c) name then c' :: r else c :: set_nchild name c' r
  end.
Fixpoint get_nacct (a : nacct) (p : path) : option nacct :=
  match p with
  | [] => Some a
  | n :: p' => match find_nchild n (na_children a) with
               | Some c => get_nacct c p'
               | None => None
               end
  end.
(** [get_account_mut(ptr)], account.rs:145-148: where the account is. *)
Definition n_account (t : nacct) (a : addr) : outcome path :=
  match a with
  | AMaster => Ok []
  | AAcct p g n =>
      match get_nacct t p with
      | Some s => if g =? al_gen (na_alloc s)
                  then match find_nchild n (na_children s) with Some _ => Ok (p ++ [n]) | None => Panic PNull end
                  else Panic PNull
      | None => Panic PNull
      end
  | _ => Panic PNull
  end.

Section Growth.
Variable pol : policy.
(** account.rs:100-139 [find_or_create] with [auto_create], 22-33 [new], 36-49 [create_account] *)
Fixpoint n_find_or_create (fuel : nat) (self : nacct) (here : addr) (base : path) (name : str) : outcome (nacct * addr) :=
  match fuel with
  | O => Diverge
  | S f =>
      let 'NAcct n par al k cs := self in
      match find_nchild name cs with
      | Some _ => Ok (self, AAcct base (al_gen al) name)
      | None =>
          let '(first, rest) := split_first name in
          match find_nchild first cs with
          | None =>
              let al' := room (map_next pol) al (length cs) in
              let ptr := AAcct base (al_gen al') first in
              let child := NAcct first (Some here) no_alloc [] [] in
              match rest with
              | [] => Ok (NAcct n par al' k (cs ++ [child]), ptr)
              | _ => let* (child', r) := n_find_or_create f child ptr (base ++ [first]) rest in
                     Ok (NAcct n par al' k (cs ++ [child']), r)
              end
          | Some child =>
              let ptr := AAcct base (al_gen al) first in
              match rest with
              | [] => Ok (self, ptr)
              | _ => let* (child', r) := n_find_or_create f child ptr (base ++ [first]) rest in
                     Ok (NAcct n par al k (set_nchild first child' cs), r)
              end
          end
      end
  end.
(** journal.rs:68-88 [register_account] *)
Definition n_register (t : nacct) (name : str) : outcome nacct :=
  match name with
  | [] => Panic PExplicit
  | _ => let* (t', a) := n_find_or_create (S (length name)) t AMaster [] name in
         let* _ := n_account t' a in Ok t'
  end.
End Growth.

(** account.rs:61-71: the loop over the parent pointers.  [fuel] is the depth of the account, which is the number of steps. *)
Fixpoint n_up (fuel : nat) (t : nacct) (parent : option addr) (full : str) : outcome str :=
  match parent with
  | None => Ok full
  | Some a =>
      match fuel with
      | O => Diverge
      | S f =>
          let* p := n_account t a in
          match get_nacct t p with
          | None => Panic PNull
          | Some acct => n_up f t (na_parent acct) (match na_name acct with [] => full | n => n ++ 58%N :: full end)
          end
      end
  end.
(** account.rs:78-85 [set_fullname] *)
Fixpoint n_keep (a : nacct) (p : path) (full : str) : nacct :=
  let 'NAcct n par al k cs := a in
  match p with
  | [] => NAcct n par al full cs
  | m :: p' => match find_nchild m cs with
               | Some c => NAcct n par al k (set_nchild m (n_keep c p' full) cs)
               | None => a
               end
  end.
(** account.rs:51-76 [fullname] of the account at [p] *)
Definition n_fullname (t : nacct) (p : path) : outcome (nacct * str) :=
  match get_nacct t p with
  | None => Panic PUnwrap
  | Some a =>
      match na_parent a with
      | None => Ok (t, [])
      | Some _ =>
          match na_kept a with
          | [] => let* full := n_up (length p) t (na_parent a) (na_name a) in Ok (n_keep t p full, full)
          | k => Ok (t, k)
          end
      end
  end.

(** A history: registrations and questions, and the answers. *)
Inductive request := Register (name : str) | AskName (p : path).
Fixpoint answers (pol : policy) (t : nacct) (rs : list request) : outcome (nacct * list (path * str)) :=
  match rs with
  | [] => Ok (t, [])
  | Register n :: rs' => let* t' := n_register pol t n in answers pol t' rs'
  | AskName p :: rs' => let* (t1, s) := n_fullname t p in
                        let* (t2, l) := answers pol t1 rs' in Ok (t2, (p, s) :: l)
  end.
Definition nacct_new : nacct := NAcct [] None no_alloc [] [].
