(* TreeFrame_spec.v -- programs that change trees, and what they are given *)
From Verif Require Import Base Rose Maps_model Tree_model Layout_model.

(** what a program can do to the store of nodes (tree.py:23-27, 116-146,
    176-187, 216-226) *)
Inductive op :=
| New (l : str) (d : dict akey value)
| SetItem (a : addr) (k : akey) (v : value)
| DelItem (a : addr) (k : akey)
| AddChild (p c : addr)
| DelChild (p c : addr)
| Unlink (a : addr)
| Copy (fuel : nat) (a : addr).

(** an operation that raises leaves the store it had at that moment, and the
    program may go on *)
Definition perform (h : list node) (o : op) : list node :=
  match o with
  | New l d => fst (new_node h {| label := l; children := []; attrib := d; parent := None |})
  | SetItem a k v => node_setitem h a k v
  | DelItem a k => fst (node_delitem h a k)
  | AddChild p c => add_child h p c
  | DelChild p c => fst (del_child h p c)
  | Unlink a => fst (unlink h a)
  | Copy f a => match copy f h a with Ok (h', _) => h' | Raise _ => h end
  end.
Definition program (h : list node) (ops : list op) : list node := fold_left perform ops h.

(** the nodes it is applied to *)
Definition names (o : op) : list addr :=
  match o with
  | New _ _ => [] | SetItem a _ _ | DelItem a _ | Unlink a | Copy _ a => [a] | AddChild p c | DelChild p c => [p; c]
  end.
Definition works_on (R : addr -> Prop) (ops : list op) : Prop := forall o a, In o ops -> In a (names o) -> R a.
(** no node refers to a parent that does not exist *)
Definition parents_exist (h : list node) : Prop := forall a p, parent (at_ h a) = Some p -> (p < length h)%nat.
