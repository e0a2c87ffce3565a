(* Layout_model.v -- the printing methods and TreeDist operations of
   /repo/cjktools/resources/tree.py left out of Tree_model.v.  What is printed
   is the list of printed lines; [limit] bounds Python's recursion. *)
From Verif Require Import Base PyText PyFmt Rose Maps_model Tree_model.

(** lines printed, and how it ended *)
Definition out : Type := (list str * res unit)%type.
Definition print_line (s : str) : out := ([s], Ok tt).
Definition and_then (a b : out) : out :=
  match a with (l, Ok _) => let (l', r) := b in (l ++ l', r) | (l, Raise e) => (l, Raise e) end.

Section Layout.
  Variable method : list node -> addr -> res str.
  Definition print_node (h : list node) (before : str) (n : addr) : out :=
    match method h n with Ok s => print_line (before ++ s) | Raise e => ([], Raise e) end.
  (* tree.py:260-273  _layout_children *)
  Fixpoint layout_children (limit : nat) (h : list node) (n : addr) (prefix : str) : out :=
    match limit with
    | O => ([], Raise RecursionError)
    | S f =>
        (fix each (l : list addr) : out :=
           match l with
           | [] => ([], Ok tt)
           | child :: r =>
               match r with
               | [] => and_then (print_node h (prefix ++ u "└─ ") child) (layout_children f h child (prefix ++ u "   "))
               | _ => and_then (and_then (print_node h (prefix ++ u "├─ ") child) (layout_children f h child (prefix ++ u "│  "))) (each r)
               end
           end) (dvals (children (at_ h n)))
    end.
  (* tree.py:247-258  layout *)
  Definition layout (limit : nat) (h : list node) (self : addr) : out :=
    and_then (print_node h [] self) (layout_children limit h self []).
End Layout.
(* tree.py:253-254  the default method *)
Definition default_method (h : list node) (n : addr) : res str := Ok (label (at_ h n)).
(* tree.py:310-314  TreeDist.layout; [fixed] is '%.04f' of a value *)
Definition dist_layout (fixed : value -> res str) (limit : nat) (h : list node) (root : addr) : out :=
  layout (fun h n => do f <- dgetitem (attrib (at_ h n)) (KStr (u "freq")); do s <- fixed f; Ok (label (at_ h n) ++ u " " ++ s)) limit h root.

(* tree.py:170-174  TreeNode.__str__, __repr__ *)
Definition node_str (n : node) : str := u "<TreeNode: " ++ label n ++ u " (" ++ dec (Z.of_nat (length (children n))) ++ u " children)>".

(* tree.py:216-226  __setitem__, __contains__, __delitem__; 212-214 __getitem__ *)
Definition node_getitem (h : list node) (n : addr) (k : akey) : res value := dgetitem (attrib (at_ h n)) k.
Definition node_setitem (h : list node) (n : addr) (k : akey) (v : value) : list node := put h n (set_attrib (at_ h n) (dset k v (attrib (at_ h n)))).
Definition node_contains (h : list node) (n : addr) (k : akey) : bool := dmem k (attrib (at_ h n)).
Definition node_delitem (h : list node) (n : addr) (k : akey) : list node * res unit :=
  match dget k (attrib (at_ h n)) with
  | None => (h, Raise KeyError)
  | Some _ => (put h n (set_attrib (at_ h n) (ddel k (attrib (at_ h n)))), Ok tt)
  end.

(** TreeDist objects only have the attribute [root] (tree.py:285), and none of
    the classes defines [tree] *)
Record dist := mkdist { dist_root : addr }.
(* tree.py:306-308  TreeDist.copy: the constructor copies the copy again and,
   without a count method, returns (tree.py:285-288) *)
Definition dist_copy (fuel : nat) (h : list node) (d : dist) : res (list node * dist) :=
  do r <- copy fuel h (dist_root d);
  do r2 <- copy fuel (fst r) (snd r);
  Ok (fst r2, mkdist (snd r2)).
Definition dist_tree (d : dist) : res addr := Raise AttributeError.
(** binding the arguments of a call to a function's parameters *)
Definition bind_args (params : list str) (positional : nat) (keywords : list str) : res unit :=
  if (length params <? positional)%nat then Raise TypeError
  else if forallb (fun k => mem k (skipn positional params)) keywords then Ok tt else Raise TypeError.
(* tree.py:316-356  combine: the assertion reads self.tree first *)
Definition combine (l r : dist) (f : value -> value -> value) (name : str) : res dist :=
  do a <- dist_tree l;
  do b <- dist_tree r;
  Raise AssertionError.
(* tree.py:358-359  union, which calls itself with two keywords; tree.py:361-362 diff *)
Definition union_params : list str := [u "self"; u "rhs"].
Fixpoint union (fuel : nat) (l r : dist) : res dist :=
  match fuel with
  | O => Raise RecursionError
  | S f => do _ <- bind_args union_params 2 [u "f"; u "label"]; union f l r
  end.
Definition diff (fuel : nat) (l r : dist) : res dist := do _ <- bind_args union_params 2 [u "f"; u "label"]; union fuel l r.
