(* Share_model.v -- model of /repo/cjktools/resources/tree.py where the
   dictionaries of children and attributes are objects of their own: a node
   refers to them, the caller may hold them too, and one may be given to several
   nodes.  Tree_model.v keeps them inside the nodes.  The methods that only read
   (walks, paths, find_node, __eq__, layout) see the store [view]. *)
From Verif Require Import Base Rose Maps_model Tree_model Layout_model TreeFrame_spec.

(* tree.py:21-27 *)
Record snode := { s_label : str; s_children : addr; s_attrib : addr; s_parent : option addr }.
Record world := { objs : list snode; kid_dicts : list (dict str addr); att_dicts : list (dict akey value) }.
Definition kid_dict (w : world) (d : addr) : dict str addr := fetch [] (kid_dicts w) d.
Definition att_dict (w : world) (d : addr) : dict akey value := fetch [] (att_dicts w) d.

(* what the methods see of a node *)
Definition shown (w : world) (n : snode) : node :=
  {| label := s_label n; children := kid_dict w (s_children n); attrib := att_dict w (s_attrib n); parent := s_parent n |}.
Definition view (w : world) : list node := map (shown w) (objs w).
Definition seen (w : world) (a : addr) : node := at_ (view w) a.

(* a dictionary display, or d.copy() *)
Definition new_kids (w : world) (d : dict str addr) : world * addr :=
  ({| objs := objs w; kid_dicts := kid_dicts w ++ [d]; att_dicts := att_dicts w |}, length (kid_dicts w)).
Definition new_atts (w : world) (d : dict akey value) : world * addr :=
  ({| objs := objs w; kid_dicts := kid_dicts w; att_dicts := att_dicts w ++ [d] |}, length (att_dicts w)).
(* an item assignment or deletion on a dictionary *)
Definition put_kids (w : world) (d : addr) (x : dict str addr) : world :=
  {| objs := objs w; kid_dicts := put (kid_dicts w) d x; att_dicts := att_dicts w |}.
Definition put_atts (w : world) (d : addr) (x : dict akey value) : world :=
  {| objs := objs w; kid_dicts := kid_dicts w; att_dicts := put (att_dicts w) d x |}.
(* the same on the dictionary of a node; an address without a node is ignored *)
Definition with_kids (w : world) (a : addr) (x : dict str addr) : world :=
  match nth_error (objs w) a with Some n => put_kids w (s_children n) x | None => w end.
Definition with_atts (w : world) (a : addr) (x : dict akey value) : world :=
  match nth_error (objs w) a with Some n => put_atts w (s_attrib n) x | None => w end.
Definition with_parent (w : world) (a : addr) (p : option addr) : world :=
  match nth_error (objs w) a with
  | Some n => {| objs := put (objs w) a {| s_label := s_label n; s_children := s_children n; s_attrib := s_attrib n; s_parent := p |};
                 kid_dicts := kid_dicts w; att_dicts := att_dicts w |}
  | None => w
  end.

(* tree.py:23-27  __init__: "children or {}", "attrib or {}" *)
Definition or_kids (w : world) (c : option addr) : world * addr :=
  match c with
  | Some d => match kid_dict w d with [] => new_kids w [] | _ => (w, d) end
  | None => new_kids w []
  end.
Definition or_atts (w : world) (c : option addr) : world * addr :=
  match c with
  | Some d => match att_dict w d with [] => new_atts w [] | _ => (w, d) end
  | None => new_atts w []
  end.
Definition make (w : world) (l : str) (c a : option addr) (p : option addr) : world * addr :=
  let '(w, c) := or_kids w c in
  let '(w, a) := or_atts w a in
  ({| objs := objs w ++ [{| s_label := l; s_children := c; s_attrib := a; s_parent := p |}]; kid_dicts := kid_dicts w; att_dicts := att_dicts w |},
   length (objs w)).

(* tree.py:116-121  unlink *)
Definition s_unlink (w : world) (self : addr) : world * res unit :=
  match parent (seen w self) with
  | Some p =>
      if truth (view w) p then
        match dget (label (seen w self)) (children (seen w p)) with
        | Some _ => (with_parent (with_kids w p (ddel (label (seen w self)) (children (seen w p)))) self None, Ok tt)
        | None => (w, Raise KeyError)
        end
      else (with_parent w self None, Ok tt)
  | None => (with_parent w self None, Ok tt)
  end.

(* tree.py:123-146  copy: [dup] is TreeNode(l, a.children.copy(), a.attrib.copy(), p) *)
Definition dup (w : world) (l : str) (a : addr) (p : option addr) : world * addr :=
  let '(w, c) := new_kids w (children (seen w a)) in
  let '(w, d) := new_atts w (attrib (seen w a)) in
  make w l (Some c) (Some d) p.
Fixpoint s_copy_kids (w : world) (n : addr) (items : list (str * addr)) (stack : list addr) : world * list addr :=
  match items with
  | [] => (w, stack)
  | (child_label, child_node) :: r =>
      let '(w, copied_child) := dup w child_label child_node (Some n) in
      let w := with_kids w n (dset child_label copied_child (children (seen w n))) in
      s_copy_kids w n r (stack ++ [copied_child])
  end.
Fixpoint s_copy_loop (fuel : nat) (w : world) (stack : list addr) : res world :=
  match fuel with
  | O => Raise OutOfFuel
  | S f =>
      match pop_last stack with
      | None => Ok w
      | Some (n, stack) =>
          let '(w, stack) := s_copy_kids w n (children (seen w n)) stack in
          s_copy_loop f w stack
      end
  end.
Definition s_copy (fuel : nat) (w : world) (self : addr) : res (world * addr) :=
  if truth_opt (view w) (parent (seen w self)) then Raise PlainException
  else
    let '(w, new_root) := dup w (label (seen w self)) self None in
    do w <- s_copy_loop fuel w [new_root]; Ok (w, new_root).

(* tree.py:176-187  add_child, del_child *)
Definition s_add_child (w : world) (self child_node : addr) : world :=
  with_parent (with_kids w self (dset (label (seen w child_node)) child_node (children (seen w self)))) child_node (Some self).
Definition s_del_child (w : world) (self child_node : addr) : world * res unit :=
  match dget (label (seen w child_node)) (children (seen w self)) with
  | None => (w, Raise KeyError)
  | Some _ =>
      let w := with_kids w self (ddel (label (seen w child_node)) (children (seen w self))) in
      (with_atts w child_node (dset (KStr (u "parent")) VNone (attrib (seen w child_node))), Ok tt)
  end.

(* tree.py:216-218, 223-226  __setitem__, __delitem__ *)
Definition s_setitem (w : world) (n : addr) (k : akey) (v : value) : world := with_atts w n (dset k v (attrib (seen w n))).
Definition s_delitem (w : world) (n : addr) (k : akey) : world * res unit :=
  match dget k (attrib (seen w n)) with
  | None => (w, Raise KeyError)
  | Some _ => (with_atts w n (ddel k (attrib (seen w n))), Ok tt)
  end.

(* the loops over walk_preorder and walk_postorder, tree.py:58-92, for bodies
   that change the world *)
Section Walks.
  Variable body : world -> addr -> world * res unit.
  Fixpoint s_preorder (fuel : nat) (w : world) (stack : list addr) : world * res unit :=
    match fuel with
    | O => (w, Raise OutOfFuel)
    | S f =>
        match pop_last stack with
        | None => (w, Ok tt)
        | Some (n, stack) =>
            match body w n with
            | (w, Ok _) => s_preorder f w (stack ++ dvals (children (seen w n)))
            | out => out
            end
        end
    end.
  Fixpoint s_postorder (fuel : nat) (w : world) (stack : list (addr * bool)) : world * res unit :=
    match fuel with
    | O => (w, Raise OutOfFuel)
    | S f =>
        match pop_last stack with
        | None => (w, Ok tt)
        | Some ((n, visited), stack) =>
            if visited || negb (truth (view w) n) then
              match body w n with
              | (w, Ok _) => s_postorder f w stack
              | out => out
              end
            else s_postorder f w ((stack ++ [(n, true)]) ++ map (fun c => (c, false)) (dvals (children (seen w n))))
        end
    end.
End Walks.

(* tree.py:148-165  prune *)
Definition s_prune_body (predicate : list node -> addr -> bool) (w : world) (n : addr) : world * res unit :=
  if truth (view w) n || predicate (view w) n then (w, Ok tt) else s_unlink w n.
Definition s_prune (predicate : list node -> addr -> bool) (fuel : nat) (w : world) (self : addr) : res (world * option addr) :=
  do r <- s_copy fuel w self;
  let '(w, new_tree) := r in
  match s_postorder (s_prune_body predicate) fuel w [(new_tree, false)] with
  | (_, Raise e) => Raise e
  | (w, Ok _) => Ok (w, if truth (view w) new_tree || predicate (view w) new_tree then Some new_tree else None)
  end.

(* tree.py:281-304  TreeDist.__init__ *)
Definition s_count_body (count_method : node -> res Z) (w : world) (n : addr) : world * res unit :=
  match count_method (seen w n) with
  | Raise e => (w, Raise e)
  | Ok c =>
      let w := s_setitem w n (KStr (u "count")) (VNum c) in
      match (do own <- get_num (view w) n (u "count");
             do ks <- mapM (fun c => get_num (view w) c (u "count")) (dvals (children (seen w n)));
             Ok (own + fold_left Z.add ks 0)) with
      | Raise e => (w, Raise e)
      | Ok z => (s_setitem w n (KStr (u "cum_count")) (VNum z), Ok tt)
      end
  end.
Definition s_freq_body (total : Z) (w : world) (n : addr) : world * res unit :=
  match get_num (view w) n (u "cum_count") with
  | Raise e => (w, Raise e)
  | Ok z => if total =? 0 then (w, Raise ZeroDivisionError) else (s_setitem w n (KStr (u "freq")) (VQuot z total), Ok tt)
  end.
Definition s_tree_dist (count_method : node -> res Z) (fuel : nat) (w : world) (self : addr) : res (world * addr) :=
  do r <- s_copy fuel w self;
  let '(w, root) := r in
  match s_postorder (s_count_body count_method) fuel w [(root, false)] with
  | (_, Raise e) => Raise e
  | (w, Ok _) =>
      do total <- get_num (view w) root (u "cum_count");
      match s_preorder (s_freq_body total) fuel w [root] with
      | (_, Raise e) => Raise e
      | (w, Ok _) => Ok (w, root)
      end
  end.

(* what a program does (TreeFrame_spec.v); a new node is given a dictionary
   display, which nothing else refers to *)
Definition s_perform (w : world) (o : op) : world :=
  match o with
  | New l d => let '(w, a) := new_atts w d in fst (make w l None (Some a) None)
  | SetItem a k v => s_setitem w a k v
  | DelItem a k => fst (s_delitem w a k)
  | AddChild p c => s_add_child w p c
  | DelChild p c => fst (s_del_child w p c)
  | Unlink a => fst (s_unlink w a)
  | Copy f a => match s_copy f w a with Ok (w', _) => w' | Raise _ => w end
  end.
Definition s_program (w : world) (ops : list op) : world := fold_left s_perform ops w.
