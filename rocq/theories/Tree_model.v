(* Tree_model.v -- model of /repo/cjktools/resources/tree.py.
   Nodes live in a store and refer to each other by address.  Every node owns
   its two dictionaries; Share_model.v drops that and C114 justifies it.  Labels are
   texts; attributes map keys to numbers, None or opaque values; the result of
   a float division is kept as the pair of its operands.  The pretty printer
   and TreeDist.combine/union/diff are in Layout_model.v. *)
From Verif Require Import Base PyText Rose Maps_model.

Inductive akey := KInt (z : Z) | KStr (s : str).
Definition akey_eqb (x y : akey) : bool :=
  match x, y with KInt a, KInt b => a =? b | KStr a, KStr b => eqb a b | _, _ => false end.
Lemma akey_eqb_spec x y : reflect (x = y) (akey_eqb x y).
Proof.
  destruct x as [a|a], y as [b|b]; cbn [akey_eqb]; try (constructor; discriminate).
  - destruct (Z.eqb_spec a b); constructor; congruence.
  - destruct (eqb_spec a b); constructor; congruence.
Qed.
#[global] Instance EqB_akey : EqB akey := {| eqb := akey_eqb; eqb_spec := akey_eqb_spec |}.

Inductive value := VNone | VNum (z : Z) | VQuot (a b : Z) | VOther (n : nat).
Definition value_eqb (x y : value) : bool :=
  match x, y with
  | VNone, VNone => true | VNum a, VNum b => a =? b | VQuot a b, VQuot c d => (a =? c) && (b =? d)
  | VOther a, VOther b => Nat.eqb a b | _, _ => false
  end.
Lemma value_eqb_spec x y : reflect (x = y) (value_eqb x y).
Proof.
  destruct x as [|a|a b|a], y as [|c|c d|c]; cbn [value_eqb]; try (constructor; discriminate); try (constructor; reflexivity).
  - destruct (Z.eqb_spec a c); constructor; congruence.
  - destruct (Z.eqb_spec a c), (Z.eqb_spec b d); constructor; congruence.
  - destruct (Nat.eqb_spec a c); constructor; congruence.
Qed.
#[global] Instance EqB_value : EqB value := {| eqb := value_eqb; eqb_spec := value_eqb_spec |}.

(* tree.py:21-27 *)
Record node := { label : str; children : dict str addr; attrib : dict akey value; parent : option addr }.
Definition no_node : node := {| label := []; children := []; attrib := []; parent := None |}.
Definition at_ (h : list node) (a : addr) : node := fetch no_node h a.
Definition set_children (n : node) (d : dict str addr) : node :=
  {| label := label n; children := d; attrib := attrib n; parent := parent n |}.
Definition set_attrib (n : node) (d : dict akey value) : node :=
  {| label := label n; children := children n; attrib := d; parent := parent n |}.
Definition set_parent (n : node) (p : option addr) : node :=
  {| label := label n; children := children n; attrib := attrib n; parent := p |}.
Definition new_node (h : list node) (n : node) : list node * addr := (h ++ [n], length h).

(* a node is true when it has children: __len__, tree.py:167-168 *)
Definition truth (h : list node) (a : addr) : bool := match children (at_ h a) with [] => false | _ => true end.
Definition truth_opt (h : list node) (a : option addr) : bool := match a with Some b => truth h b | None => false end.

(* tree.py:29-37  get_ancestors *)
Fixpoint ancestors_loop (fuel : nat) (h : list node) (result : list addr) (n : addr) : res (list addr) :=
  match fuel with
  | O => Raise OutOfFuel
  | S f => match parent (at_ h n) with
           | None => Ok result
           | Some p => ancestors_loop f h (result ++ [p]) p
           end
  end.
Definition get_ancestors (fuel : nat) (h : list node) (self : addr) : res (list addr) :=
  rmap (@rev addr) (ancestors_loop fuel h [self] self).

(* tree.py:41-54  path_from_root *)
Fixpoint path_loop (fuel : nat) (h : list node) (path : list addr) (n : addr) : res (list addr) :=
  match fuel with
  | O => Raise OutOfFuel
  | S f =>
      match parent (at_ h n) with
      | None => Ok path
      | Some p =>
          let path := path ++ [p] in
          match pop_last path with
          | Some (n', _) => path_loop f h path n'
          | None => Raise IndexError
          end
      end
  end.
Definition path_from_root (fuel : nat) (h : list node) (self : addr) : res (list addr) :=
  rmap (@rev addr) (path_loop fuel h [self] self).

(* the loops "for node in self.walk...()": the body may change the store
   between two steps of the generator, and may stop the loop *)
Section Walks.
  Context {S A : Type}.
  Variable body : list node -> S -> addr -> list node * S * res (option A).
  Notation outcome := (list node * S * res (option A))%type (only parsing).

  (* tree.py:58-70  walk_preorder; tree.py:72-73 walk *)
  Fixpoint for_preorder (fuel : nat) (h : list node) (s : S) (stack : list addr) : outcome :=
    match fuel with
    | O => (h, s, Raise OutOfFuel)
    | Datatypes.S f =>
        match pop_last stack with
        | None => (h, s, Ok None)
        | Some (n, stack) =>
            match body h s n with
            | (h, s, Ok None) => for_preorder f h s (stack ++ dvals (children (at_ h n)))
            | out => out
            end
        end
    end.

  (* tree.py:75-92  walk_postorder *)
  Fixpoint for_postorder (fuel : nat) (h : list node) (s : S) (stack : list (addr * bool)) : outcome :=
    match fuel with
    | O => (h, s, Raise OutOfFuel)
    | Datatypes.S f =>
        match pop_last stack with
        | None => (h, s, Ok None)
        | Some ((n, visited), stack) =>
            if visited || negb (truth h n) then
              match body h s n with
              | (h, s, Ok None) => for_postorder f h s stack
              | out => out
              end
            else for_postorder f h s ((stack ++ [(n, true)]) ++ map (fun c => (c, false)) (dvals (children (at_ h n))))
        end
    end.

  (* tree.py:94-114  walk_breadth_first; [shuffle k] is the k-th shuffle *)
  Variable shuffle : nat -> list addr -> list addr.
  Fixpoint for_breadth (fuel k : nat) (h : list node) (s : S) (frontier next_frontier : list addr) : outcome :=
    match fuel with
    | O => (h, s, Raise OutOfFuel)
    | Datatypes.S f =>
        match pop_last frontier with
        | None => (h, s, Ok None)
        | Some (n, frontier) =>
            match body h s n with
            | (h, s, Ok None) =>
                let next_frontier := next_frontier ++ dvals (children (at_ h n)) in
                match frontier with
                | [] => for_breadth f (Datatypes.S k) h s (shuffle k next_frontier) []
                | _ => for_breadth f k h s frontier next_frontier
                end
            | out => out
            end
        end
    end.
End Walks.

(* list(self.walk...()) *)
Definition collect (h : list node) (s : list addr) (n : addr) : list node * list addr * res (option unit) := (h, s ++ [n], Ok None).
Definition listed (out : list node * list addr * res (option unit)) : res (list addr) :=
  match out with (_, s, Ok _) => Ok s | (_, _, Raise e) => Raise e end.
Definition walk_preorder (fuel : nat) (h : list node) (self : addr) : res (list addr) :=
  listed (for_preorder collect fuel h [] [self]).
Definition walk_postorder (fuel : nat) (h : list node) (self : addr) : res (list addr) :=
  listed (for_postorder collect fuel h [] [(self, false)]).
Definition walk_breadth_first (shuffle : nat -> list addr -> list addr) (fuel : nat) (h : list node) (self : addr) : res (list addr) :=
  listed (for_breadth collect shuffle fuel O h [] [self] []).

(* tree.py:116-121  unlink *)
Definition unlink (h : list node) (self : addr) : list node * res unit :=
  let detach (h : list node) := put h self (set_parent (at_ h self) None) in
  match parent (at_ h self) with
  | Some p =>
      if truth h p then
        match dget (label (at_ h self)) (children (at_ h p)) with
        | Some _ => (detach (put h p (set_children (at_ h p) (ddel (label (at_ h self)) (children (at_ h p))))), Ok tt)
        | None => (h, Raise KeyError)
        end
      else (detach h, Ok tt)
  | None => (detach h, Ok tt)
  end.

(* tree.py:123-146  copy *)
Fixpoint copy_kids (h : list node) (n : addr) (items : list (str * addr)) (stack : list addr) : list node * list addr :=
  match items with
  | [] => (h, stack)
  | (child_label, child_node) :: r =>
      let '(h, copied_child) := new_node h {| label := child_label; children := children (at_ h child_node);
                                              attrib := attrib (at_ h child_node); parent := Some n |} in
      let h := put h n (set_children (at_ h n) (dset child_label copied_child (children (at_ h n)))) in
      copy_kids h n r (stack ++ [copied_child])
  end.
Fixpoint copy_loop (fuel : nat) (h : list node) (stack : list addr) : res (list node) :=
  match fuel with
  | O => Raise OutOfFuel
  | S f =>
      match pop_last stack with
      | None => Ok h
      | Some (n, stack) =>
          let '(h, stack) := copy_kids h n (children (at_ h n)) stack in
          copy_loop f h stack
      end
  end.
Definition copy (fuel : nat) (h : list node) (self : addr) : res (list node * addr) :=
  if truth_opt h (parent (at_ h self)) then Raise PlainException
  else
    let '(h, new_root) := new_node h {| label := label (at_ h self); children := children (at_ h self);
                                        attrib := attrib (at_ h self); parent := None |} in
    do h <- copy_loop fuel h [new_root]; Ok (h, new_root).

(* tree.py:148-165  prune *)
Definition prune_body (predicate : list node -> addr -> bool) (h : list node) (s : unit) (n : addr) : list node * unit * res (option unit) :=
  if truth h n || predicate h n then (h, s, Ok None)
  else match unlink h n with (h, Ok _) => (h, s, Ok None) | (h, Raise e) => (h, s, Raise e) end.
Definition prune (predicate : list node -> addr -> bool) (fuel : nat) (h : list node) (self : addr) : res (list node * option addr) :=
  do r <- copy fuel h self;
  let '(h, new_tree) := r in
  match for_postorder (prune_body predicate) fuel h tt [(new_tree, false)] with
  | (h, _, Raise e) => Raise e
  | (h, _, Ok _) => Ok (h, if truth h new_tree || predicate h new_tree then Some new_tree else None)
  end.

(* tree.py:176-179  add_child *)
Definition add_child (h : list node) (self child_node : addr) : list node :=
  let h := put h self (set_children (at_ h self) (dset (label (at_ h child_node)) child_node (children (at_ h self)))) in
  put h child_node (set_parent (at_ h child_node) (Some self)).

(* tree.py:181-187  del_child *)
Definition del_child (h : list node) (self child_node : addr) : list node * res unit :=
  match dget (label (at_ h child_node)) (children (at_ h self)) with
  | None => (h, Raise KeyError)
  | Some _ =>
      let h := put h self (set_children (at_ h self) (ddel (label (at_ h child_node)) (children (at_ h self)))) in
      (put h child_node (set_attrib (at_ h child_node) (dset (KStr (u "parent")) VNone (attrib (at_ h child_node)))), Ok tt)
  end.

(* tree.py:189-199  get_path, for a list and for a text *)
Fixpoint get_path (h : list node) (next_node : addr) (path : list str) : res addr :=
  match path with
  | [] => Ok next_node
  | l :: r => do c <- dgetitem (children (at_ h next_node)) l; get_path h c r
  end.
Definition get_path_text (h : list node) (self : addr) (path : str) : res addr :=
  get_path h self (split_on (u1 "/") (lstrip_by (fun c => c =? u1 "/") path)).

(* tree.py:201-210  find_node *)
Definition find_body (l : str) (h : list node) (s : unit) (n : addr) : list node * unit * res (option addr) :=
  (h, s, Ok (if eqb (label (at_ h n)) l then Some n else None)).
Definition find_node (shuffle : nat -> list addr -> list addr) (fuel : nat) (h : list node) (self : addr) (l : str) : res addr :=
  match for_breadth (find_body l) shuffle fuel O h tt [self] [] with
  | (_, _, Ok (Some n)) => Ok n
  | (_, _, Ok None) => Raise KeyError
  | (_, _, Raise e) => Raise e
  end.

(* tree.py:228-231  __eq__; dictionaries are equal when they have as many
   entries and every entry of one is matched in the other.  [veq] is == of two
   attribute values. *)
Fixpoint node_eq (veq : value -> value -> bool) (fuel : nat) (h : list node) (a b : addr) : res bool :=
  match fuel with
  | O => Raise RecursionError
  | S f =>
      if negb (eqb (label (at_ h a)) (label (at_ h b))) then Ok false
      else if negb (Nat.eqb (length (attrib (at_ h a))) (length (attrib (at_ h b))) &&
                    forallb (fun kv => match dget (fst kv) (attrib (at_ h b)) with Some v => veq (snd kv) v | None => false end) (attrib (at_ h a))) then Ok false
      else if negb (Nat.eqb (length (children (at_ h a))) (length (children (at_ h b)))) then Ok false
      else
        (fix all (l : list (str * addr)) : res bool :=
           match l with
           | [] => Ok true
           | (k, c) :: r =>
               match dget k (children (at_ h b)) with
               | None => Ok false
               | Some d =>
                   if Nat.eqb c d then all r
                   else do e <- node_eq veq f h c d; if e then all r else Ok false
               end
           end) (children (at_ h a))
  end.

(* unpacking a node into two names: it has no __iter__, so its items 0, 1, 2
   are asked for through __getitem__ (tree.py:212-214) *)
Definition unpack2 (h : list node) (n : addr) : res (value * value) :=
  do a <- dgetitem (attrib (at_ h n)) (KInt 0);
  do b <- dgetitem (attrib (at_ h n)) (KInt 1);
  do c <- dgetitem (attrib (at_ h n)) (KInt 2);
  Raise ValueError.
(* tree.py:233-245  build_index; [label_of] is .label of the second value *)
Definition index_body (label_of : value -> res str) (h : list node) (index : dict str (list value)) (n : addr)
    : list node * dict str (list value) * res (option unit) :=
  match (do pn <- unpack2 h n; do l <- label_of (snd pn); Ok (dextend l [snd pn] index)) with
  | Ok index => (h, index, Ok None)
  | Raise e => (h, index, Raise e)
  end.
Definition build_index (label_of : value -> res str) (fuel : nat) (h : list node) (self : addr) : res (dict str (list value)) :=
  match for_preorder (index_body label_of) fuel h [] [self] with
  | (_, index, Ok _) => Ok index
  | (_, _, Raise e) => Raise e
  end.

(* tree.py:281-304  TreeDist.__init__ with a count method that looks at the
   node it is given *)
Definition num (v : value) : res Z := match v with VNum z => Ok z | _ => Raise TypeError end.
Definition get_num (h : list node) (n : addr) (k : str) : res Z :=
  do v <- dgetitem (attrib (at_ h n)) (KStr k); num v.
Definition setitem (h : list node) (n : addr) (k : str) (v : value) : list node :=
  put h n (set_attrib (at_ h n) (dset (KStr k) v (attrib (at_ h n)))).
Definition count_body (count_method : node -> res Z) (h : list node) (s : unit) (n : addr) : list node * unit * res (option unit) :=
  match count_method (at_ h n) with
  | Raise e => (h, s, Raise e)
  | Ok c =>
      let h := setitem h n (u "count") (VNum c) in
      match (do own <- get_num h n (u "count"); do ks <- mapM (fun c => get_num h c (u "count")) (dvals (children (at_ h n)));
             Ok (own + fold_left Z.add ks 0)) with
      | Raise e => (h, s, Raise e)
      | Ok z => (setitem h n (u "cum_count") (VNum z), s, Ok None)
      end
  end.
Definition freq_body (total : Z) (h : list node) (s : unit) (n : addr) : list node * unit * res (option unit) :=
  match get_num h n (u "cum_count") with
  | Raise e => (h, s, Raise e)
  | Ok z => if total =? 0 then (h, s, Raise ZeroDivisionError) else (setitem h n (u "freq") (VQuot z total), s, Ok None)
  end.
Definition tree_dist (count_method : node -> res Z) (fuel : nat) (h : list node) (self : addr) : res (list node * addr) :=
  do r <- copy fuel h self;
  let '(h, root) := r in
  match for_postorder (count_body count_method) fuel h tt [(root, false)] with
  | (h, _, Raise e) => Raise e
  | (h, _, Ok _) =>
      do total <- get_num h root (u "cum_count");
      match for_preorder (freq_body total) fuel h tt [root] with
      | (h, _, Raise e) => Raise e
      | (h, _, Ok _) => Ok (h, root)
      end
  end.
