(* Compare_model.v -- comparing and hashing words and tree nodes together with
   objects of other classes: TanakaWord.__eq__, __ne__ (tatoeba.py:489-511) and
   TreeNode.__eq__ (tree.py:228-231) under Python's rules for [==], [!=], [in]
   and hash().  The other classes ([F]) may have any attributes and any __eq__;
   their __ne__ is the inherited one.  Results of __eq__ are booleans. *)
From Verif Require Import Base Tanaka_model SmartCache_model.

Inductive field := Fheadword | Fsense | Fexample | Freading | Fdisplay | Flabel | Fattrib | Fchildren.

(* what a comparison method returns *)
Inductive answer := Says (b : bool) | NotImpl | Throws (e : exn).

Section Compare.
  Context {F : Type}.                                   (* objects of other classes *)
  Variable same_object : F -> F -> bool.                (* is *)
  Variable word_field : word -> F -> field -> res bool. (* self.x == other.x; Fdisplay: the results of resolve_display() *)
  Variable node_field : nat -> F -> field -> res bool.
  Variable node_same : nat -> nat -> res bool.          (* two tree nodes, see node_eq in Tree_model.v *)

  Inductive obj := Word (id : nat) (w : word) | Node (a : nat) | Foreign (f : F).

  Variable foreign_eq : F -> obj -> answer.             (* type(f).__eq__; NotImpl for object.__eq__ *)
  Variable derived : F -> obj -> bool.                  (* type(f) is derived from type(o) and has its own __eq__ *)

  Definition of_try (handled : exn -> bool) (r : res bool) : answer :=
    match r with Ok b => Says b | Raise e => if handled e then NotImpl else Throws e end.
  (* x and y, both evaluated for their truth *)
  Definition and_then (x : res bool) (y : res bool) : res bool := do b <- x; if b then y else Ok false.

  (* self.x == other.x with self a word; nodes have no such attributes
     (__slots__, tree.py:21) *)
  Definition word_cmp (w : word) (o : obj) (x : field) : res bool :=
    match o with
    | Word _ v =>
        Ok (match x with
            | Fheadword => eqb (headword w) (headword v)
            | Fsense => eqb (sense w) (sense v)
            | Fexample => Bool.eqb (example w) (example v)
            | Freading => eqb (reading w) (reading v)
            | _ => eqb (resolve_display w) (resolve_display v)
            end)
    | Node _ => Raise AttributeError
    | Foreign f => word_field w f x
    end.

  Definition is_attribute_error (e : exn) : bool := match e with AttributeError => true | _ => false end.

  (* tatoeba.py:489-508  __eq__ *)
  Definition word_dunder_eq (w : word) (o : obj) : answer :=
    of_try is_attribute_error
      (and_then (word_cmp w o Fheadword) (and_then (word_cmp w o Fsense) (and_then (word_cmp w o Fexample)
        (and_then (word_cmp w o Freading) (word_cmp w o Fdisplay))))).

  (* tree.py:228-231  __eq__ *)
  Definition node_dunder_eq (a : nat) (o : obj) : answer :=
    of_try (fun _ => false)
      (match o with
       | Node b => node_same a b
       | Word _ _ => Raise AttributeError
       | Foreign f => and_then (node_field a f Flabel) (and_then (node_field a f Fattrib) (node_field a f Fchildren))
       end).

  Definition dunder_eq (x y : obj) : answer :=
    match x with Word _ w => word_dunder_eq w y | Node a => node_dunder_eq a y | Foreign f => foreign_eq f y end.

  Definition identical (x y : obj) : bool :=
    match x, y with
    | Word i _, Word j _ => (i =? j)%nat
    | Node a, Node b => (a =? b)%nat
    | Foreign f, Foreign g => same_object f g
    | _, _ => false
    end.
  Definition right_first (x y : obj) : bool := match y with Foreign f => derived f x | _ => false end.

  (* the protocol of a rich comparison: the reflected method comes first for a
     derived class, and is tried last otherwise *)
  Definition rich (forward backward : answer) (first : bool) (otherwise : bool) : res bool :=
    let '(p, q) := if first then (backward, forward) else (forward, backward) in
    match p with
    | Says b => Ok b
    | Throws e => Raise e
    | NotImpl => match q with Says b => Ok b | Throws e => Raise e | NotImpl => Ok otherwise end
    end.

  (* x == y *)
  Definition py_eq (x y : obj) : res bool := rich (dunder_eq x y) (dunder_eq y x) (right_first x y) (identical x y).

  (* object.__ne__ *)
  Definition inverted (a : answer) : answer := match a with Says b => Says (negb b) | a => a end.

  (* tatoeba.py:510-511  __ne__; nodes and the others inherit object.__ne__ *)
  Definition dunder_ne (x y : obj) : answer :=
    match x with
    | Word _ _ => of_try (fun _ => false) (rmap negb (py_eq x y))
    | _ => inverted (dunder_eq x y)
    end.
  (* x != y *)
  Definition py_ne (x y : obj) : res bool := rich (dunder_ne x y) (dunder_ne y x) (right_first x y) (negb (identical x y)).

  (* x in [y1, y2, ...]: each y is compared with x, identity first *)
  Fixpoint py_in (x : obj) (l : list obj) : res bool :=
    match l with
    | [] => Ok false
    | y :: r => if identical y x then Ok true else do b <- py_eq y x; if b then Ok true else py_in x r
    end.

  (* a class that defines __eq__ but no __hash__ gets __hash__ = None *)
  Inductive hash_slot := HashNone | HashIdentity | HashOwn.
  Definition hash_of_class (defines_eq defines_hash : bool) : hash_slot :=
    if defines_hash then HashOwn else if defines_eq then HashNone else HashIdentity.
  (* tatoeba.py:414-511 and tree.py:16-231 define __eq__ and no __hash__ *)
  Definition word_hash := hash_of_class true false.
  Definition node_hash := hash_of_class true false.
  Variable foreign_hashable : F -> bool.
  Definition hashable (x : obj) : bool :=
    match x with
    | Word _ _ => match word_hash with HashNone => false | _ => true end
    | Node _ => match node_hash with HashNone => false | _ => true end
    | Foreign f => foreign_hashable f
    end.
End Compare.
Arguments obj : clear implicits.
