(* Overflow_model.v -- a tree distribution built of counts of any size: float() of
   the total, and the quotients, of which both operands become floats
   (/repo/cjktools/resources/tree.py:281-304; float.__truediv__ converts first and
   then looks for a zero).  Tree_model.v keeps the quotient as its operands and
   converts nothing; the doubles themselves are in Float_model.v. *)
From Verif Require Import Base Maps_model Tree_model Float_model.

(* tree.py:301-302  one node of the second pass *)
Definition freq_float (total : Z) (h : list node) (s : unit) (n : addr) : list node * unit * res (option unit) :=
  match get_num h n (u "cum_count") with
  | Raise e => (h, s, Raise e)
  | Ok z =>
      match float_of (Z.abs z) with
      | None => (h, s, Raise OverflowError)
      | Some _ => if total =? 0 then (h, s, Raise ZeroDivisionError) else (setitem h n (u "freq") (VQuot z total), s, Ok None)
      end
  end.
(* tree.py:281-304  TreeDist.__init__ *)
Definition tree_dist_float (count_method : node -> res Z) (fuel : nat) (h : list node) (self : addr) : res (list node * addr) :=
  do r <- copy fuel h self;
  let '(h, root) := r in
  match for_postorder (count_body count_method) fuel h tt [(root, false)] with
  | (h, _, Raise e) => Raise e
  | (h, _, Ok _) =>
      do total <- get_num h root (u "cum_count");
      do _ <- of_option OverflowError (float_of (Z.abs total));     (* tree.py:300 *)
      match for_preorder (freq_float total) fuel h tt [root] with
      | (h, _, Raise e) => Raise e
      | (h, _, Ok _) => Ok (h, root)
      end
  end.
