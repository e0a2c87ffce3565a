(* CountAsk_model.v -- TreeDist.__init__ (/repo/cjktools/resources/tree.py:281-304) with a
   count method that may keep a state of its own, look at the tree, or raise.
   Counts are whole numbers; count methods that change the tree are left out. *)
From Verif Require Import Base Rose Maps_model Tree_model.

Section CountAsk.
  Variable S : Type.                                          (* what the count method keeps *)
  Variable count_method : S -> list node -> addr -> S * res Z.
  (* tree.py:291-296  the body of the first loop *)
  Definition tally_body (h : list node) (s : S) (n : addr) : list node * S * res (option unit) :=
    match count_method s h n with
    | (s, Raise e) => (h, s, Raise e)
    | (s, Ok c) =>
        let h := setitem h n (u "count") (VNum c) in
        match (do own <- get_num h n (u "count"); do ks <- mapM (fun c => get_num h c (u "count")) (dvals (children (at_ h n)));
               Ok (own + fold_left Z.add ks 0)) with
        | Raise e => (h, s, Raise e)
        | Ok z => (setitem h n (u "cum_count") (VNum z), s, Ok None)
        end
    end.
  (* tree.py:281-304  TreeDist.__init__ *)
  Definition dist_ask (fuel : nat) (h : list node) (self : addr) (s : S) : S * res (list node * addr) :=
    match copy fuel h self with
    | Raise e => (s, Raise e)
    | Ok (h, root) =>
        match for_postorder tally_body fuel h s [(root, false)] with
        | (_, s, Raise e) => (s, Raise e)
        | (h, s, Ok _) =>
            match get_num h root (u "cum_count") with
            | Raise e => (s, Raise e)
            | Ok total =>
                match for_preorder (freq_body total) fuel h tt [root] with
                | (_, _, Raise e) => (s, Raise e)
                | (h, _, Ok _) => (s, Ok (h, root))
                end
            end
        end
    end.
End CountAsk.

(* the count method lambda n: f(n) + sum(c['count'] for c in n.children.values()) *)
Definition with_children (f : str * dict akey value -> Z) (s : unit) (h : list node) (a : addr) : unit * res Z :=
  (s, do ks <- mapM (fun c => get_num h c (u "count")) (dvals (children (at_ h a)));
      Ok (f (label (at_ h a), attrib (at_ h a)) + fold_left Z.add ks 0)).
