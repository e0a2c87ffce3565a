(* PruneAsk_model.v -- TreeNode.prune (/repo/cjktools/resources/tree.py:148-165) with a
   predicate that may keep a state of its own, look at the whole tree, or raise.
   Predicates that change the tree are left out. *)
From Verif Require Import Base Rose Maps_model Tree_model.

Section PruneAsk.
  Variable S : Type.                                          (* what the predicate keeps *)
  Variable predicate : S -> list node -> addr -> S * res bool.
  (* tree.py:156-160  the body of the loop *)
  Definition ask_body (h : list node) (s : S) (n : addr) : list node * S * res (option unit) :=
    if truth h n then (h, s, Ok None)
    else match predicate s h n with
         | (s, Ok true) => (h, s, Ok None)
         | (s, Ok false) => match unlink h n with (h, Ok _) => (h, s, Ok None) | (h, Raise e) => (h, s, Raise e) end
         | (s, Raise e) => (h, s, Raise e)
         end.
  (* tree.py:148-165  prune *)
  Definition prune_ask (fuel : nat) (h : list node) (self : addr) (s : S) : S * res (list node * option addr) :=
    match copy fuel h self with
    | Raise e => (s, Raise e)
    | Ok (h, new_tree) =>
        match for_postorder ask_body fuel h s [(new_tree, false)] with
        | (_, s, Raise e) => (s, Raise e)
        | (h, s, Ok _) =>
            if truth h new_tree then (s, Ok (h, Some new_tree))
            else match predicate s h new_tree with
                 | (s, Ok b) => (s, Ok (h, if b then Some new_tree else None))
                 | (s, Raise e) => (s, Raise e)
                 end
        end
    end.
End PruneAsk.
