(* PruneAsk_spec.v -- asking a predicate about the nodes of a tree, from the leaves up *)
From Verif Require Import Base Rose Maps_model Tree_model Tree_spec.

(** the nodes from the top down to a node, following parents *)
Inductive chain (h : list node) : addr -> list addr -> Prop :=
| Chain_top a : parent (at_ h a) = None -> chain h a [a]
| Chain_up a p l : parent (at_ h a) = Some p -> chain h p l -> chain h a (l ++ [a]).

Section Asked.
  Variables S A : Type.
  Variable pred : S -> list A -> S * res bool.          (* asked of the nodes from the top down to one *)
  (** what is left of a tree that stands below [up], last children first; a node is
      asked about only if none of its children is left *)
  Fixpoint asked (up : list A) (t : rose A) (s : S) : S * res (option (rose A)) :=
    match t with
    | Rose x ks =>
        match fold_right (fun k acc => match acc with
                                       | (s, Ok l) => match asked (up ++ [x]) k s with
                                                      | (s, Ok o) => (s, Ok (match o with Some t => t :: l | None => l end))
                                                      | (s, Raise e) => (s, Raise e)
                                                      end
                                       | (s, Raise e) => (s, Raise e)
                                       end) (s, Ok []) ks with
        | (s, Raise e) => (s, Raise e)
        | (s, Ok []) => match pred s (up ++ [x]) with
                        | (s, Ok b) => (s, Ok (if b then Some (Rose x []) else None))
                        | (s, Raise e) => (s, Raise e)
                        end
        | (s, Ok l) => (s, Ok (Some (Rose x l)))
        end
    end.
  (** and the top, if nothing is left below it, is asked about again: the second answer counts *)
  Definition asked_twice (t : rose A) (s : S) : S * res (option (rose A)) :=
    match asked [] t s with
    | (s, Raise e) => (s, Raise e)
    | (s, Ok (Some (Rose x (k :: ks)))) => (s, Ok (Some (Rose x (k :: ks))))
    | (s, Ok _) => match pred s [root t] with
                   | (s, Ok b) => (s, Ok (if b then Some (Rose (root t) []) else None))
                   | (s, Raise e) => (s, Raise e)
                   end
    end.
End Asked.
(** every node with the nodes from the top down to it *)
Fixpoint pathed {A} (up : list A) (t : rose A) : rose (list A) :=
  match t with Rose x ks => Rose (up ++ [x]) (map (pathed (up ++ [x])) ks) end.
(** the nodes none of whose descendants [b] holds of, last children first, children
    before parents *)
Fixpoint bare {A} (b : A -> bool) (t : rose A) : list A :=
  match t with Rose x ks => fold_right (fun k l => l ++ bare b k) [] ks ++ if existsb (viable b) ks then [] else [x] end.
(** asking a list of questions until an answer is an exception *)
Section AskAll.
  Context {S X : Type}.
  Variable g : S -> X -> S.
  Variable ans : X -> res bool.
  Fixpoint ask_all (l : list X) (s : S) : S * option exn :=
    match l with
    | [] => (s, None)
    | x :: l => match ans x with Raise e => (g s x, Some e) | Ok _ => ask_all l (g s x) end
    end.
End AskAll.
Definition answered {X} (ans : X -> res bool) (x : X) : bool := match ans x with Ok b => b | Raise _ => false end.
(** a node with everything below it *)
Inductive subtree {A} : rose A -> rose A -> Prop :=
| Sub_here t : subtree t t
| Sub_down x ks k t : In k ks -> subtree k t -> subtree (Rose x ks) t.
