(* Tree_spec.v -- trees of linked nodes, and what the operations should give *)
From Verif Require Import Base Rose Maps_model Tree_model.

(** the tree below a node, following the children's dictionaries in order *)
Inductive tree_at (h : list node) : rose addr -> Prop :=
| Tree_at a ks : map root ks = dvals (children (at_ h a)) -> Forall (tree_at h) ks -> tree_at h (Rose a ks).
(** b is d levels below a *)
Inductive reach (h : list node) (a : addr) : Z -> addr -> Prop :=
| Reach_root : reach h a 0 a
| Reach_kid d b c : reach h a d b -> In c (dvals (children (at_ h b))) -> reach h a (d + 1) c.
(** a tree whose nodes are filed under their own labels and know their parents *)
Inductive linked (h : list node) : option addr -> rose addr -> Prop :=
| Linked par a ks : parent (at_ h a) = par -> NoDup (dkeys (children (at_ h a))) ->
    children (at_ h a) = map (fun k => (label (at_ h (root k)), root k)) ks ->
    Forall (linked h (Some a)) ks -> linked h par (Rose a ks).

(** a tree whose nodes exist and are filed under their own labels *)
Inductive keyed (h : list node) : rose addr -> Prop :=
| Keyed a ks : (a < length h)%nat -> NoDup (dkeys (children (at_ h a))) ->
    children (at_ h a) = map (fun k => (label (at_ h (root k)), root k)) ks ->
    Forall (keyed h) ks -> keyed h (Rose a ks).

(** parents before children *)
Definition parents_first (h : list node) (l : list addr) : Prop :=
  forall a c, In a l -> In c (dvals (children (at_ h a))) -> exists x y z, l = x ++ a :: y ++ c :: z.
Definition children_first (h : list node) (l : list addr) : Prop :=
  forall a c, In a l -> In c (dvals (children (at_ h a))) -> exists x y z, l = x ++ c :: y ++ a :: z.

(** the stores that can be built *)
Inductive built : list node -> Prop :=
| Built_nil : built []
| Built_new h l d : built h -> built (h ++ [{| label := l; children := []; attrib := d; parent := None |}])
| Built_add h p c : built h -> (p < length h)%nat -> (c < length h)%nat ->
    parent (at_ h c) = None -> ~ In (label (at_ h c)) (dkeys (children (at_ h p))) -> built (add_child h p c)
| Built_unlink h c h' r : built h -> (c < length h)%nat -> unlink h c = (h', r) -> built h'.
Definition consistent (h : list node) : Prop :=
  forall p c, parent (at_ h c) = Some p <-> dget (label (at_ h c)) (children (at_ h p)) = Some c.

(** following labels *)
Inductive path_to (h : list node) : addr -> list str -> addr -> Prop :=
| Path_nil a : path_to h a [] a
| Path_cons a k c p b : dget k (children (at_ h a)) = Some c -> path_to h c p b -> path_to h a (k :: p) b.
(** the nodes from the root of a tree down to one of its nodes *)
Inductive branch {A} : rose A -> list A -> Prop :=
| Branch_end t : branch t [root t]
| Branch_down x ks k l : In k ks -> branch k l -> branch (Rose x ks) (x :: l).

(** the same labels, attributes and order of children *)
Definition details (h : list node) (a : addr) := (label (at_ h a), attrib (at_ h a)).

(** the part of a tree that leads to nodes of which [p] holds *)
Definition viable {A} (p : A -> bool) (t : rose A) : bool := existsb p (nodes t).
Fixpoint keep {A} (p : A -> bool) (t : rose A) : rose A :=
  match t with Rose x ks => Rose x (flat_map (fun k => if viable p k then [keep p k] else []) ks) end.

(** counts: a node's own, with its children's, and over its whole subtree *)
Section Counts.
  Variable cm : str -> dict akey value -> nat -> Z.
  Definition sumZ (l : list Z) : Z := fold_right Z.add 0 l.
  Definition own (t : rose (str * dict akey value)) : Z := cm (fst (root t)) (snd (root t)) (length (branches t)).
  Definition cum (t : rose (str * dict akey value)) : Z := own t + sumZ (map own (branches t)).
  Fixpoint whole (t : rose (str * dict akey value)) : Z :=
    match t with Rose x ks => cm (fst x) (snd x) (length ks) + sumZ (map whole ks) end.
  Definition noted (total : Z) (t : rose (str * dict akey value)) : str * dict akey value :=
    (fst (root t), dset (KStr (u "freq")) (VQuot (cum t) total) (dset (KStr (u "cum_count")) (VNum (cum t)) (dset (KStr (u "count")) (VNum (own t)) (snd (root t))))).
  Fixpoint annotated (total : Z) (t : rose (str * dict akey value)) : rose (str * dict akey value) :=
    match t with Rose x ks => Rose (noted total (Rose x ks)) (map (annotated total) ks) end.
End Counts.
