(* TreeEdit_spec.v -- what a loop over a tree does when its body changes the tree *)
From Verif Require Import Base Rose Maps_model.
From Verif Require Tree_model Place_model.

(** the visits of a walk over a finite tree, parents first: the depth, the node,
    and the nodes below it in the order they are visited *)
Fixpoint visits (d : Z) (t : rose addr) : list (Z * addr * list addr) :=
  match t with Rose x ks => (d, x, map root ks) :: flat_map (visits (d + 1)) ks end.
Definition who (v : Z * addr * list addr) : addr := snd (fst v).

(** what remains of a list when some of its elements are dropped *)
Inductive thinned {A} : list A -> list A -> Prop :=
| Thin_nil : thinned [] []
| Thin_keep x l l' : thinned l l' -> thinned (x :: l) (x :: l')
| Thin_drop x l l' : thinned l l' -> thinned l (x :: l').

Section Tree.
  Import Tree_model.
  Definition below (h : list node) (a : addr) : list addr := dvals (children (at_ h a)).
  (** a body that also notes each visit with what is below the node afterwards,
      from the last child to the first *)
  Definition logged {S A} (body : list node -> S -> addr -> list node * S * res (option A))
      (h : list node) (s : S * list (addr * list addr)) (n : addr) : list node * (S * list (addr * list addr)) * res (option A) :=
    let '(h', s', r) := body h (fst s) n in (h', (s', snd s ++ [(n, rev (below h' n))]), r).
  (** "for n in tree.walk(): seen.append(n); n.unlink()" *)
  Definition unlinking (h : list node) (seen : list addr) (n : addr) : list node * list addr * res (option unit) :=
    let '(h', r) := unlink h n in (h', seen ++ [n], rmap (fun _ => None) r).
End Tree.
Section Place.
  Import Place_model.
  Definition inside (h : list place) (a : addr) : list addr := dvals (kids (at_ h a)).
  Definition logged_place {S A} (body : list place -> S -> Z -> addr -> list place * S * res (option A))
      (h : list place) (s : S * list (Z * addr * list addr)) (d : Z) (n : addr) : list place * (S * list (Z * addr * list addr)) * res (option A) :=
    let '(h', s', r) := body h (fst s) d n in (h', (s', snd s ++ [(d, n, inside h' n)]), r).
  Definition logged_path {S A} (body : list place -> S -> str -> addr -> list place * S * res (option A))
      (h : list place) (s : S * list (str * addr * list addr)) (p : str) (n : addr) : list place * (S * list (str * addr * list addr)) * res (option A) :=
    let '(h', s', r) := body h (fst s) p n in (h', (s', snd s ++ [(p, n, inside h' n)]), r).
End Place.
