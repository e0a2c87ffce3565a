(* Layout_spec.v -- the drawing of a tree *)
From Verif Require Import Base Rose.

(** a child's drawing, indented *)
Definition block (first rest : str) (ls : list str) : list str :=
  match ls with [] => [] | l :: ls => (first ++ l) :: map (app rest) ls end.
Fixpoint blocks (bs : list (list str)) : list str :=
  match bs with
  | [] => []
  | [b] => block (u "└─ ") (u "   ") b
  | b :: bs => block (u "├─ ") (u "│  ") b ++ blocks bs
  end.
Fixpoint draw (t : rose str) : list str := match t with Rose x ks => x :: blocks (map draw ks) end.
Fixpoint height {A} (t : rose A) : nat := match t with Rose _ ks => S (list_max (map height ks)) end.
