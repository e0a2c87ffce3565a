(* RepoTests_tree.v -- test_tree.py of
   /repo/cjktools/tests/resources run on the model: checks on single inputs; no
   property rests on them. *)
From Verif Require Import Base Maps_model Tree_model RepoTests_core.

Definition leaf (s : str) : node := {| label := s; children := []; attrib := []; parent := None |}.
(* test_tree.py:21-25  setUp: the nodes 0, 1, 2 *)
Definition fruit : list node := add_child (add_child [leaf (u "fruit"); leaf (u "lemon"); leaf (u "strawberry")] 0 1) 0 2.
(* test_tree.py:27-43.  Skipped by the authors on Python 3.  With dictionaries in
   insertion order both walks give the children from the last to the first, and
   the tests would fail, as here *)
Example test_walk :
  walk_preorder 10 fruit 0 = Ok [0; 2; 1]%nat /\ walk_postorder 10 fruit 0 = Ok [2; 1; 0]%nat.
Proof. vm_compute; split; reflexivity. Qed.
(* test_tree.py:45-49 *)
Example test_prune :
  let no_y h n := negb (mem (u1 "y") (label (at_ h n))) in
  (do c <- copy 10 fruit 0; let (h, c) := c in
   do p <- prune no_y 10 h c; let (h, x) := p in
   match x with
   | None => Ok false
   | Some x =>
       match dvals (children (at_ h x)) with
       | [k] => do e <- node_eq value_eqb 10 h k 1; Ok (eqb (label (at_ h x)) (u "fruit") && e)
       | _ => Ok false
       end
   end) = Ok true.
Proof. vm_compute; reflexivity. Qed.
