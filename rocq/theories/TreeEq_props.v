(* TreeEq_props.v -- C96. *)
From Verif Require Import Base PyStr Rose Maps_model Tree_model Tree_spec Tree_proofs TreeEq_spec TreeEq_proofs.

(** [veq] is == of attribute values; a dictionary takes a value to equal itself.
    C96: two trees compare equal exactly when they have the same labels,
    attributes and children, whatever the order of the children *)
Theorem C96_equal veq h t t' fuel : (forall v, veq v v = true) -> keyed h t -> keyed h t' ->
  (forall a, In a (nodes t) \/ In a (nodes t') -> NoDup (dkeys (attrib (at_ h a)))) -> (rsize t < fuel)%nat ->
  exists e, node_eq veq fuel h (root t) (root t') = Ok e /\ (e = true <-> alike veq h t t').
Proof. exact (fun R => node_eq_alike veq R fuel h t t'). Qed.
Print Assumptions C96_equal.
Theorem C96_equivalence veq h :
  (forall v, veq v v = true) -> (forall v w, veq v w = true -> veq w v = true) ->
  (forall u v w, veq u v = true -> veq v w = true -> veq u w = true) ->
  (forall t, alike veq h t t) /\
  (forall t t', keyed h t -> keyed h t' -> alike veq h t t' -> alike veq h t' t) /\
  (forall t t' t'', alike veq h t t' -> alike veq h t' t'' -> alike veq h t t'').
Proof. exact (fun R S T => conj (alike_refl veq R h) (conj (fun t => alike_sym veq h t S) (fun t => alike_trans veq h t T))). Qed.
Print Assumptions C96_equivalence.

(* a tree, one with its children added in the other order, and one with an attribute changed *)
Definition mk (l : str) (z : Z) : node := {| label := l; children := []; attrib := [(KStr (u "n"), VNum z)]; parent := None |}.
Definition h1 : list node :=
  add_child (add_child (add_child (add_child (add_child (add_child
    [mk (u "a") 1; mk (u "b") 2; mk (u "c") 3; mk (u "a") 1; mk (u "b") 2; mk (u "c") 3; mk (u "a") 1; mk (u "b") 2; mk (u "c") 4] 0 1) 0 2) 3 5) 3 4) 6 7) 6 8.
Ltac nodup := apply nodupb_NoDup; vm_compute; reflexivity.
Ltac tree := first [apply Forall_nil | apply Forall_cons; tree | apply Keyed; [vm_compute; lia|nodup|reflexivity|tree]].
Example C96_case : keyed h1 (Rose 0 [Rose 1 []; Rose 2 []])%nat /\ keyed h1 (Rose 3 [Rose 5 []; Rose 4 []])%nat /\ keyed h1 (Rose 6 [Rose 7 []; Rose 8 []])%nat /\
  node_eq value_eqb 9 h1 0 3 = Ok true /\ node_eq value_eqb 9 h1 0 6 = Ok false.
Proof. split; [tree|]; split; [tree|]; split; [tree|]; split; vm_compute; reflexivity. Qed.
