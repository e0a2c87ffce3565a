(* TreeEq_spec.v -- when two trees are equal. *)
From Verif Require Import Base Rose Maps_model Tree_model Tree_spec.

(** the same keys with equal values *)
Definition same_attrib (veq : value -> value -> bool) (d e : dict akey value) : Prop :=
  forall k, match dget k d, dget k e with Some v, Some w => veq v w = true | None, None => True | _, _ => False end.
(** the same label and attributes, and children equal to one another, in any order *)
Inductive alike (veq : value -> value -> bool) (h : list node) : rose addr -> rose addr -> Prop :=
| Alike a ks b js :
    label (at_ h a) = label (at_ h b) -> same_attrib veq (attrib (at_ h a)) (attrib (at_ h b)) ->
    (forall k, In k ks -> exists j, In j js /\ alike veq h k j) ->
    (forall j, In j js -> exists k, In k ks /\ label (at_ h (root k)) = label (at_ h (root j))) ->
    alike veq h (Rose a ks) (Rose b js).
