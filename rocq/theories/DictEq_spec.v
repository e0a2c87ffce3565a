(* DictEq_spec.v -- the places under a place *)
From Verif Require Import Base Rose Maps_model Place_model Place_spec.

(** the same labels in a row lead somewhere from both *)
Definition same_paths (h : list place) (a b : addr) : Prop := forall p, (exists c, path_to h a p c) <-> (exists d, path_to h b p d).
Fixpoint levels (t : rose addr) : nat := match t with Rose _ ks => S (list_max (map levels ks)) end.
(** lookups answer alike *)
Definition answer_alike {V} (veq : V -> V -> bool) (x y : option V) : Prop :=
  match x, y with Some v, Some w => veq v w = true | None, None => True | _, _ => False end.
