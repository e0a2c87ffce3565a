(* Objects_spec.v -- what the theorems on attributes speak of *)
From Verif Require Import Base PyText.

(** nothing of the name [name] among [d] *)
Definition lacks {V} (d : dict str V) (name : str) : Prop := forall v, ~ In (name, v) d.
(** texts have no such attribute *)
Definition text_lacks {V} (getattr : V -> str -> res V) (text : str -> V) (name : str) : Prop :=
  forall s, getattr (text s) name = Raise AttributeError.
