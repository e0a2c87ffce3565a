(* ClassCache_spec.v -- method resolution orders, and what a history of calls has answered *)
From Verif Require Import Base ClassCache_model.

Section Spec.
  Context {C A : Type} {EC : EqB C}.
  Variable mro : C -> list C.
  Variable lazy : C -> bool.
  Variable kana : C.
  Variable table : A.
  Notation answer := (answer mro lazy kana table).

  (** a class comes first in its own order, which holds the orders of all the classes in it *)
  Definition orders : Prop := forall c, hd_error (mro c) = Some c /\ NoDup (mro c) /\ forall d, In d (mro c) -> incl (mro d) (mro c).
  (** get_cached is that of KanaTable only below KanaTable *)
  Definition kana_below : Prop := forall c, lazy c = true -> In kana (mro c).

  (** some call on c has answered x *)
  Definition got (h : list (C * res A)) (c : C) (x : inst C A) : Prop :=
    exists b r a, h = b ++ (c, r) :: a /\ answer b c r = Ok x.
  Definition asked (h : list (C * res A)) (c : C) : Prop := exists x, got h c x.
  (** ... c being the first such class in a list *)
  Inductive nearest (h : list (C * res A)) : list C -> inst C A -> Prop :=
  | Near_here c l x : got h c x -> nearest h (c :: l) x
  | Near_next c l x : ~ asked h c -> nearest h l x -> nearest h (c :: l) x.
  (** the proper bases of a class *)
  Definition bases (c : C) : list C := tl (mro c).
End Spec.
(** single inheritance: the order of a base is the rest of the order *)
Definition single {C} (mro : C -> list C) : Prop := forall c d, In d (mro c) -> exists l, mro c = l ++ mro d.
