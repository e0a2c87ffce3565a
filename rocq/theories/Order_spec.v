(* Order_spec.v -- dictionaries and trees that are equal but list their entries
   in different orders. *)
From Verif Require Import Base Rose Maps_model Tree_model.
From Coq Require Import Permutation.

(** two values as objects: the same keys, each once, with the same values *)
Definition equal_dicts {K V} `{EqB K} (d e : dict K V) : Prop :=
  NoDup (dkeys d) /\ NoDup (dkeys e) /\ dict_eq d e.
(** both return, with related results, or both raise (the same exception) *)
Definition both {A B} (R : A -> B -> Prop) (x : res A) (y : res B) : Prop :=
  match x, y with Ok a, Ok b => R a b | Raise e, Raise f => e = f | _, _ => False end.
Definition both_or_neither {A B} (R : A -> B -> Prop) (x : res A) (y : res B) : Prop :=
  match x, y with Ok a, Ok b => R a b | Raise _, Raise _ => True | _, _ => False end.
(** the same keys, with related values *)
Definition keyed_alike {K V W} `{EqB K} (R : V -> W -> Prop) (d : dict K V) (e : dict K W) : Prop :=
  forall k, match dget k d, dget k e with Some v, Some w => R v w | None, None => True | _, _ => False end.

(** trees with related nodes, and related children in any order *)
Inductive rsame {A B} (R : A -> B -> Prop) : rose A -> rose B -> Prop :=
| RSame x y ks js js' : R x y -> Permutation js' js -> Forall2 (rsame R) ks js' -> rsame R (Rose x ks) (Rose y js).
(** the same label and equal attributes *)
Definition same_details (x y : str * dict akey value) : Prop := fst x = fst y /\ dict_eq (snd x) (snd y).
(** lists with related items in any order *)
Definition permuted {A B} (R : A -> B -> Prop) (l : list A) (m : list B) : Prop :=
  exists m', Permutation m' m /\ Forall2 R l m'.
