(* Alias_spec.v *)
From Verif Require Import Base SmartCache_model Alias_model.

Section Alias.
  Context {O V : Type}.
  Variable oeq : O -> O -> bool.
  Variable hashable : O -> bool.
  Notation key := (list O * list (str * O))%type (only parsing).
  Variable build : key -> res V.

  (** one object per key, up to equality of keys: [now k] are the contents of the
      object of [k], if it has been built; [calls] are the keys called so far *)
  Definition built (now : key -> option V) (k : key) : key -> option V := fun q =>
    match now q with
    | Some v => Some v
    | None => if key_hashable hashable k && key_eq oeq q k then match build k with Ok v => Some v | Raise _ => None end else None
    end.
  Definition changed (now : key -> option V) (k : key) (f : V -> V) : key -> option V := fun q =>
    if key_hashable hashable k && key_eq oeq q k then option_map f (now q) else now q.

  Fixpoint one_each (now : key -> option V) (calls : list key) (h : list (act O V)) : list (res V) :=
    match h with
    | [] => []
    | Call k :: r =>
        (if key_hashable hashable k then match built now k k with Some v => Ok v | None => build k end else Raise TypeError)
        :: one_each (built now k) (calls ++ [k]) r
    | Change n f :: r =>
        one_each (match nth_error calls n with Some k => changed now k f | None => now end) calls r
    end.
End Alias.
