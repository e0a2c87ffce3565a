(* WildTable_spec.v -- reading characters one after the other *)
From Verif Require Import Base.

(** how a character without a row, or with one, is read: the first reading of its row *)
Definition read_as (table : dict str (list str)) (c : char) : option str :=
  match dget [c] table with Some rs => hd_error rs | None => Some [c] end.
(** one after the other, the first failure ends it *)
Inductive one_by_one {A} (f : A -> res str) : list A -> res str -> Prop :=
| One_end : one_by_one f [] (Ok [])
| One_more x l o r : f x = Ok o -> one_by_one f l (Ok r) -> one_by_one f (x :: l) (Ok (o ++ r))
| One_later x l o e : f x = Ok o -> one_by_one f l (Raise e) -> one_by_one f (x :: l) (Raise e)
| One_fails x l e : f x = Raise e -> one_by_one f (x :: l) (Raise e).
