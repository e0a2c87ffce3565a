(* Compare_spec.v *)
From Verif Require Import Base Tanaka_model Tanaka_spec Compare_model.

(** comparing field after field: the first one that is not equal decides *)
Inductive decides {A} (outcome : A -> res bool) : list A -> res bool -> Prop :=
| dec_all l : Forall (fun x => outcome x = Ok true) l -> decides outcome l (Ok true)
| dec_at l x m r : Forall (fun x => outcome x = Ok true) l -> outcome x = r -> r <> Ok true -> decides outcome (l ++ x :: m) r.

Definition word_fields : list field := [Fheadword; Fsense; Fexample; Freading; Fdisplay].
Definition node_fields : list field := [Flabel; Fattrib; Fchildren].

(** what the other object's own comparison makes of it *)
Definition left_to_other (a : answer) : res bool :=
  match a with Says b => Ok b | NotImpl => Ok false | Throws e => Raise e end.
