(* Python2_spec.v -- files that both Pythons should read alike *)
From Verif Require Import Base PyText Maps_model Place_model Files_spec Encoding_spec.

(** lines end in a line feed, a carriage return or both, and nothing else ends one *)
Definition regular (t : str) : Prop := Forall (fun c => ~ exotic c) t.
(** a column which the csv module of Python 2 can hold *)
Definition fits (cell : str) : Prop := Z.of_nat (length (encoded cell)) <= 131072.
(** lines end in a line feed, which may follow a carriage return in a file without quotation marks *)
Definition fed_lines (t : str) : Prop :=
  ~ In 13 t \/ ~ In 34 t /\ forall a b, t = a ++ 13 :: b -> exists q, b = 10 :: q.
(** a place whose texts have an encoding *)
Definition written (h : list place) (a : addr) : Prop :=
  Forall scalar (label (at_ h a)) /\ match reading (at_ h a) with Some r => Forall scalar r | None => True end.
