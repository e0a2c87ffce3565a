(* Links_spec.v -- which group each link, and each sentence, belongs to *)
From Verif Require Import Base Tatoeba_spec.

(** the row that settles the group of a sentence: the last row in which it is
    the translation; without one, the first row in which it occurs *)
Inductive settles (ps : list (Z * Z)) (x : Z) (k : nat) : Prop :=
| Settles_last s : nth_error ps k = Some (s, x) ->
    (forall j p, (k < j)%nat -> nth_error ps j = Some p -> snd p <> x) -> settles ps x k
| Settles_first t : nth_error ps k = Some (x, t) ->
    (forall j p, nth_error ps j = Some p -> snd p <> x) ->
    (forall j p, (j < k)%nat -> nth_error ps j = Some p -> fst p <> x) -> settles ps x k.

(** row [n] founds a group: neither of its sentences occurs above *)
Definition founds (ps : list (Z * Z)) (n : nat) : Prop :=
  exists s t, nth_error ps n = Some (s, t) /\ ~ endpoint (firstn n ps) s /\ ~ endpoint (firstn n ps) t.
(** row [n] is in the group that row [m] founds *)
Inductive row_group (ps : list (Z * Z)) : nat -> nat -> Prop :=
| Row_founds n : founds ps n -> row_group ps n n
| Row_source n s t k m : nth_error ps n = Some (s, t) -> settles (firstn n ps) s k -> row_group ps k m -> row_group ps n m
| Row_translation n s t k m : nth_error ps n = Some (s, t) -> ~ endpoint (firstn n ps) s ->
    settles (firstn n ps) t k -> row_group ps k m -> row_group ps n m.

(** the sentences of the group founded by row [m] *)
Definition in_group (ps : list (Z * Z)) (m : nat) (x : Z) : Prop :=
  exists n p, nth_error ps n = Some p /\ row_group ps n m /\ (fst p = x \/ snd p = x).
(** [fs] lists the founding rows from the top *)
Definition founders (ps : list (Z * Z)) (fs : list nat) : Prop :=
  (forall m, In m fs <-> founds ps m) /\ forall i j a b, nth_error fs i = Some a -> nth_error fs j = Some b -> (i < j)%nat -> (a < b)%nat.
