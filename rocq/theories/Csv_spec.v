(* Csv_spec.v -- how a row is written in one line *)
From Verif Require Import Base PyText.

Definition plain_char (c : char) : Prop := c <> 9 /\ c <> 10 /\ c <> 13 /\ c <> 0.
Definition short (v : str) : Prop := Z.of_nat (length v) <= 131072.
(** quotes doubled *)
Definition doubled (v : str) : str := flat_map (fun c => if c =? u1 """" then [c; c] else [c]) v.
(** [cell text value]: how a field can be written *)
Inductive cell : str -> str -> Prop :=
| Cell_plain v : Forall plain_char v -> hd 0 v <> u1 """" -> short v -> cell v v
| Cell_quoted v t : Forall (fun c => c <> 0) v -> Forall plain_char t -> hd 0 t <> u1 """" -> short (v ++ t) ->
    cell (u """" ++ doubled v ++ u """" ++ t) (v ++ t).
(** a line: its cells joined by tabs, and the line end, if any *)
Inductive row_line : str -> list str -> Prop :=
| Row_line cells row e : Forall2 cell cells row -> cells <> [] -> cells <> [[]] -> Forall (fun c => c = 10 \/ c = 13) e ->
    row_line (join [9] cells ++ e) row.
(** fields without tabs or line breaks, as in the claim *)
Definition claim_field (v : str) : Prop := Forall (fun c => c <> 9 /\ c <> 10 /\ c <> 13) v.
Definition text_field (v : str) : Prop := Forall plain_char v /\ hd 0 v <> u1 """" /\ short v.
Definition line_of (row : list str) : str := join [9] row ++ [10].
