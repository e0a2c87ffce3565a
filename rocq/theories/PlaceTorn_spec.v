(* PlaceTorn_spec.v -- what is left of a tree whose dump is cut short *)
From Verif Require Import Base PyText PyFmt Rose Maps_model Place_model Place_spec.

(** the walk of a tree as a file shows it *)
Definition shown (h : list place) (t : rose addr) : list (Z * (str * option str * option (list str))) :=
  map (fun da => (fst da, details h (snd da))) (pre 0 t).
(** a reading of which only the first [j] characters are there: "None" is read as
    no reading, and what is left of "None" as a reading *)
Definition reading_left (j : nat) (r : option str) : option str :=
  let s := firstn j (show_reading r) in if eqb s (u "None") then None else Some s.
(** the characters before the reading *)
Definition ahead (d : Z) (l : str) : nat := (length (dec d) + 1 + length l + 1)%nat.
Definition line_size (d : Z) (l : str) (r : option str) : nat := (ahead d l + length (show_reading r))%nat.
Definition sizes (ps : list (Z * (str * option str * option (list str)))) : nat :=
  list_sum (map (fun x => S (line_size (fst x) (fst (fst (snd x))) (snd (fst (snd x))))) ps).
(** a file of [k] characters holds [m] lines and [j] > 0 characters of the next *)
Definition falls_in (k m j : nat) (ps : list (Z * (str * option str * option (list str)))) (d : Z) (l : str) (r : option str) : Prop :=
  nth_error ps m = Some (d, (l, r, None)) /\ k = (sizes (firstn m ps) + j)%nat /\ (0 < j <= S (line_size d l r))%nat.
