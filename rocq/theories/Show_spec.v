(* Show_spec.v -- what the display texts show *)
From Verif Require Import Base PyText Maps_model Radk_model.
From Coq Require Import Permutation Sorted.

(** an empty reading is shown like no reading at all *)
Definition shown_reading (r : option str) : option str := match r with Some [] => None | r => r end.

(** dictionary order of strings, character by character *)
Fixpoint str_le (a b : str) : Prop :=
  match a, b with
  | [], _ => True
  | _ :: _, [] => False
  | x :: a, y :: b => x < y \/ (x = y /\ str_le a b)
  end.

(** the line printed for the kanji [k]: its radicals, each once per listing, in dictionary order *)
Definition radicals_printed (d : radkdict) (k line : str) : Prop :=
  exists c rs rs', k = [c] /\ dget c (items d) = Some (map Some rs) /\ Permutation rs rs' /\ StronglySorted str_le rs' /\ line = k ++ u ":  " ++ join (u " ") rs'.
