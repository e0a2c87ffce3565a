(* Patterns_spec.v -- what it means that a pattern text stands for a regular
   expression of the model. *)
From Verif Require Import Base Regex RegexSyntax RegexSem.

(** numbered groups are kept under one-element keys; [named] asks for the
    groups with names only, [all] for all of them *)
Definition named (n : list Z) : bool := negb (length n =? 1)%nat.
Definition all (n : list Z) : bool := true.
Definition key (n : nat) : list Z := [Z.of_nat n].
(** the matches found are the same text spans, with the same contents in the
    groups named in [keep] *)
Definition same_result (keep : list Z -> bool) (s t : pos) : Prop :=
  before s = before t /\ rest s = rest t /\ forall n, keep n = true -> group n s = group n t.
(** [text], read as Python syntax, is the tree [t] and no other, and matching
    with [t] gives what matching with [r] gives, at the start of any text and
    in a scan over any text *)
Definition stands_for (isd : Z -> bool) (number : nat -> list Z) (keep : list Z -> bool) (text : list Z) (r : re) : Prop :=
  exists t, (ok t = true /\ show t = text) /\
  (forall t', ok t' = true -> show t' = text -> t' = t) /\
  (forall l, match match_ (compile isd number t) l, match_ r l with
             | Some a, Some b => same_result keep a b
             | None, None => True
             | _, _ => False
             end) /\
  (forall l, Forall2 (fun a b => fst a = fst b /\ same_result keep (snd a) (snd b)) (finditer (compile isd number t) l) (finditer r l)).
