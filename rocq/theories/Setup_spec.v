(* Setup_spec.v -- what running setup.py should do *)
From Verif Require Import Base LoadRst_model LoadRst_spec Imports_model Setup_model.

(** the versions setuptools_scm makes: those of PEP 440, written with letters, digits and . + ! - _ *)
Definition version_char (c : Z) : Prop :=
  48 <= c <= 57 \/ 65 <= c <= 90 \/ 97 <= c <= 122 \/ c = 46 \/ c = 43 \/ c = 33 \/ c = 45 \/ c = 95.
(** a text that can stand between double quotes as it is *)
Definition quotable (s : str) : Prop := forall c, In c s -> c <> 34 /\ c <> 92 /\ c <> 10 /\ c <> 13 /\ c <> 0.

(** setuptools_scm is not there, or gives up with ImportError *)
Definition no_scm (scm : option (res str)) : Prop := scm = None \/ scm = Some (Raise ImportError).

(** the modules a statement imports, seen from module [m] *)
Definition home (m : list (list Z)) (package : bool) : list (list Z) := if package then m else removelast m.
Fixpoint asks (m : list (list Z)) (s : stmt) : list (list (list Z)) :=
  match s with
  | Import x => [x]
  | From 0 x _ => [x]
  | From (S k) x _ => [firstn (length (home m (mem m packages)) - k) (home m (mem m packages)) ++ x]
  | Try a b => asks m a ++ asks m b
  | Bind _ => []
  end.
(** a module is installed when it is one of the listed packages or a file in one *)
Definition installed (l : list (list (list Z))) (m : list (list Z)) : Prop := In m l \/ In (removelast m) l.
