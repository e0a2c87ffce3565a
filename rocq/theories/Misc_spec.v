(* Misc_spec.v -- where the data directory is looked for *)
From Verif Require Import Base Misc_model.

(** [dir] without the slashes at its end *)
Inductive bare : str -> str -> Prop :=
| Bare_end s : (forall t, s <> t ++ u "/") -> bare s s
| Bare_slash s t : bare s t -> bare (s ++ u "/") t.
(** the home directory: the variable, else the password database *)
Definition home (environ : dict str str) (own_dir : option str) (h : str) : Prop :=
  dget (u "HOME") environ = Some h \/ (dget (u "HOME") environ = None /\ own_dir = Some h).
(** the first default directory *)
Inductive first_default (environ : dict str str) (own_dir : option str) : str -> Prop :=
| Default_home h b : home environ own_dir h -> bare h b -> first_default environ own_dir (b ++ u "/.cjkdata")
| Default_no_home : dget (u "HOME") environ = None -> own_dir = None -> first_default environ own_dir (u "~/.cjkdata").
(** a file in a directory *)
Inductive inside (dir name : str) : str -> Prop :=
| Inside_plain : dir <> [] -> (forall t, dir <> t ++ u "/") -> inside dir name (dir ++ u "/" ++ name)
| Inside_slash t : dir = t ++ u "/" -> inside dir name (dir ++ name)
| Inside_empty : dir = [] -> inside dir name name.
