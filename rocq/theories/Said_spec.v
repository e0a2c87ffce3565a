(* Said_spec.v -- when the remaining exceptions should be raised, and their texts *)
From Verif Require Import Base PyText Rose Maps_model Place_model Place_spec Tree_model Misc_spec Said_model.

(** no place of the tree has this label *)
Definition unknown_label (h : list place) (t : rose addr) (l : str) : Prop :=
  forall a, In a (nodes t) -> Place_model.label (Place_model.at_ h a) <> l.
(** a label that is not a text *)
Definition not_text (a : arg) : Prop := forall s, a <> Text s.
(** details without a space *)
Definition spaceless (label : str) (reading : option str) (aliases : option (list str)) : Prop :=
  ~ In 32 label /\ (forall r, reading = Some r -> ~ In 32 r) /\ (forall l x, aliases = Some l -> In x l -> ~ In 32 x).
(** a node below another that has children *)
Definition below_something (h : list node) (a : addr) : Prop :=
  exists p, parent (Tree_model.at_ h a) = Some p /\ children (Tree_model.at_ h p) <> [].
(** nowhere to find the data pack *)
Definition no_pack (environ : dict str str) (own : option str) (isdir : str -> bool) : Prop :=
  ~ In (u "CJKDATA") (dkeys environ) /\ isdir (u "/usr/share/data/cjkdata") = false /\ isdir (u "/usr/local/share/data/cjkdata") = false /\
  forall d, first_default environ own d -> isdir d = false.
