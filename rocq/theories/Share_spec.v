(* Share_spec.v -- who holds which dictionary *)
From Verif Require Import Base Maps_model Tree_model Share_model.

(** every node refers to dictionaries that exist *)
Definition sound (w : world) : Prop :=
  forall a n, nth_error (objs w) a = Some n -> (s_children n < length (kid_dicts w))%nat /\ (s_attrib n < length (att_dicts w))%nat.
(** the nodes of a set share their dictionaries with no other node *)
Definition own_theirs (R : addr -> Prop) (w : world) : Prop :=
  forall a b n m, R a -> a <> b -> nth_error (objs w) a = Some n -> nth_error (objs w) b = Some m ->
    s_children n <> s_children m /\ s_attrib n <> s_attrib m.
Definition owned : world -> Prop := own_theirs (fun _ => True).
(** two nodes with the same dictionary *)
Definition share_kids (w : world) (a b : addr) : Prop :=
  exists n m, nth_error (objs w) a = Some n /\ nth_error (objs w) b = Some m /\ s_children n = s_children m.
Definition share_atts (w : world) (a b : addr) : Prop :=
  exists n m, nth_error (objs w) a = Some n /\ nth_error (objs w) b = Some m /\ s_attrib n = s_attrib m.
(** a node that holds a given dictionary *)
Definition holds_kids (w : world) (a d : addr) : Prop := exists n, nth_error (objs w) a = Some n /\ s_children n = d.
Definition holds_atts (w : world) (a d : addr) : Prop := exists n, nth_error (objs w) a = Some n /\ s_attrib n = d.
(** the world before anything is made *)
Definition nothing : world := {| objs := []; kid_dicts := []; att_dicts := [] |}.
(** keys of a dictionary are unique *)
Definition dicts (w : world) : Prop := forall d, NoDup (dkeys (kid_dict w d)).
(** everything since [w] works on dictionaries of its own: no dictionary of [w]
    changed, and no node made since shares one *)
Definition leaves (w w' : world) : Prop :=
  (forall d, (d < length (kid_dicts w))%nat -> kid_dict w' d = kid_dict w d) /\
  (forall d, (d < length (att_dicts w))%nat -> att_dict w' d = att_dict w d) /\
  (forall a n, (length (objs w) <= a)%nat -> nth_error (objs w') a = Some n ->
     (length (kid_dicts w) <= s_children n)%nat /\ (length (att_dicts w) <= s_attrib n)%nat) /\
  own_theirs (fun a => (length (objs w) <= a)%nat) w'.
