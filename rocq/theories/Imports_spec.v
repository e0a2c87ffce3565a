(* Imports_spec.v -- the names of modules, and when they came and went *)
From Verif Require Import Base Imports_model.

(** the names that executing a module binds *)
Fixpoint bound (s : stmt) : list str :=
  match s with
  | Import x => [hd [] x]
  | From _ _ names => map snd names
  | Try s t => bound s ++ bound t
  | Bind n => [n]
  end.
Definition names (x : list str) : list str := match dget x source with Some body => flat_map bound body | None => [] end.

(** a version (of Python 2.7 or 3) from a release on *)
Definition since (v : version) (a b : Z) : Prop := a < major v \/ (a = major v /\ b <= minor v).
Definition well_numbered (v : version) : Prop := 0 <= minor v /\ 0 <= micro v.

Definition tatoeba : list str := [u "cjktools"; u "resources"; u "tatoeba"].
(** requests for modules of the package, and for everything in one of its two packages *)
Definition known (r : request) : Prop :=
  match r with Module x => exists body, dget x source = Some body | Star x => In x packages end.

(** a module is there, with all its names *)
Definition complete (w : dict (list str) (list str)) (x : list str) : Prop := exists a, dget x w = Some a /\ incl (names x) a.
