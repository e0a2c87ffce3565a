(* Threads_spec.v *)
From Verif Require Import Base SmartCache_model SmartCache_spec Threads_model.

(** [method] also recording its invocations and their outcomes *)
Definition recorded {S K V} (method : S -> K -> S * res V) (s : S * list (K * res V)) (k : K) : (S * list (K * res V)) * res V :=
  let '(s', r) := method (fst s) k in ((s', snd s ++ [(k, r)]), r).

(** a thread that has not invoked the method and never will *)
Definition served {O V} (k : list O * list (str * O)) (t : thread O V) : Prop :=
  t = AtTest k \/ t = AtHit k \/ exists v, t = Finished k (Ok v).
