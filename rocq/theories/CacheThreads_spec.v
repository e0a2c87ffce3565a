(* CacheThreads_spec.v -- what threads sharing a cached object can rely on *)
From Verif Require Import Base CacheThreads_model.

(** [build] also recording its calls: by which thread, and with what outcome *)
Definition recorded {A S} (build : nat -> S -> S * res A) (i : nat) (s : S * list (nat * res A)) : (S * list (nat * res A)) * res A :=
  let '(s', r) := build i (fst s) in ((s', snd s ++ [(i, r)]), r).
Definition log_of {A S} (w : world A (S * list (nat * res A))) : list (nat * res A) := snd (state w).
(** the contents of the objects made, in order *)
Definition objects {A} (log : list (nat * res A)) : list A := flat_map (fun e => match snd e with Ok a => [a] | Raise _ => [] end) log.
(** how often thread [i] called the constructor *)
Definition calls_of {A} (i : nat) (log : list (nat * res A)) : nat := length (filter (fun e => Nat.eqb (fst e) i) log).

(** no call is under way *)
Definition idle {A} (t : thread A) : Prop := t = AtStart \/ exists r, t = Done r.
(** the answer of a call that found [x]: the eager functions fail when the constructor does *)
Definition answered {A} (how : kind) (x : obj A) (r : res (obj A)) : Prop := r = Ok x \/ (how <> Lazy /\ exists e, r = Raise e).
