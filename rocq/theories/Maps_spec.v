(* Maps_spec.v -- specification vocabulary for maps.py *)
From Verif Require Import Base Maps_model.

(** [calls f s xs bs s']: calling [f] once on each of [xs], in order, starting
    in state [s], returns [bs] and ends in state [s']. *)
Inductive calls {S A B} (f : S -> A -> S * res B) : S -> list A -> list B -> S -> Prop :=
| calls_nil s : calls f s [] [] s
| calls_cons s x s1 b xs bs s2 :
    f s x = (s1, Ok b) -> calls f s1 xs bs s2 -> calls f s (x :: xs) (b :: bs) s2.

(** [first_raise f s xs pre bs e s']: the calls on the prefix [pre] returned
    [bs], the call on the next item raised [e] and ended in [s']; no later
    item was processed. *)
Definition first_raise {S A B} (f : S -> A -> S * res B) (s : S) (xs pre : list A) (bs : list B) (e : exn) (s' : S) : Prop :=
  exists x post s1, xs = pre ++ x :: post /\ calls f s pre bs s1 /\ f s1 x = (s', Raise e).

(** distinct elements in order of first occurrence *)
Fixpoint firsts {A} `{EqB A} (l : list A) : list A :=
  match l with [] => [] | x :: r => x :: filter (fun y => negb (eqb x y)) (firsts r) end.

(** all values paired with [k], in order *)
Definition values_for {K V} `{EqB K} (k : K) (l : list (K * V)) : list V :=
  map snd (filter (fun kv => eqb k (fst kv)) l).

(** successive lookups *)
Fixpoint follow {V} `{EqB V} (ds : list (dict V V)) (v : V) : option V :=
  match ds with [] => Some v | d :: r => match dget v d with Some w => follow r w | None => None end end.
