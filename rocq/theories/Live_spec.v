(* Live_spec.v -- what becomes of a list or dictionary changed by the method *)
From Verif Require Import Base Maps_model Live_model.

(** a method that may change the list, as one whose state includes the list *)
Definition on_list {S A B} (f : S -> list A -> A -> S * list A * res B) (sl : S * list A) (x : A) : (S * list A) * res B :=
  let '(s', l', r) := f (fst sl) (snd sl) x in ((s', l'), r).

(** every other item, starting with the first or the second *)
Fixpoint evens {A} (l : list A) : list A := match l with x :: _ :: r => x :: evens r | _ => l end.
Fixpoint odds {A} (l : list A) : list A := match l with _ :: y :: r => y :: odds r | _ => [] end.
(** l.remove(x) *)
Fixpoint remove_first {A} `{EqB A} (x : A) (l : list A) : list A :=
  match l with [] => [] | y :: r => if eqb x y then r else y :: remove_first x r end.

(** the keys of a table, slot by slot *)
Definition slot_keys {K W} (d : list (option (K * W))) : list (option K) := map (option_map fst) d.

Section Steps.
  Context {K W S : Type} `{EqB K}.
  Variable f : S -> list (option (K * W)) -> W -> S * list (option (K * W)) * res W.
  (** one key: the method is given the value the key has now *)
  Definition step_in_place (grows : list (option (K * W)) -> bool) (sd : S * list (option (K * W))) (k : K) : (S * list (option (K * W))) * res W :=
    match dget k (entries (snd sd)) with
    | None => (sd, Raise KeyError)
    | Some v => match f (fst sd) (snd sd) v with
                | (s', d', Ok w) => ((s', store grows k w d'), Ok w)
                | (s', d', Raise e) => ((s', d'), Raise e)
                end
    end.
  Definition step_copy (sd : S * list (option (K * W))) (k : K) : (S * list (option (K * W))) * res W :=
    match dget k (entries (snd sd)) with
    | None => (sd, Raise KeyError)
    | Some v => let '(s', d', r) := f (fst sd) (snd sd) v in ((s', d'), r)
    end.
  (** the same method, noting what it is called with *)
  Definition logged (sl : S * list W) (d : list (option (K * W))) (v : W) : (S * list W) * list (option (K * W)) * res W :=
    let '(s', d', r) := f (fst sl) d v in ((s', snd sl ++ [v]), d', r).
End Steps.
