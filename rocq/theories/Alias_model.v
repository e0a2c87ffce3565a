(* Alias_model.v -- objects handed out by memory_proxy,
   /repo/cjktools/smart_cache.py:67-92, and what their receivers do with them.

   The method builds a new object at each invocation; [heap] holds the contents
   of the objects built so far, an object is its position.  Between calls the
   receivers may change the objects they were given. *)
From Verif Require Import Base SmartCache_model.

Section Alias.
  Context {O V : Type}.
  Variable oeq : O -> O -> bool.
  Variable hashable : O -> bool.
  Notation key := (list O * list (str * O))%type (only parsing).
  Variable build : key -> res V.       (* the contents of the object the method builds *)

  (* an invocation of the method *)
  Definition building (heap : list V) (k : key) : list V * res nat :=
    match build k with Ok v => (heap ++ [v], Ok (length heap)) | Raise e => (heap, Raise e) end.

  (* a call, or a change to the object that call number [n] returned *)
  Inductive act := Call (k : key) | Change (n : nat) (f : V -> V).

  Fixpoint change (f : V -> V) (heap : list V) (a : nat) : list V :=
    match heap, a with
    | [], _ => []
    | v :: r, 0%nat => f v :: r
    | v :: r, S a => v :: change f r a
    end.

  (* smart_cache.py:79-88 in a history; [given] are the results of the calls so
     far, the result of the run the contents each caller found *)
  Fixpoint share (heap : list V) (d : list (key * nat)) (given : list (res nat)) (h : list act) : list (res V) :=
    match h with
    | [] => []
    | Call k :: r =>
        let '(heap', d', a) := memory_call oeq hashable building heap d k in
        (match a with Ok a => of_option IndexError (nth_error heap' a) | Raise e => Raise e end)
        :: share heap' d' (given ++ [a]) r
    | Change n f :: r =>
        match nth_error given n with
        | Some (Ok a) => share (change f heap a) d given r
        | _ => share heap d given r
        end
    end.
  Definition shared (h : list act) : list (res V) := share [] [] [] h.
End Alias.
Arguments act : clear implicits.
