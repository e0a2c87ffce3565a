(* MemoRec_model.v -- memory_proxy (/repo/cjktools/smart_cache.py:67-91) around a
   method that calls the proxy again.

   When memory_proxy is used as a decorator the name of the method refers to the
   proxy, so a recursive method calls proxy_method while an outer call of it is
   still running.  SmartCache_model.memory_call treats the method as one step;
   here the method is its sequence of calls.  The method is deterministic: what
   it does next depends on its arguments and on the outcomes of the calls it has
   made (an exception of an inner call may be caught).  The recursion depth is
   bounded by [fuel], None when it is too small (Python's RecursionError is not
   modelled; the theorems quantify over all depths). *)
From Verif Require Import Base PyStr SmartCache_model.

Section Memo.
  Context {O V : Type}.
  Variable oeq : O -> O -> bool.
  Variable hashable : O -> bool.
  Notation key := (list O * list (str * O))%type (only parsing).

  (* the run of a method body: its next call, or its outcome *)
  Inductive body : Type :=
  | Done (r : res V)
  | Call (k : key) (next : res V -> body).

  Variable method : key -> body.

  (* the undecorated method: inner calls run the method *)
  Fixpoint eval (call : key -> option (res V)) (b : body) : option (res V) :=
    match b with
    | Done r => Some r
    | Call k next => match call k with Some r => eval call (next r) | None => None end
    end.
  Fixpoint direct (fuel : nat) (k : key) : option (res V) :=
    match fuel with Datatypes.O => None | Datatypes.S n => eval (direct n) (method k) end.

  (* method_dict[key] = result *)
  Fixpoint mset (k : key) (v : V) (d : list (key * V)) : list (key * V) :=
    match d with
    | [] => [(k, v)]
    | (k', w) :: r => if key_eq oeq k k' then (k', v) :: r else (k', w) :: mset k v r
    end.

  (* inner calls go through the proxy; also records the keys the method was
     started on, in order *)
  Notation outcome := (option (list (key * V) * list key * res V)) (only parsing).
  Fixpoint run_body (call : list (key * V) -> key -> outcome) (d : list (key * V)) (b : body) : outcome :=
    match b with
    | Done r => Some (d, [], r)
    | Call k next =>
        match call d k with
        | None => None
        | Some (d1, t1, r1) =>
            match run_body call d1 (next r1) with
            | None => None
            | Some (d2, t2, r2) => Some (d2, t1 ++ t2, r2)
            end
        end
    end.

  (* smart_cache.py:79-88  proxy_method *)
  Fixpoint rec_call (fuel : nat) (d : list (key * V)) (k : key) : outcome :=
    match fuel with
    | Datatypes.O => None
    | Datatypes.S n =>
        if key_hashable hashable k then
          match mget oeq k d with
          | Some v => Some (d, [], Ok v)
          | None =>
              match run_body (rec_call n) d (method k) with
              | None => None
              | Some (d', t, Ok result) => Some (mset k result d', k :: t, Ok result)
              | Some (d', t, Raise e) => Some (d', k :: t, Raise e)
              end
          end
        else Some (d, [], Raise TypeError)
    end.

  (* a history of outside calls *)
  Fixpoint rec_run (fuel : nat) (d : list (key * V)) (calls : list key) : option (list (key * V) * list key * list (res V)) :=
    match calls with
    | [] => Some (d, [], [])
    | k :: r =>
        match rec_call fuel d k with
        | None => None
        | Some (d1, t1, o) =>
            match rec_run fuel d1 r with
            | None => None
            | Some (d2, t2, os) => Some (d2, t1 ++ t2, o :: os)
            end
        end
    end.
End Memo.
Arguments body : clear implicits.
