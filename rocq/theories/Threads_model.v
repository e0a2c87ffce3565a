(* Threads_model.v -- threads sharing a function decorated with memory_proxy,
   /repo/cjktools/smart_cache.py:67-92.

   The threads are interleaved by an arbitrary scheduler between the steps of
   proxy_method: the membership test, the lookup of a hit, the call of the
   method, the assignment.  Each dictionary operation is atomic.  The method
   itself runs in one step; its state [S] is shared. *)
From Verif Require Import Base SmartCache_model.

Section Threads.
  Context {O V S : Type}.
  Variable oeq : O -> O -> bool.
  Variable hashable : O -> bool.
  Notation key := (list O * list (str * O))%type (only parsing).
  Variable method : S -> key -> S * res V.

  (* d[k] = v: an equal key keeps its place and spelling *)
  Fixpoint mset (k : key) (v : V) (d : list (key * V)) : list (key * V) :=
    match d with
    | [] => [(k, v)]
    | (k', w) :: r => if key_eq oeq k k' then (k', v) :: r else (k', w) :: mset k v r
    end.

  (* where a thread is in proxy_method *)
  Inductive thread :=
  | AtTest (k : key)                (* line 81: if key in method_dict *)
  | AtHit (k : key)                 (* line 83: return method_dict[key] *)
  | AtCall (k : key)                (* line 86 *)
  | AtStore (k : key) (result : V)  (* line 87 *)
  | Finished (k : key) (r : res V).

  (* smart_cache.py:79-88  one step of proxy_method *)
  Definition tstep (s : S) (d : list (key * V)) (t : thread) : S * list (key * V) * thread :=
    match t with
    | AtTest k =>
        (s, d, if key_hashable hashable k then match mget oeq k d with Some _ => AtHit k | None => AtCall k end
               else Finished k (Raise TypeError))
    | AtHit k => (s, d, Finished k (match mget oeq k d with Some v => Ok v | None => Raise KeyError end))
    | AtCall k =>
        match method s k with
        | (s', Ok result) => (s', d, AtStore k result)
        | (s', Raise e) => (s', d, Finished k (Raise e))
        end
    | AtStore k result => (s, mset k result d, Finished k (Ok result))
    | Finished _ _ => (s, d, t)
    end.

  Fixpoint tupdate (i : nat) (t : thread) (l : list thread) : list thread :=
    match l, i with
    | [], _ => []
    | _ :: r, 0%nat => t :: r
    | x :: r, Datatypes.S i => x :: tupdate i t r
    end.

  Definition tsched (w : S * list (key * V) * list thread) (i : nat) : S * list (key * V) * list thread :=
    let '(s, d, ts) := w in
    match nth_error ts i with
    | Some t => let '(s', d', t') := tstep s d t in (s', d', tupdate i t' ts)
    | None => w
    end.
  Definition trun (w : S * list (key * V) * list thread) (schedule : list nat) : S * list (key * V) * list thread :=
    fold_left tsched schedule w.
End Threads.
Arguments thread : clear implicits.
