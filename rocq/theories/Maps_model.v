(* Maps_model.v -- model of /repo/cjktools/maps.py

   Dictionary objects whose identity matters live in a store: an address is
   an index, a Python reference is an address.  A user-supplied method is a
   state-passing function [S -> A -> S * res B], where [S] is whatever the
   method can read and write (here it does not modify the list or dictionary
   being iterated over; Live_model.v lets it). *)
From Verif Require Import Base.

(* ---------------- store of objects ---------------- *)
Notation addr := nat (only parsing).
Definition fetch {D} (d0 : D) (st : list D) (a : addr) : D := nth a st d0.
Fixpoint put {D} (st : list D) (a : addr) (x : D) : list D :=
  match st, a with
  | [], _ => []
  | _ :: r, O => x :: r
  | y :: r, S a' => y :: put r a' x
  end.

Section Maps.
  Context {K V : Type} `{EqB K} `{EqB V}.

  (* ---------------- map_dict (maps.py:75-96) ---------------- *)
  Section MapDict.
    Context {S W : Type}.
    Variable method : S -> W -> S * res W.

    (* maps.py:89-93  the in-place loop; stops at the first exception *)
    Fixpoint map_dict_loop (s : S) (todo : list (K * W)) (d : dict K W) : S * dict K W * res unit :=
      match todo with
      | [] => (s, d, Ok tt)
      | (key, value) :: r =>
          match method s value with
          | (s', Ok w) => map_dict_loop s' r (dset key w d)
          | (s', Raise e) => (s', d, Raise e)
          end
      end.

    (* maps.py:96  dict((k, method(v)) for (k, v) in iteritems(dictionary)) *)
    Fixpoint map_dict_gen (s : S) (todo : list (K * W)) (acc : dict K W) : S * res (dict K W) :=
      match todo with
      | [] => (s, Ok acc)
      | (k, v) :: r =>
          match method s v with
          | (s', Ok w) => map_dict_gen s' r (dset k w acc)
          | (s', Raise e) => (s', Raise e)
          end
      end.

    (* maps.py:75-96  map_dict: takes the address of the dictionary, returns
       the address of the result *)
    Definition map_dict (s : S) (st : list (dict K W)) (d : addr) (in_place : bool)
      : S * list (dict K W) * res addr :=
      if in_place then
        match map_dict_loop s (fetch [] st d) (fetch [] st d) with
        | (s', d', Ok _) => (s', put st d d', Ok d)
        | (s', d', Raise e) => (s', put st d d', Raise e)
        end
      else
        match map_dict_gen s (fetch [] st d) [] with
        | (s', Ok d') => (s', st ++ [d'], Ok (length st))
        | (s', Raise e) => (s', st, Raise e)
        end.
  End MapDict.

  (* maps.py:33-43  invert_mapping *)
  Definition invert_mapping (dictionary : dict K (list V)) : dict V (list K) :=
    fold_left (fun acc kvs => fold_left (fun acc v => dextend v [fst kvs] acc) (snd kvs) acc)
              dictionary [].

  (* maps.py:46-59  is_injective *)
  Fixpoint is_injective_loop (items : list (K * V)) (covered : list V) : bool :=
    match items with
    | [] => true
    | (_, value) :: r => if mem value covered then false else is_injective_loop r (sadd value covered)
    end.
  Definition is_injective (dictionary : dict K V) : bool := is_injective_loop dictionary [].

  (* maps.py:62-72  invert_injective_mapping *)
  Fixpoint invert_injective_loop (items : list (K * V)) (inv : dict V K) : res (dict V K) :=
    match items with
    | [] => Ok inv
    | (key, value) :: r =>
        if dmem value inv then Raise AssertionError else invert_injective_loop r (dset value key inv)
    end.
  Definition invert_injective_mapping (dictionary : dict K V) : res (dict V K) :=
    invert_injective_loop dictionary [].

  (* maps.py:99-123  multi_dict *)
  Definition multi_dict (input_pairs : list (K * V)) : dict K (list V) :=
    fold_left (fun acc kv =>
                 let existing := match dget (fst kv) acc with Some l => l | None => [] end in
                 dset (fst kv) (existing ++ [snd kv]) acc) input_pairs [].

  (* maps.py:146-159  merge_dicts.  The collections are objects: [heap] maps a
     reference to its items in iteration order.  [set(items)] allocates,
     [.update(items)] mutates the object already stored in the result. *)
  Definition merge_step (acc : list (list V) * dict K addr) (item : K * addr) : list (list V) * dict K addr :=
    let '(heap, unified) := acc in
    let '(key, items) := item in
    match dget key unified with
    | Some r => (put heap r (supdate (fetch [] heap r) (fetch [] heap items)), unified)
    | None => (heap ++ [set_of (fetch [] heap items)], dset key (length heap) unified)
    end.
  Definition merge_dicts (heap : list (list V)) (args : list (dict K addr)) : list (list V) * dict K addr :=
    fold_left merge_step (concat args) (heap, []).
End Maps.

(* maps.py:16-30  chain_mapping over dictionaries of one universe of values:
   the addresses of the arguments, the store of dictionaries *)
Section Chain.
  Context {V : Type} `{EqB V}.
  (* dictionary.__getitem__ as a method without state *)
  Definition getitem_method (d : dict V V) (s : unit) (v : V) : unit * res V := (s, dgetitem d v).

  Fixpoint chain_loop (st : list (dict V V)) (base : addr) (rest : list addr) : list (dict V V) * res addr :=
    match rest with
    | [] => (st, Ok base)
    | a :: r =>
        match map_dict (getitem_method (fetch [] st a)) tt st base true with
        | (_, st', Ok b) => chain_loop st' b r
        | (_, st', Raise e) => (st', Raise e)
        end
    end.
  Definition chain_mapping (st : list (dict V V)) (dictionaries : list addr) : list (dict V V) * res addr :=
    match dictionaries with
    | [] => (st, Raise IndexError)
    | a :: rest => chain_loop (st ++ [fetch [] st a]) (length st) rest
    end.
End Chain.

Section Seq.
  Context {S A B : Type}.
  Variable method : S -> A -> S * res B.
  Variable truthy : B -> bool.   (* Python truth value of a result *)

  (* maps.py:126-143  procmap *)
  Fixpoint procmap (s : S) (item_list : list A) : S * res unit :=
    match item_list with
    | [] => (s, Ok tt)
    | item :: r =>
        match method s item with
        | (s', Ok _) => procmap s' r
        | (s', Raise e) => (s', Raise e)
        end
    end.

  (* maps.py:162-189  partial_map *)
  Fixpoint partial_map_loop (s : S) (items : list A) (mapped : list B) (rejected : list A)
    : S * res (list B * list A) :=
    match items with
    | [] => (s, Ok (mapped, rejected))
    | item :: r =>
        match method s item with
        | (s', Ok result) =>
            if truthy result then partial_map_loop s' r (mapped ++ [result]) rejected
            else partial_map_loop s' r mapped (rejected ++ [item])
        | (s', Raise e) => (s', Raise e)
        end
    end.
  Definition partial_map (s : S) (object_seq : list A) := partial_map_loop s object_seq [] [].

  (* maps.py:192-197  filtered_map *)
  Fixpoint filtered_map (s : S) (object_list : list A) : S * res (list B) :=
    match object_list with
    | [] => (s, Ok [])
    | item :: r =>
        match method s item with
        | (s', Ok x) =>
            match filtered_map s' r with
            | (s'', Ok xs) => (s'', Ok (if truthy x then x :: xs else xs))
            | (s'', Raise e) => (s'', Raise e)
            end
        | (s', Raise e) => (s', Raise e)
        end
    end.
End Seq.
