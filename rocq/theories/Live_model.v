(* Live_model.v -- /repo/cjktools/maps.py, with methods that may change the list
   or dictionary they are being mapped over.  [Maps_model.v] assumes they do not.

   A list iterator of CPython is an index into the list.  A dictionary is a
   table of slots in the order of insertion, where deleted entries leave gaps;
   its iterator is an index into the table together with the size the
   dictionary had and the number of entries still to come (since 3.8).  The
   truth value of a result is taken not to change the list. *)
From Verif Require Import Base Maps_model.

Section LiveList.
  Context {S A B : Type}.
  Variable method : S -> list A -> A -> S * list A * res B.
  Variable truthy : B -> bool.

  (* maps.py:142-143  procmap; [i] is the index the iterator holds *)
  Fixpoint live_procmap (fuel i : nat) (s : S) (item_list : list A) : S * list A * res unit :=
    match fuel with
    | O => (s, item_list, Raise OutOfFuel)
    | Datatypes.S f =>
        match nth_error item_list i with
        | None => (s, item_list, Ok tt)
        | Some item =>
            match method s item_list item with
            | (s', l', Ok _) => live_procmap f (Datatypes.S i) s' l'
            | (s', l', Raise e) => (s', l', Raise e)
            end
        end
    end.

  (* maps.py:179-189  partial_map *)
  Fixpoint live_partial_map (fuel i : nat) (s : S) (object_seq : list A) (mapped : list B) (rejected : list A)
    : S * list A * res (list B * list A) :=
    match fuel with
    | O => (s, object_seq, Raise OutOfFuel)
    | Datatypes.S f =>
        match nth_error object_seq i with
        | None => (s, object_seq, Ok (mapped, rejected))
        | Some item =>
            match method s object_seq item with
            | (s', l', Ok result) =>
                if truthy result then live_partial_map f (Datatypes.S i) s' l' (mapped ++ [result]) rejected
                else live_partial_map f (Datatypes.S i) s' l' mapped (rejected ++ [item])
            | (s', l', Raise e) => (s', l', Raise e)
            end
        end
    end.

  (* maps.py:197  filtered_map: [x for x in map(method, object_list) if x] *)
  Fixpoint live_filtered_map (fuel i : nat) (s : S) (object_list : list A) (result : list B) : S * list A * res (list B) :=
    match fuel with
    | O => (s, object_list, Raise OutOfFuel)
    | Datatypes.S f =>
        match nth_error object_list i with
        | None => (s, object_list, Ok result)
        | Some item =>
            match method s object_list item with
            | (s', l', Ok x) => live_filtered_map f (Datatypes.S i) s' l' (if truthy x then result ++ [x] else result)
            | (s', l', Raise e) => (s', l', Raise e)
            end
        end
    end.
End LiveList.

Section LiveDict.
  Context {K W S : Type} `{EqB K}.
  Notation slots := (list (option (K * W))) (only parsing).

  (* the entries of a table *)
  Definition entries (d : slots) : dict K W := flat_map (fun o => match o with Some p => [p] | None => [] end) d.
  Definition used (d : slots) : nat := length (entries d).

  (* dictionary[key] = value: the slot of the key, or a new one at the end;
     [grows] tells when the table is full, so that it is rebuilt without gaps *)
  Variable grows : slots -> bool.
  Fixpoint overwrite (key : K) (value : W) (d : slots) : option slots :=
    match d with
    | [] => None
    | Some (k, v) :: r => if eqb key k then Some (Some (k, value) :: r) else option_map (cons (Some (k, v))) (overwrite key value r)
    | None :: r => option_map (cons None) (overwrite key value r)
    end.
  Definition store (key : K) (value : W) (d : slots) : slots :=
    match overwrite key value d with
    | Some d' => d'
    | None => (if grows d then map Some (entries d) else d) ++ [Some (key, value)]
    end.

  (* the first entry in slot p or later, and the slot after it *)
  Fixpoint entry_from (i p : nat) (d : slots) : option (nat * (K * W)) :=
    match d with
    | [] => None
    | o :: r =>
        match p, o with
        | O, Some e => Some (Datatypes.S i, e)
        | O, None => entry_from (Datatypes.S i) O r
        | Datatypes.S p', _ => entry_from (Datatypes.S i) p' r
        end
    end.

  Variable method : S -> slots -> W -> S * slots * res W.

  (* maps.py:91-92  for key, value in iteritems(dictionary): dictionary[key] =
     method(value).  The iterator: [left] entries to come, slot [p], [size] *)
  Fixpoint live_loop (left p size : nat) (s : S) (d : slots) : S * slots * res unit :=
    if negb (Nat.eqb (used d) size) then (s, d, Raise RuntimeError)
    else
      match entry_from O p d with
      | None => (s, d, Ok tt)
      | Some (p', (key, value)) =>
          match left with
          | O => (s, d, Raise RuntimeError)
          | Datatypes.S n =>
              match method s d value with
              | (s', d', Ok w) => live_loop n p' size s' (store key w d')
              | (s', d', Raise e) => (s', d', Raise e)
              end
          end
      end.
  Definition live_map_dict (s : S) (d : slots) : S * slots * res unit := live_loop (used d) O (used d) s d.

  (* maps.py:96  dict((k, method(v)) for (k, v) in iteritems(dictionary)) *)
  Fixpoint live_gen (left p size : nat) (s : S) (d : slots) (acc : dict K W) : S * slots * res (dict K W) :=
    if negb (Nat.eqb (used d) size) then (s, d, Raise RuntimeError)
    else
      match entry_from O p d with
      | None => (s, d, Ok acc)
      | Some (p', (key, value)) =>
          match left with
          | O => (s, d, Raise RuntimeError)
          | Datatypes.S n =>
              match method s d value with
              | (s', d', Ok w) => live_gen n p' size s' d' (dset key w acc)
              | (s', d', Raise e) => (s', d', Raise e)
              end
          end
      end.
  Definition live_map_dict_copy (s : S) (d : slots) : S * slots * res (dict K W) := live_gen (used d) O (used d) s d [].
End LiveDict.
