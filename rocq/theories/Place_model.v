(* Place_model.v -- model of /repo/cjktools/resources/place.py.
   Place objects live in a store; a reference is an address, and a place's
   dictionary maps labels to addresses.  Files are given by their text; the
   codec is not modelled.  Labels that are not strings are in Said_model.v. *)
From Verif Require Import Base PyText PyFmt Rose Maps_model.

(* the attributes; get_children (place.py:45-46) gives the values of [kids] *)
Record place := { label : str; reading : option str; aliases : option (list str); kids : dict str addr }.
Definition no_place : place := {| label := []; reading := None; aliases := None; kids := [] |}.
Definition at_ (h : list place) (a : addr) : place := fetch no_place h a.
Definition set_kids (p : place) (d : dict str addr) : place :=
  {| label := label p; reading := reading p; aliases := aliases p; kids := d |}.

(* place.py:26-43  __init__ *)
Definition place_new (label : str) (reading : option str) (aliases : option (list str)) : res place :=
  if mem 32 label || match reading with Some r => mem 32 r | None => false end
     || match aliases with Some l => mem 32 (concat l) | None => false end
  then Raise ValueError
  else Ok {| label := label; reading := reading; aliases := aliases; kids := [] |}.

(* place.py:108-110  append *)
Definition append (h : list place) (self node : addr) : list place :=
  put h self (set_kids (at_ h self) (dset (label (at_ h node)) node (kids (at_ h self)))).

(* '%s' of a reading *)
Definition show_reading (r : option str) : str := match r with Some s => s | None => u "None" end.

Section Lines.
  Variable repr : str -> str.    (* repr() of a string *)
  Variable dv : Z -> option Z.

  (* repr() of a list of strings *)
  Definition repr_list (l : list str) : str := u "[" ++ join (u ", ") (map repr l) ++ u "]".

  (* place.py:201-209  _to_line *)
  Definition to_line (p : place) (depth : Z) : str :=
    match aliases p with
    | Some (x :: r) => dec depth ++ u " " ++ label p ++ u " " ++ show_reading (reading p) ++ u " " ++ repr_list (x :: r)
    | _ => dec depth ++ u " " ++ label p ++ u " " ++ show_reading (reading p)
    end.

  (* place.py:211-233  _from_line *)
  Definition from_line (line : str) : res (Z * place) :=
    match split_ws (rstrip line) with
    | [depth; label; reading] =>
        do depth <- of_option ValueError (py_int dv 10 depth);
        let reading := if eqb reading (u "None") then None else Some reading in
        do p <- place_new label reading None; Ok (depth, p)
    | [depth; label; reading; aliases] =>
        do depth <- of_option ValueError (py_int dv 10 depth);
        let reading := if eqb reading (u "None") then None else Some reading in
        do p <- place_new label reading (Some (split_on (u1 ":") aliases)); Ok (depth, p)
    | _ => Raise ValueError
    end.

  (* place.py:79-103  the loop of from_file *)
  Fixpoint load_loop (h : list place) (path : list addr) (last_depth : Z) (last_node : addr) (lines : list str)
      : res (list place) :=
    match lines with
    | [] => Ok h
    | line :: rest =>
        do r <- from_line line;
        let '(depth, p) := r in
        let node := length h in
        let h := h ++ [p] in
        do path <- (if depth =? last_depth + 1 then Ok (path ++ [last_node])
                    else if depth =? last_depth then Ok path
                    else if depth <? last_depth then Ok (but_last (last_depth - depth) path)
                    else Raise PlainException);
        match pop_last path with
        | None => Raise IndexError
        | Some (parent, _) => load_loop (append h parent node) path depth node rest
        end
    end.
  (* place.py:68-106  from_file: the store afterwards and the new root *)
  Definition from_file (h : list place) (lines : list str) : res (list place * addr) :=
    match lines with
    | [] => Raise StopIteration
    | line :: rest =>
        do r <- from_line line;
        let '(depth, p) := r in
        if negb (depth =? 0) then Raise PlainException
        else
          let root_node := length h in
          do h' <- load_loop (h ++ [p]) [root_node] depth root_node rest;
          Ok (h', root_node)
    end.

  (* place.py:155-169  walk: the pairs yielded *)
  Fixpoint walk_loop (fuel : nat) (h : list place) (output_stack : list (Z * addr)) : res (list (Z * addr)) :=
    match fuel with
    | O => Raise OutOfFuel
    | S f =>
        match pop_last output_stack with
        | None => Ok []
        | Some ((depth, a), output_stack) =>
            let children := rev (map (fun p => (depth + 1, p)) (dvals (kids (at_ h a)))) in
            rmap (cons (depth, a)) (walk_loop f h (output_stack ++ children))
        end
    end.
  Definition walk (fuel : nat) (h : list place) (self : addr) : res (list (Z * addr)) :=
    walk_loop fuel h (rev [(0, self)]).

  (* place.py:63-66  dump: the text written *)
  Definition dump (fuel : nat) (h : list place) (self : addr) : res str :=
    rmap (flat_map (fun dp => to_line (at_ h (snd dp)) (fst dp) ++ [10])) (walk fuel h self).
End Lines.

(* place.py:171-199  walk_with_path *)
Fixpoint with_path (h : list place) (path : list str) (last_depth : Z) (last_node : option addr) (w : list (Z * addr))
    : res (list (str * addr)) :=
  match w with
  | [] => Ok []
  | (depth, node) :: rest =>
      do path <- (if depth =? last_depth + 1 then
                    match last_node with Some n => Ok (path ++ [label (at_ h n)]) | None => Raise AttributeError end
                  else if depth =? last_depth then Ok path
                  else if depth <? last_depth then Ok (but_last (last_depth - depth) path)
                  else Raise PlainException);
      rmap (cons (join (u "/") path, node)) (with_path h path depth (Some node) rest)
  end.
Definition walk_with_path (fuel : nat) (h : list place) (self : addr) : res (list (str * addr)) :=
  do w <- walk fuel h self; with_path h [] 0 None w.

(* place.py:143-153  find_all *)
Definition find_all (fuel : nat) (h : list place) (self : addr) (l : str) : res (list (str * addr)) :=
  do w <- walk_with_path fuel h self; Ok (filter (fun pn => eqb (label (at_ h (snd pn))) l) w).

(* place.py:112-141  find_node; [] is returned at the root *)
Inductive found := Root | Found (target_node : addr) (target_path : list str).
Section Find.
  (* the n-th call of random.shuffle *)
  Variable shuffle : nat -> list (list str * addr) -> list (list str * addr).
  Fixpoint find_loop (fuel n : nat) (h : list place) (l : str) (frontier next_frontier : list (list str * addr)) : res found :=
    match fuel with
    | O => Raise OutOfFuel
    | S f =>
        match frontier, next_frontier with
        | [], [] => Raise KeyError
        | _, _ =>
            match pop_last frontier with
            | Some ((current_path, next_node), frontier) =>
                match dget l (kids (at_ h next_node)) with
                | Some target_node => Ok (Found target_node (current_path ++ [l]))
                | None =>
                    find_loop f n h l frontier
                      (next_frontier ++ map (fun ln => (current_path ++ [fst ln], snd ln)) (kids (at_ h next_node)))
                end
            | None => find_loop f (S n) h l (shuffle n next_frontier) []
            end
        end
    end.
  Definition find_node (fuel : nat) (h : list place) (self : addr) (l : str) : res found :=
    if eqb l (label (at_ h self)) then Ok Root else find_loop fuel O h l [([], self)] [].
End Find.
